(* The array reading tests: for which lengths they pass (C144). *)

From Coq Require Import ZArith Lia List Bool Reals Lra.
From RecordUpdate Require Import RecordUpdate.
From Flocq Require Import Core.Core IEEE754.BinarySingleNaN.
From Verif Require Import Machine Floats FloatFacts WavModel InterpModel CacheModel ReaderModel ReaderFacts ReaderSpec Sessions StreamFacts PlayProofs ForwardProofs
  FileSpec FileForward QuadProofs InterpWalk CacheFacts PlayProofs InterpWalk UnitModel UnitProofs UnitArrayModel.
Import ListNotations.
Local Open Scope Z_scope.

Lemma reset_interp : forall r i q, r_reset r = Ok q -> r_reset (setInterpolationType r i) = Ok (setInterpolationType q i).
Proof.
  intros r i q E. unfold r_reset in *. apply bind_ok in E. destruct E as (p & E1 & E2). apply Ok_inj in E2. rewrite <- E2. clear E2 q.
  change (r_rate (setInterpolationType r i)) with (r_rate r). change (r_pstart (setInterpolationType r i)) with (r_pstart r).
  change (r_fsize (setInterpolationType r i)) with (r_fsize r). change (r_nch (setInterpolationType r i)) with (r_nch r).
  change (r_lf (setInterpolationType r i)) with (r_lf r). change (r_ls (setInterpolationType r i)) with (r_ls r).
  change (r_pbstart (setInterpolationType r i)) with (r_pbstart r).
  change (spos (setInterpolationType r i)) with (spos r). rewrite E1. reflexivity.
Qed.
Definition array_ready (r : reader) (m : mem) (off len nch : Z) : reader :=
  setNumChannels (r_stop (r <| r_src := SArr m off |>) <| r_hdr := 0 |> <| r_fsize := s32 (u32 (len * 2)) |> <| r_ls := 0 |> <| r_lf := s32 len |> <| r_fsamples := s32 len |>) nch.
Lemma array_eq : forall r m off len nch, playRaw_array r m off len nch = (q <- r_reset (array_ready r m off len nch) ;; Ok (q <| r_playing := true |>)).
Proof. intros. reflexivity. Qed.
Lemma ready_interp : forall r i m off len nch, array_ready (setInterpolationType r i) m off len nch = setInterpolationType (array_ready r m off len nch) i.
Proof. intros r i m off len nch. destruct r. reflexivity. Qed.
Lemma play_interp : forall r i m off len nch r', playRaw_array r m off len nch = Ok r' ->
  playRaw_array (setInterpolationType r i) m off len nch = Ok (setInterpolationType r' i).
Proof.
  intros r i m off len nch r' H. rewrite array_eq in *. rewrite ready_interp. apply bind_ok in H. destruct H as (q & E & H). apply Ok_inj in H. rewrite <- H.
  rewrite (reset_interp _ i q E). reflexivity.
Qed.

Lemma blocks_counted : forall F K l r r', read_seq F r (repeat 256%nat K) = Ok (cut (repeat 256%nat K) l, r') -> (length l + 256 <= 256 * K)%nat ->
  exists bs r2, read_blocks F K r = Ok (bs, r2) /\ count_samples bs = Z.of_nat (length l).
Proof.
  intros F. induction K as [|K IH]; intros l r r' E L; [lia|].
  cbn [repeat read_seq cut] in E. apply bind_ok in E. destruct E as ([b r1] & E1 & E). apply bind_ok in E. destruct E as ([bs0 r3] & E2 & E).
  apply Ok_inj, pair_equal_spec in E. destruct E as [E3 <-]. apply (f_equal (fun x => (hd [] x, tl x))), pair_equal_spec in E3. cbn [hd tl] in E3. destruct E3 as [-> ->].
  cbn [read_blocks]. change 256 with (Z.of_nat 256) at 1. rewrite E1. cbn [bind].
  assert (LF : length (firstn 256 l) = Nat.min 256 (length l)) by apply firstn_length.
  destruct (firstn 256 l) as [|v b] eqn:FN.
  - assert (l = []) as -> by (destruct l; [reflexivity|discriminate]). exists [], r1. split; reflexivity.
  - assert (LP : (0 < length l)%nat) by (destruct l; [discriminate|cbn; lia]).
    destruct (IH (skipn 256 l) r1 r3 E2) as (bs & r2 & Q1 & Q3).
    + rewrite skipn_length. lia.
    + rewrite Q1. cbn [bind]. exists ((v :: b) :: bs), r2. split; [reflexivity|]. cbn [count_samples fold_right].
      fold (count_samples bs). rewrite Q3, skipn_length. lia.
Qed.

Lemma delivered : forall r frames, delivers r (nth_error frames) -> exists fuel blocks bs r2, read_blocks fuel blocks r = Ok (bs, r2) /\
  count_samples bs = Z.of_nat (length frames).
Proof.
  intros r frames D. set (K := (2 + length frames)%nat). destruct (D (repeat 256%nat K)) as (F & r' & E). rewrite blocks_list in E. cbn [skipn] in E.
  destruct (blocks_counted F K frames r r' E) as (bs & r2 & B1 & B2); [unfold K; lia|]. exists F, K, bs, r2. auto.
Qed.

Lemma array_settings : forall x i r1 p, r1 = array_reader <| r_rate := x |> <| r_pos1 := p |> ->
  interp_settings i (setInterpolationType r1 i) LNone PSample 0 /\ basic_settings r1 LNone PSample 0 /\ r_interp r1 = INone /\ r_rate r1 = x.
Proof. intros x i r1 p ->. repeat split. Qed.

Lemma same_interp : forall r, r_interp r = INone -> setInterpolationType r INone = r.
Proof. intros [] H. cbn in H. subst. reflexivity. Qed.

Lemma plays : forall r m off len nch r', playRaw_array r m off len nch = Ok r' -> r_playing r' = true.
Proof. intros r m off len nch r' H. rewrite array_eq in H. apply bind_ok in H. destruct H as (q & _ & H). apply Ok_inj in H. rewrite <- H. reflexivity. Qed.

Theorem mono_passes : forall m off bytes, 0 <= off -> 0 <= bytes < 2 ^ 31 -> off + bytes <= msize m ->
  exists fuel blocks, mono_array_test fuel blocks m off bytes = Ok true.
Proof.
  intros m off bytes O B M. destruct (setRate_fwd array_reader d1 fin_d1 ltac:(rewrite R64_d1; lra)) as (r1 & E1 & p & R1).
  destruct (array_settings d1 ILinear r1 p R1) as (IS & BSET & _ & RR).
  assert (H2 : 0 <= bytes / 2 /\ 2 * (bytes / 2) <= bytes) by (split; [apply Z.div_pos; lia|apply Z.mul_div_le; lia]).
  assert (A : array_holds m off (bytes / 2) 1) by (unfold array_holds; lia).
  destruct (forward_count m off (bytes / 2) 1 r1 0 A BSET) as (r2 & E2 & _); rewrite ?RR, ?R64_d1; try exact grid_d1; try lra.
  { cbn [INR]. apply Rle_trans with 2%R; [lra|]. apply IZR_le. lia. }
  destruct (linear_playback m off (bytes / 2) 1 (setInterpolationType r1 ILinear) PSample 0 A ltac:(lia) IS) as (r3 & f & E3 & D & _);
    change (r_rate (setInterpolationType r1 ILinear)) with (r_rate r1); rewrite ?RR, ?R64_d1; try exact grid_d1; try lra; try discriminate.
  change (r_rate (setInterpolationType r1 ILinear)) with (r_rate r1) in D. rewrite RR, R64_d1 in D.
  rewrite (play_interp _ ILinear _ _ _ _ _ E2) in E3. apply Ok_inj in E3. subst r3.
  set (frames := map f (seq 0 (Z.to_nat (bytes / 2)))).
  destruct (delivered (setInterpolationType r2 ILinear) frames) as (F & K & bs & r4 & Q1 & Q2).
  { apply (delivers_ext (setInterpolationType r2 ILinear) (slow_stream (bytes / 2) 0 1 f)); [|exact D]. intro k. unfold frames. rewrite nth_error_map_seq. unfold slow_stream. rewrite floor_same.
    destruct (Z.ltb_spec (0 + Z.of_nat k) (bytes / 2)); destruct (Nat.ltb_spec k (Z.to_nat (bytes / 2))); auto; lia. }
  exists F, K. unfold mono_array_test, count_test. rewrite E1. cbn [bind]. change (Z.of_nat 1) with 1 in E2. rewrite E2. cbn [bind]. rewrite Q1. cbn [bind].
  rewrite (plays _ _ _ _ _ _ E2), Q2. unfold frames. rewrite map_length, seq_length, Z2Nat.id, Z.eqb_refl by lia. reflexivity.
Qed.

Theorem stereo_passes : forall m off bytes, 0 <= off -> 0 <= bytes < 2 ^ 31 -> off + bytes <= msize m ->
  exists fuel blocks, stereo_array_test fuel blocks m off bytes = Ok (bytes mod 4 <? 2).
Proof.
  intros m off bytes O B M. destruct rate_half as [G V]. set (x := ddiv d1 (d_of_Z 2)) in *.
  destruct (setRate_fwd array_reader x (proj1 G) ltac:(lra)) as (r1 & E1 & p & R1).
  destruct (array_settings x INone r1 p R1) as (_ & BSET & IN & RR).
  assert (H2 : 0 <= bytes / 4 /\ 4 * (bytes / 4) <= bytes) by (split; [apply Z.div_pos; lia|apply Z.mul_div_le; lia]).
  assert (A : array_holds m off (bytes / 4) 2) by (unfold array_holds; lia).
  destruct (forward_count m off (bytes / 4) 2 r1 0 A BSET) as (r2 & E2 & frames & D & L); rewrite ?RR, ?V; try exact G; try lra.
  { cbn [INR]. apply Rle_trans with 3%R; [lra|]. apply IZR_le. lia. }
  rewrite RR, V in L. replace (IZR (bytes / 4) / / 2)%R with (IZR (bytes / 4 * 2)) in L by (rewrite mult_IZR; field). rewrite Zceil_IZR in L.
  assert (SI : setInterpolationType r2 INone = r2).
  { pose proof (play_interp _ INone _ _ _ _ _ E2) as Y. rewrite (same_interp r1 IN) in Y.
    rewrite E2 in Y. apply Ok_inj in Y. now symmetry. }
  destruct (delivered _ frames D) as (F & K & bs & r4 & Q1 & Q2).
  exists F, K. unfold stereo_array_test, count_test. fold x. rewrite E1. cbn [bind]. change (Z.of_nat 2) with 2 in E2. rewrite E2. cbn [bind]. rewrite SI, Q1. cbn [bind].
  rewrite (plays _ _ _ _ _ _ E2), Q2, L. cbn [andb]. f_equal.
  pose proof (Z.div_mod bytes 4 ltac:(lia)). pose proof (Z.mod_pos_bound bytes 4 ltac:(lia)).
  pose proof (Z.div_mod bytes 2 ltac:(lia)). pose proof (Z.mod_pos_bound bytes 2 ltac:(lia)).
  destruct (Z.eqb_spec (bytes / 2) (bytes / 4 * 2)), (Z.ltb_spec (bytes mod 4) 2); auto; lia.
Qed.

Lemma array_runs : mono_array_test 300 3 (mkMem 600 (fun a => a mod 256)) 0 600 = Ok true /\
  stereo_array_test 300 3 (mkMem 600 (fun a => a mod 256)) 0 600 = Ok true.
Proof. vm_compute. split; reflexivity. Qed.
Lemma stereo_fails : exists m fuel blocks, stereo_array_test fuel blocks m 0 602 = Ok false /\ msize m = 602.
Proof. exists (mkMem 602 (fun a => a mod 256)), 300%nat, 3%nat. vm_compute. split; reflexivity. Qed.
