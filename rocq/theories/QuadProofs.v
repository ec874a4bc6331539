(* Quadratic interpolation at rate 1 delays by two frames: C16. *)

From Coq Require Import ZArith Lia List Bool Reals Lra.
From RecordUpdate Require Import RecordUpdate.
From Flocq Require Import Core.Core IEEE754.BinarySingleNaN.
From Verif Require Import Machine Floats FloatFacts WavModel InterpModel CacheModel CacheFacts ReaderModel
  ReaderFacts ReaderSpec Sessions StreamFacts Walk ForwardProofs LifeProofs FadeProofs FadeLoop CubicProofs.
Import ListNotations.
Local Open Scope Z_scope.

Lemma lag_cubic : forall a b c d, cubic (fun t => lag a b c d (1000 * t)%R).
Proof.
  intros a b c d. set (A := IZR a). set (B := IZR b). set (C := IZR c). set (D := IZR d).
  exists A, (- 11 / 6 * A + 3 * B - 3 / 2 * C + / 3 * D)%R, (A - 5 / 2 * B + 2 * C - / 2 * D)%R, (- / 6 * A + / 2 * B - / 2 * C + / 6 * D)%R.
  intros t. unfold lag, cub. fold A B C D. field.
Qed.

(* at abscissa 1 the second point comes out, give or take 1 *)
Theorem node_value : forall a b c d x, in_s16 a -> in_s16 b -> in_s16 c -> in_s16 d -> fin32 x = true -> R32 x = 1%R ->
  exists v, fastinterpolate a b c d x = Ok v /\ in_s16 v /\ Z.abs (v - b) <= 1.
Proof.
  intros a b c d x A B C D F X. destruct (cubic_accuracy a b c d x A B C D F) as (v & E & R & H). { rewrite X. lra. }
  exists v. split; [exact E|]. split; [exact R|]. specialize (H _ (lag_cubic a b c d)). cbv beta in H. rewrite X in H.
  assert (L : forall t z, t = IZR z -> lag a b c d (1000 * t) = match z with 0 => IZR a | 1 => IZR b | 2 => IZR c | 3 => IZR d | _ => lag a b c d (1000 * t) end).
  { intros t z ->. destruct z as [|[[|[]|]|[|[]|]|]|]; try reflexivity; unfold lag, cub; field. }
  rewrite (L 0%R 0), (L 1%R 1), (L 2%R 2), (L 3%R 3) in H by reflexivity. specialize (H eq_refl eq_refl eq_refl eq_refl).
  assert (K : clampR (IZR b) = IZR b).
  { unfold in_s16 in B. assert (-32768 <= IZR b <= 32767)%R by (split; apply IZR_le; lia). unfold clampR, Rmin, Rmax. repeat (destruct (Rle_dec _ _)); lra. }
  rewrite K, <- minus_IZR, <- abs_IZR in H. assert (Z.abs (v - b) < 2); [|lia]. apply lt_IZR. lra.
Qed.

Definition one32 : b32 := f_of_d (dadd d1 d0).
Lemma one32_ok : fin32 one32 = true /\ R32 one32 = 1%R.
Proof.
  unfold one32. destruct (dadd_ok d1 d0 fin_d1 fin_d0) as [A F]. { apply big_ok. rewrite R64_d1, R64_d0, Rplus_0_r. rewrite Rabs_pos_eq; lra. }
  rewrite R64_d1, R64_d0, Rplus_0_r, rnd64_one in A. destruct (f_of_d_ok _ F) as [B G].
  { rewrite A. apply (big32 0); [lia|]. change (bpow radix2 0) with 1%R. rewrite Rabs_pos_eq; lra. }
  split; [exact G|]. rewrite B, A. apply rnd32_id, (fmt32_Z 1). lia.
Qed.

Lemma rem_zero : forall x : b64, is_finite x = true -> R64 x = 0%R -> exists s, x = B754_zero s.
Proof.
  intros [s|s| |s m e H] F Z; try discriminate; [eauto|]. exfalso. cbn in Z. apply eq_0_F2R in Z. destruct s; discriminate.
Qed.
Lemma one_point : forall s, dlt (dsub (B754_zero s) d1) d0 = true /\ d_to_s32 (dneg (dfloor (dsub (B754_zero s) d1))) = Ok 1 /\ dabs (B754_zero s) = d0.
Proof. intros []; repeat split; vm_compute; reflexivity. Qed.

Section Unity.
Variables (m : mem) (off len : Z) (nch : nat) (p0 : Z).
Hypothesis (HA : array_holds m off len nch) (HC : (nch <= 8)%nat) (HP : 0 <= p0).
Local Notation N := (Z.of_nat nch).
Local Notation smp := (smp m off nch).

Record qst (k : Z) (r : reader) : Prop := mkQ {
  q_dual : r_dual r = false; q_int : r_interp r = IQuadratic; q_nch : r_nch r = N; q_hdr : r_hdr r = 0; q_play : r_playing r = true;
  q_src : r_src r = SArr m off; q_loop : r_loop r = LNone; q_rate : r_rate r = d1; q_remf : is_finite (r_rem r) = true; q_rem : R64 (r_rem r) = 0%R;
  q_cfst : r_cfst r = 0; q_len : r_fsamples r = len; q_pos : r_pos1 r = (p0 + k) * N }.
(* channel c after k frames *)
Definition chan (k : Z) (c : nat) (q : quad) (n : Z) : Prop := n = Z.min k 4 /\
  (1 <= k -> y3 q = smp (p0 + k - 1) c) /\ (2 <= k -> y2 q = smp (p0 + k - 2) c) /\ (3 <= k -> y1 q = smp (p0 + k - 3) c) /\
  (4 <= k -> y0 q = smp (p0 + k - 4) c).
Definition val (k : Z) (c : nat) : Z :=
  if k <? 3 then 0 else match fastinterpolate (smp (p0 + k - 3) c) (smp (p0 + k - 2) c) (smp (p0 + k - 1) c) (smp (p0 + k) c) one32 with Ok v => v | _ => 0 end.
Definition wp (r : reader) (P : Z -> quad) (n : Z -> Z) : reader := r <| r_pts := P |> <| r_npts := n |>.

Lemma qst_wp : forall k r P n, qst k r -> qst k (wp r P n).
Proof. intros k r P n []. constructor; assumption. Qed.

Lemma q_smp : forall p c, in_s16 (smp p c).
Proof. intros. unfold smp. apply le16_range. Qed.

Lemma q_get : forall k r c, qst k r -> 0 <= k -> p0 + k < len -> (c < nch)%nat -> getAt r (r_pos1 r) 0 (Z.of_nat c) = Ok (smp (p0 + k) c, r).
Proof.
  intros k r c Q K H C. pose proof (sizes m off len nch HA) as (S1 & S2 & S3 & S4). unfold getAt. rewrite (q_pos _ _ Q), Z.mul_0_l, Z.add_0_r.
  assert (0 <= (p0 + k) * N /\ (p0 + k + 1) * N <= len * N) by nia.
  rewrite chk32_ok by (unfold in_s32; nia). cbn [bind]. rewrite chk32_ok by (unfold in_s32; nia). cbn [bind].
  unfold getSourceBufferValue. rewrite (q_src _ _ Q).
  destruct (Z.leb_spec 0 (off + 2 * ((p0 + k) * N + Z.of_nat c))); [|lia].
  destruct (Z.leb_spec (off + 2 * ((p0 + k) * N + Z.of_nat c) + 2) (msize m)); [|lia]. reflexivity.
Qed.
Lemma q_end : forall k r, qst k r -> 0 <= k -> p0 + k <= len -> at_end r = (len <=? p0 + k).
Proof.
  intros k r Q K H. pose proof (sizes m off len nch HA) as (S1 & S2 & S3 & S4). unfold at_end. rewrite (q_dual _ _ Q), (q_rate _ _ Q), (q_loop _ _ Q), (q_pos _ _ Q), (q_len _ _ Q).
  rewrite dge0_true by (rewrite ?R64_d1; auto using fin_d1; lra).
  unfold spos, sts. rewrite (q_hdr _ _ Q), (q_nch _ _ Q), Z.add_0_l. rewrite u32_id by (unfold in_u32; nia). rewrite s32_id by (unfold in_s32; nia).
  destruct (Z.leb_spec (len * N) ((p0 + k) * N)), (Z.leb_spec len (p0 + k)); auto; nia.
Qed.

Lemma q_add : forall r c y q n, r_interp r = IQuadratic -> (c < 8)%nat -> q = r_pts r (Z.of_nat c) -> n = r_npts r (Z.of_nat c) ->
  addPoint r (Z.of_nat c) y = Ok (wp r (upd (r_pts r) (Z.of_nat c) (mkQuad (y1 q) (y2 q) (y3 q) y)) (upd (r_npts r) (Z.of_nat c) (if n <? 4 then n + 1 else n))).
Proof.
  intros r c y q n I C -> ->. unfold addPoint. rewrite I. unfold chan_ok. destruct (Z.leb_spec 0 (Z.of_nat c)); [|lia]. destruct (Z.ltb_spec (Z.of_nat c) 8); [|lia]. reflexivity.
Qed.

Lemma q_read : forall k r c, qst k r -> 0 <= k -> p0 + k < len -> (c < nch)%nat -> chan k c (r_pts r (Z.of_nat c)) (r_npts r (Z.of_nat c)) ->
  exists q n, readNextValue r (Z.of_nat c) = Ok (Some (val k c), wp r (upd (r_pts r) (Z.of_nat c) q) (upd (r_npts r) (Z.of_nat c) n)) /\ chan (k + 1) c q n.
Proof.
  intros k r c Q K H C (C0 & C1 & C2 & C3 & C4). unfold readNextValue. rewrite (q_end k r Q) by lia. destruct (Z.leb_spec len (p0 + k)); [lia|].
  unfold fetch_value. rewrite (q_dual _ _ Q). cbn [negb orb]. rewrite (q_get k r c) by auto. cbn [bind]. rewrite (q_int _ _ Q).
  unfold quadratic_value. rewrite (q_rate _ _ Q). rewrite dgt0_true by (rewrite ?R64_d1; auto using fin_d1; lra).
  destruct (rem_zero _ (q_remf _ _ Q) (q_rem _ _ Q)) as [s ->]. destruct (one_point s) as (O1 & O2 & O3). cbv zeta. rewrite O1, O2, O3. cbn [bind].
  change (Z.to_nat (Z.min 1 4)) with 1%nat. cbn [push_points]. change (1 - Z.of_nat 1) with 0. rewrite (q_get k r c) by auto. cbn [bind].
  rewrite (q_dual _ _ Q). cbn [andb]. cbn [bind]. rewrite (q_add r c _ _ _ (q_int _ _ Q) ltac:(lia) eq_refl eq_refl). cbn [bind push_points].
  set (q := mkQuad _ _ _ _). set (n := if _ <? 4 then _ else _). unfold chan_ok. destruct (Z.leb_spec 0 (Z.of_nat c)); [|lia]. destruct (Z.ltb_spec (Z.of_nat c) 8); [|lia].
  cbn [andb bind]. exists q, n.
  assert (CH : chan (k + 1) c q n).
  { unfold q, n, chan. cbn [y0 y1 y2 y3]. rewrite C0. split; [destruct (Z.ltb_spec (Z.min k 4) 4); lia|].
    replace (p0 + (k + 1) - 1) with (p0 + k) by ring. replace (p0 + (k + 1) - 2) with (p0 + k - 1) by ring.
    replace (p0 + (k + 1) - 3) with (p0 + k - 2) by ring. replace (p0 + (k + 1) - 4) with (p0 + k - 3) by ring.
    repeat split; intros; auto; [apply C1|apply C2|apply C3]; lia. }
  split; [|exact CH]. 
  change (r_npts (wp r (upd (r_pts r) (Z.of_nat c) q) (upd (r_npts r) (Z.of_nat c) n)) (Z.of_nat c)) with (upd (r_npts r) (Z.of_nat c) n (Z.of_nat c)).
  change (r_pts (wp r (upd (r_pts r) (Z.of_nat c) q) (upd (r_npts r) (Z.of_nat c) n)) (Z.of_nat c)) with (upd (r_pts r) (Z.of_nat c) q (Z.of_nat c)).
  unfold upd at 1. rewrite Z.eqb_refl. unfold upd at 1 2 3 4. rewrite Z.eqb_refl. destruct CH as (D0 & D1 & D2 & D3 & D4). unfold val. fold one32.
  destruct (Z.ltb_spec k 3) as [L|L].
  - destruct (Z.leb_spec 4 n); [lia|]. reflexivity.
  - destruct (Z.leb_spec 4 n); [|lia]. rewrite D1, D2, D3, D4 by lia.
    replace (p0 + (k + 1) - 1) with (p0 + k) by ring. replace (p0 + (k + 1) - 2) with (p0 + k - 1) by ring.
    replace (p0 + (k + 1) - 3) with (p0 + k - 2) by ring. replace (p0 + (k + 1) - 4) with (p0 + k - 3) by ring.
    destruct one32_ok as [F1 F2].
    destruct (node_value (smp (p0 + k - 3) c) (smp (p0 + k - 2) c) (smp (p0 + k - 1) c) (smp (p0 + k) c) one32) as (v & E & _); auto using q_smp.
    rewrite E. reflexivity.
Qed.

Lemma q_channels : forall k todo c r, qst k r -> 0 <= k -> p0 + k < len -> (c + todo <= nch)%nat ->
  (forall i, (c <= i < c + todo)%nat -> chan k i (r_pts r (Z.of_nat i)) (r_npts r (Z.of_nat i))) ->
  exists P n, read_channels 1 todo (Z.of_nat c) r = Ok (Some (map (val k) (seq c todo)), wp r P n) /\
    (forall i, (c <= i < c + todo)%nat -> chan (k + 1) i (P (Z.of_nat i)) (n (Z.of_nat i))) /\
    (forall i, (i < c)%nat -> P (Z.of_nat i) = r_pts r (Z.of_nat i) /\ n (Z.of_nat i) = r_npts r (Z.of_nat i)).
Proof.
  intros k. induction todo as [|todo IH]; intros c r Q K H T CH.
  - exists (r_pts r), (r_npts r). split; [|split; [lia|auto]]. destruct r; reflexivity.
  - destruct (q_read k r c Q K H ltac:(lia) (CH c ltac:(lia))) as (q & n & E & CN).
    cbn [read_channels read_one]. rewrite E. cbn [bind].
    set (r1 := wp r _ _). replace (Z.of_nat c + 1) with (Z.of_nat (S c)) by lia.
    destruct (IH (S c) r1) as (P & n2 & E2 & A & B); auto; [now apply qst_wp|lia| |].
    { intros i Hi. unfold r1. change (r_pts (wp r ?a ?b)) with a. change (r_npts (wp r ?a ?b)) with b.
      rewrite !upd_other by lia. apply CH. lia. }
    exists P, n2. rewrite E2. split; [reflexivity|]. split.
    + intros i Hi. destruct (Nat.eq_dec i c) as [->|NE]; [|apply A; lia].
      destruct (B c ltac:(lia)) as [-> ->]. unfold r1. change (r_pts (wp r ?a ?b)) with a. change (r_npts (wp r ?a ?b)) with b. now rewrite !upd_same.
    + intros i Hi. destruct (B i ltac:(lia)) as [-> ->]. unfold r1. change (r_pts (wp r ?a ?b)) with a. change (r_npts (wp r ?a ?b)) with b.
      rewrite !upd_other by lia. auto.
Qed.

Definition qinv (k : nat) (r : reader) : Prop := qst (Z.of_nat k) r /\ p0 + Z.of_nat k <= len /\
  (p0 + Z.of_nat k < len -> forall i, (i < nch)%nat -> chan (Z.of_nat k) i (r_pts r (Z.of_nat i)) (r_npts r (Z.of_nat i))).
Definition qout : stream := fun k => if p0 + Z.of_nat k <? len then Some (map (val (Z.of_nat k)) (seq 0 nch)) else None.

Lemma q_follows : follows qinv qout.
Proof.
  intros k r (Q & L & CH). pose proof (sizes m off len nch HA) as (S1 & S2 & S3 & S4). split; [apply Q|]. split; [rewrite (q_nch _ _ Q); lia|].
  unfold qout. exists 1%nat. destruct (Z.ltb_spec (p0 + Z.of_nat k) len) as [H|H].
  - specialize (CH H). destruct (q_channels (Z.of_nat k) nch 0 r Q ltac:(lia) H ltac:(lia)) as (P & n & E & A & _). { intros; apply CH; lia. }
    pose proof (qst_wp _ _ P n Q) as Q1. set (r1 := wp r P n) in *.
    destruct (advance_plain r1) as (x & X1 & X2 & X3 & AD).
    + apply Q1.
    + rewrite (q_rate _ _ Q1). apply fin_d1.
    + rewrite (q_rem _ _ Q1), Rabs_R0. lra.
    + rewrite (q_rate _ _ Q1), R64_d1. rewrite Rabs_pos_eq by lra. change 1%R with (bpow radix2 0). apply bpow_le. lia.
    + apply Q1.
    + unfold step_sum. rewrite (q_rem _ _ Q1), (q_rate _ _ Q1), R64_d1, Rplus_0_l, rnd64_one, (Ztrunc_IZR 1). unfold in_s32. lia.
    + unfold step_sum. rewrite (q_rem _ _ Q1), (q_rate _ _ Q1), R64_d1, Rplus_0_l, rnd64_one, (Ztrunc_IZR 1), (q_nch _ _ Q1). unfold in_s32. lia.
    + unfold step_sum. rewrite (q_rem _ _ Q1), (q_rate _ _ Q1), R64_d1, Rplus_0_l, rnd64_one, (Ztrunc_IZR 1), (q_nch _ _ Q1), (q_pos _ _ Q1). unfold in_s32. nia.
    + unfold step_sum in X2, AD. rewrite (q_rem _ _ Q1), (q_rate _ _ Q1), R64_d1, Rplus_0_l, rnd64_one, (Ztrunc_IZR 1) in X2, AD.
      eexists. split.
      * unfold read_frame. rewrite (q_dual _ _ Q). cbn [bind]. rewrite (q_nch _ _ Q), Nat2Z.id. change 0 with (Z.of_nat 0). rewrite E. cbn [bind]. fold r1. rewrite AD. reflexivity.
      * split; [|split; [lia|]].
        -- destruct Q1. constructor; try assumption.
           ++ change (R64 x = 0%R). rewrite X2. ring.
           ++ change (r_pos1 r1 + 1 * r_nch r1 = (p0 + Z.of_nat (S k)) * N). rewrite q_pos0, q_nch0. lia.
        -- intros _ i Hi. replace (Z.of_nat (S k)) with (Z.of_nat k + 1) by lia. apply A. lia.
  - eexists. split.
    + unfold read_frame. rewrite (q_dual _ _ Q). cbn [bind]. rewrite (q_nch _ _ Q), Nat2Z.id. assert (NN : nch = S (Nat.pred nch)) by lia. rewrite NN at 1. cbn [read_channels read_one].
      unfold readNextValue. rewrite (q_end _ _ Q) by lia. destruct (Z.leb_spec len (p0 + Z.of_nat k)); [|lia]. cbn [bind].
      unfold on_end. change (r_loop (r <| r_cfst := 0 |>)) with (r_loop r). rewrite (q_loop _ _ Q). cbn [bind]. reflexivity.
    + split; [|split; [lia|intros; lia]]. destruct Q; constructor; assumption || reflexivity.
Qed.
Lemma q_near : forall k c, 3 <= k -> Z.abs (val k c - smp (p0 + k - 2) c) <= 1.
Proof.
  intros k c K. unfold val. destruct (Z.ltb_spec k 3); [lia|]. destruct one32_ok as [F1 F2].
  destruct (node_value (smp (p0 + k - 3) c) (smp (p0 + k - 2) c) (smp (p0 + k - 1) c) (smp (p0 + k) c) one32) as (v & E & _ & B); auto using q_smp.
  rewrite E. exact B.
Qed.
End Unity.

(* Setting the interpolation before or after starting is the same *)
Lemma reset_interp : forall r i, r_reset (setInterpolationType r i) = (x <- r_reset r ;; Ok (setInterpolationType x i)).
Proof.
  intros r i. unfold r_reset. change (r_rate (setInterpolationType r i)) with (r_rate r). change (r_pstart (setInterpolationType r i)) with (r_pstart r).
  destruct (dle d0 (r_rate r)), (r_pstart r); cbn [bind]; try reflexivity; change (r_fsize (setInterpolationType r i)) with (r_fsize r);
    change (r_lf (setInterpolationType r i)) with (r_lf r); change (r_nch (setInterpolationType r i)) with (r_nch r);
    destruct (chk32 _); reflexivity.
Qed.
Lemma playRaw_interp : forall r i m off len n, playRaw_array (setInterpolationType r i) m off len n =
  (x <- playRaw_array r m off len n ;; Ok (setInterpolationType x i)).
Proof.
  intros r i m off len n. rewrite !playRaw_setup.
  assert (E : raw_setup (setInterpolationType r i) m off len n = setInterpolationType (raw_setup r m off len n) i) by reflexivity.
  rewrite E. set (r0 := raw_setup r m off len n). clearbody r0. rewrite reset_interp. destruct (r_reset r0); reflexivity.
Qed.
Lemma reset_points : forall r r' c, r_reset r = Ok r' -> 0 <= c < 8 -> r_npts r' c = 0.
Proof.
  intros r r' c E C. unfold r_reset in E. apply bind_ok in E. destruct E as (p & _ & E). apply Ok_inj in E. rewrite <- E.
  change ((if (0 <=? c) && (c <? 8) then 0 else r_npts r c) = 0). destruct (Z.leb_spec 0 c), (Z.ltb_spec c 8); try lia; reflexivity.
Qed.
Lemma playRaw_points : forall r m off len n r' c, playRaw_array r m off len n = Ok r' -> 0 <= c < 8 -> r_npts r' c = 0.
Proof.
  intros r m off len n r' c H C. rewrite playRaw_setup in H. set (r0 := raw_setup r m off len n) in H. clearbody r0.
  apply bind_ok in H. destruct H as (r1 & E & H). apply (reset_points _ _ c) in E; auto. apply Ok_inj in H. now rewrite <- H.
Qed.

(* The settings of basic_settings, but for the interpolation *)
Definition interp_settings (i : interp) (r : reader) (l : loop_type) (ps : play_start) (pb : Z) : Prop :=
  r_interp r = i /\ basic_settings (setInterpolationType r INone) l ps pb.
Lemma interp_set : forall r i, r_interp r = i -> setInterpolationType (setInterpolationType r INone) i = r.
Proof. intros [] i H. cbn in H. subst i. reflexivity. Qed.

(* every frame is within 1 of another one *)
Definition near_frame (a b : list Z) : Prop := length a = length b /\ forall c, (c < length a)%nat -> Z.abs (nth c a 0 - nth c b 0) <= 1.

Theorem quadratic_delay : forall m off len nch r ps pb, array_holds m off len nch -> (nch <= 8)%nat -> interp_settings IQuadratic r LNone ps pb ->
  r_rate r = d1 -> (ps = PArbitrary -> 0 <= pb <= len) ->
  let p0 := match ps with PArbitrary => pb | _ => 0 end in
  exists r' f, playRaw_array r m off len (Z.of_nat nch) = Ok r' /\
    delivers r' (finite_stream (Z.to_nat (len - p0)) f) /\
    (forall k, (k < 3)%nat -> f k = repeat 0 nch) /\
    (forall k, (3 <= k)%nat -> near_frame (f k) (src_frame m off nch (p0 + Z.of_nat k - 2))).
Proof.
  intros m off len nch r ps pb A NC (I & B) RT HPB p0.
  destruct (playRaw_fwd m off len nch _ LNone ps pb A B) as (r' & E & PL & SR & R1 & FS & LP & RM & L0 & L1 & PS & PO); auto.
  { change (r_rate (setInterpolationType r INone)) with (r_rate r). rewrite RT. exact fin_d1. }
  { change (r_rate (setInterpolationType r INone)) with (r_rate r). rewrite RT, R64_d1. lra. }
  assert (PI : playRaw_array r m off len (Z.of_nat nch) = Ok (setInterpolationType r' IQuadratic)).
  { pose proof (playRaw_interp (setInterpolationType r INone) IQuadratic m off len (Z.of_nat nch)) as PI. rewrite E in PI. cbn [bind] in PI.
    rewrite <- PI. f_equal. symmetry. now apply interp_set. }
  assert (P0 : 0 <= p0 <= len) by (unfold p0; destruct A as (_ & ? & _); destruct ps; try lia; auto).
  exists (setInterpolationType r' IQuadratic), (fun k => map (val m off nch p0 (Z.of_nat k)) (seq 0 nch)). split; [exact PI|]. split; [|split].
  - eapply delivers_ext; [|eapply (follows_delivers (qinv m off len nch p0)); [eapply (q_follows m off len nch p0); auto; lia|]].
    + intros k. unfold qout, finite_stream. destruct (Z.ltb_spec (p0 + Z.of_nat k) len), (Nat.ltb_spec k (Z.to_nat (len - p0))); auto; lia.
    + destruct B as (B1 & B2 & B3 & B4 & B5 & B6 & B7). split; [|split; [cbn; lia|]].
      * constructor; try reflexivity; try assumption; try apply PL.
        -- exact (eq_trans R1 RT).
        -- change (is_finite (r_rem r') = true). now rewrite RM.
        -- change (R64 (r_rem r') = 0%R). now rewrite RM.
        -- change (r_pos1 r' = (p0 + Z.of_nat 0) * Z.of_nat nch). rewrite PO. change (Z.of_nat 0) with 0. now rewrite Z.add_0_r.
      * intros _ i Hi. split; [|repeat split; cbn; lia]. change (r_npts r' (Z.of_nat i) = 0).
        apply (playRaw_points _ _ _ _ _ _ _ E). lia.
  - intros k Hk. unfold val. destruct (Z.ltb_spec (Z.of_nat k) 3); [|lia]. clear. induction nch as [|n IH] in |- *; [reflexivity|].
    rewrite seq_S, map_app, IH. cbn. symmetry. apply repeat_cons.
  - intros k Hk. unfold near_frame. rewrite smp_frame, !map_length. split; [reflexivity|]. rewrite seq_length. intros c Hc.
    rewrite (nth_indep _ 0 (val m off nch p0 (Z.of_nat k) O)) by (now rewrite map_length, seq_length). rewrite map_nth.
    rewrite (nth_indep _ 0 (smp m off nch (p0 + Z.of_nat k - 2) O)) by (now rewrite map_length, seq_length). rewrite map_nth, seq_nth by auto.
    cbn [Nat.add]. eapply q_near; eauto; lia.
Qed.
