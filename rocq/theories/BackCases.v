(* Concrete sessions in reverse. *)

From Coq Require Import ZArith Lia List Bool Reals Lra.
From RecordUpdate Require Import RecordUpdate.
From Flocq Require Import Core.Core IEEE754.BinarySingleNaN.
From Verif Require Import Machine Floats FloatFacts WavModel CacheModel ReaderModel ReaderSpec PlayProofs FilePlay
  CacheFacts CacheSpec FileSpec CacheFinal InterpCases TapeSpec TapeCases BackSpec.
Import ListNotations.
Local Open Scope Z_scope.

(* Negative single-precision rates from 2^-21 to 256 are multiples of 2^-44 *)
Lemma single_back : forall X x, single_rate x -> (bpow radix2 (-21) <= - R64 x <= bpow radix2 8)%R -> (- R64 x <= X)%R -> back_ok 44 X x.
Proof.
  intros X x (f & Ff & E) RB U. destruct (d_of_f_ok f Ff) as [V W]. rewrite <- E in *.
  split; [auto|]. split; [lra|].
  set (y := (- R64 x)%R) in *.
  assert (G : generic_format radix2 (SpecFloat.fexp 24 128) y) by (unfold y; rewrite V; apply generic_format_opp, generic_format_B2R).
  assert (P : (0 < y)%R) by (pose proof (bpow_gt_0 radix2 (-21)); lra).
  set (e := cexp radix2 (SpecFloat.fexp 24 128) y).
  assert (EL : -44 <= e).
  { unfold e, cexp, SpecFloat.fexp, SpecFloat.emin.
    assert (-20 <= mag radix2 y); [|lia].
    apply mag_ge_bpow. replace (-20 - 1) with (-21) by lia. rewrite Rabs_pos_eq; lra. }
  set (mt := Ztrunc (scaled_mantissa radix2 (SpecFloat.fexp 24 128) y)).
  assert (Y : y = (IZR (mt * 2 ^ (e + 44)) * bpow radix2 (- 44))%R).
  { unfold generic_format, F2R in G. cbn [Fnum Fexp] in G. fold mt e in G.
    rewrite mult_IZR, <- bpow_IZR by lia. rewrite Rmult_assoc, <- bpow_plus.
    replace (e + 44 + -44) with e by lia. exact G. }
  exists (mt * 2 ^ (e + 44)). split; [|change (- (44)) with (-44); rewrite <- Y; unfold y; ring].
  assert (BP : (0 < bpow radix2 (- 44))%R) by apply bpow_gt_0.
  split.
  - apply lt_IZR. rewrite Y in P. apply Rmult_lt_reg_r with (bpow radix2 (- 44)); [auto|]. lra.
  - apply le_IZR. apply Rmult_le_reg_r with (bpow radix2 (- 44)); [auto|]. rewrite <- Y.
    rewrite <- (bpow_IZR 52) by lia. rewrite <- bpow_plus. apply RB.
Qed.

Lemma rate_back : forall q X x, rate_ok q X x -> (0 < R64 x)%R -> back_ok q X (dneg x).
Proof.
  intros q X x (F & U & num & NM & E) P.
  assert (V : R64 (dneg x) = (- R64 x)%R) by apply R64_neg.
  split; [|split].
  - now rewrite <- F; apply is_finite_Bopp.
  - rewrite V. lra.
  - exists num. split.
    + split; [|lia]. apply lt_IZR. pose proof (bpow_gt_0 radix2 (- q)). rewrite E in P. nra.
    + now rewrite V, E.
Qed.

(* A stereo file from SD: backwards at up to 23 times the speed *)
Definition back_reader (k : rkind) : reader := new_reader k <| r_rate := dneg d1 |>.
Definition back_ex : list tape_op := [Block 4; Speed (dneg dthree_halves); Block 4; Speed (dneg (d_of_Z 23)); Block 128; Speed (dneg d1); Block 2].
Lemma back_case : let r := back_reader KSd in
  cfg_ok (r_cfg r) /\ r_kind r <> KArray /\
  basic_settings r LNone PSample 0 /\ r_hdr r = 0 /\ 0 < fsize (ramp_file 32768) < 2 ^ 31 /\
  begins (fsize (ramp_file 32768)) 0 8192 2 PSample 0 8191 /\ first_block (BS (r_cfg r)) (fsize (ramp_file 32768)) 0 2 8191 /\
  back_ok 44 23 (r_rate r) /\ Forall (rtape_ok 44 23 128) back_ex /\ above (IZR 8191) (R64 (r_rate r)) back_ex /\
  ((23 + 1) * INR 2 <= IZR (2 ^ 30))%R /\
  ((INR (2 * 128) * 23 + 2) * INR 2 <= IZR ((Z.of_nat (c_nbuf (r_cfg r)) - 1) * BS (r_cfg r)))%R.
Proof.
  intro r. assert (V1 : R64 d1 = 1%R) by (change d1 with (d_of_Z 1); apply whole_rate; lia).
  assert (K1 : back_ok 44 23 (dneg d1)).
  { apply rate_back; [|lra]. change d1 with (d_of_Z 1). eapply rate_le; [apply whole_rate; lia|lra]. }
  destruct halves_rate as [H3 V3]. destruct (whole_rate 23 ltac:(lia)) as [H23 V23].
  split; [split; cbn; lia|]. split; [discriminate|]. split; [repeat split|]. split; [reflexivity|].
  split; [cbn; lia|]. split; [split; reflexivity|]. split; [split; vm_compute; discriminate|].
  split; [exact K1|]. split.
  { repeat (apply Forall_cons; [cbn [rtape_ok]; try lia|]); try apply Forall_nil; auto; apply rate_back; auto; lra. }
  split.
  { unfold back_ex. cbn [above]. change (r_rate r) with (dneg d1). rewrite !R64_neg, V1, V3, V23.
    replace (INR 4) with 4%R by (cbn; lra). rewrite (INR_IZR_INZ 128). change (Z.of_nat 128) with 128. repeat split; lra. }
  change (INR 2) with 2%R. split; [cbn; lra|].
  rewrite INR_IZR_INZ. change (Z.of_nat (2 * 128)) with 256.
  change ((Z.of_nat (c_nbuf (r_cfg r)) - 1) * BS (r_cfg r)) with 12288. lra.
Qed.

(* What it sounds like, on a mono file of 16384 frames *)
Lemma back_heard : tape_starts (open_raw KSd (dneg d1) 32768) back_ex =
  Some ([[7040; 7039; 7038; 7037]; [7036; 7035; 7033; 7032]; [7030; 7007; 6984; 6961; 6938; 6915]; [1142; 1141]], 0).
Proof. vm_compute. reflexivity. Qed.

(* ---- files whose last block is less than half full ------------------------- *)

(* The ramp has no silence *)
Lemma ramp_sounds : forall n i, file_sample (ramp_file n) i <> 0.
Proof.
  intros n i. unfold file_sample, le16, le16u, ramp_file. cbn [fbyte].
  assert (E0 : Z.even (2 * i) = true) by (rewrite Z.even_mul; reflexivity).
  assert (E1 : Z.even (2 * i + 1) = false) by (rewrite Z.add_comm, Z.even_add_mul_2; reflexivity).
  rewrite E0, E1. unfold s16.
  set (a := (2 * i / 2) mod 128). set (b := ((2 * i + 1) / 2 / 128) mod 100).
  assert (0 <= a < 128) by (apply Z.mod_pos_bound; lia). assert (0 <= b < 100) by (apply Z.mod_pos_bound; lia).
  rewrite Z.mod_small by lia. lia.
Qed.

Definition lost_check (l : list tape_op) (k j : nat) (n : Z) (r : reader) : bool :=
  match spun 600 r l with
  | Ok (bs, r2) => (misses r =? 0) && (misses r2 =? n) && silent (nth k bs []) && (length (nth k bs []) =? 128)%nat
                   && silent (nth j bs []) && (length (nth j bs []) =? 128)%nat
  | _ => false
  end.
Lemma back_lost : forall kind len l k j n,
  match open_raw kind (dneg d1) len with Ok r => lost_check l k j n r | _ => false end = true ->
  exists r fuel bs r2, open_raw kind (dneg d1) len = Ok r /\ spun fuel r l = Ok (bs, r2) /\ misses r = 0 /\ misses r2 = n /\
    length (nth k bs []) = 128%nat /\ length (nth j bs []) = 128%nat /\ forall fr, In fr (nth k bs [] ++ nth j bs []) -> fr = [0].
Proof.
  intros kind len l k j n H. destruct (open_raw kind (dneg d1) len) as [r| |]; try discriminate.
  unfold lost_check in H. destruct (spun 600 r l) as [[bs r2]| |] eqn:E; try discriminate.
  apply andb_prop in H. destruct H as [H H6]. apply andb_prop in H. destruct H as [H H5].
  apply andb_prop in H. destruct H as [H H4]. apply andb_prop in H. destruct H as [H H3]. apply andb_prop in H. destruct H as [H1 H2].
  apply Z.eqb_eq in H1, H2. apply Nat.eqb_eq in H4, H6.
  exists r, 600%nat, bs, r2. repeat split; auto.
  intros fr IN. apply in_app_or in IN. destruct IN as [IN|IN]; [exact (silent_ok _ H3 _ IN)|exact (silent_ok _ H5 _ IN)].
Qed.

(* SD: two blocks of 2048 samples, and 52 more *)
Lemma back_lost_sd : exists r fuel bs r2, open_raw KSd (dneg d1) (2 * 4148) = Ok r /\ spun fuel r (repeat (Block 128) 33) = Ok (bs, r2) /\
    misses r = 0 /\ misses r2 = 408 /\ length (nth 1 bs []) = 128%nat /\ length (nth 17 bs []) = 128%nat /\
    forall fr, In fr (nth 1 bs [] ++ nth 17 bs []) -> fr = [0].
Proof. apply back_lost. vm_compute. reflexivity. Qed.
(* Serial flash: five blocks of 128 samples, and 52 more; only these 52 are heard *)
Lemma back_lost_flash : exists r fuel bs r2, open_raw KFlash (dneg d1) (2 * 692) = Ok r /\ spun fuel r (repeat (Block 128) 6) = Ok (bs, r2) /\
    misses r = 0 /\ misses r2 = 640 /\ length (nth 1 bs []) = 128%nat /\ length (nth 4 bs []) = 128%nat /\
    forall fr, In fr (nth 1 bs [] ++ nth 4 bs []) -> fr = [0].
Proof. apply back_lost. vm_compute. reflexivity. Qed.
(* Three channels from SD, 683 frames: the last sample of the last frame is lost *)
Lemma back_lost_frame : exists r fuel bs r2,
  r_play_file (back_reader KSd) (Some (ramp_file (2 * 2049))) false 3 (fun _ => 0) dirty = Ok (true, r) /\
  spun fuel r [Block 1] = Ok (bs, r2) /\ misses r = 0 /\ misses r2 = 1 /\
  bs = [[[3967; 3968; 0]]] /\ file_frame (ramp_file (2 * 2049)) 0 3 682 = [3967; 3968; 4097].
Proof.
  assert (H : match r_play_file (back_reader KSd) (Some (ramp_file (2 * 2049))) false 3 (fun _ => 0) dirty with
    | Ok (true, r) => match spun 600 r [Block 1] with
                      | Ok ([[[a; b; d]]], r2) => (misses r =? 0) && (misses r2 =? 1) && (a =? 3967) && (b =? 3968) && (d =? 0) | _ => false end
    | _ => false end = true) by (vm_compute; reflexivity).
  destruct (r_play_file _ _ _ _ _ _) as [[[|] r]| |]; try discriminate.
  destruct (spun 600 r [Block 1]) as [[[|[|[|a [|b [|d [|? ?]]]] [|? ?]] [|? ?]] r2]| |] eqn:E; try discriminate.
  repeat (apply andb_prop in H; let X := fresh in destruct H as [H X]; apply Z.eqb_eq in X). apply Z.eqb_eq in H.
  exists r, 600%nat. eexists. exists r2. split; [reflexivity|]. split; [exact E|]. subst. repeat split; auto.
Qed.
