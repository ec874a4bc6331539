(* Fetches outside the source, and concrete interpolated output: C16-C19, C71-C73. *)

From Coq Require Import ZArith Lia List Bool Reals Lra.
From RecordUpdate Require Import RecordUpdate.
From Flocq Require Import Core.Core IEEE754.BinarySingleNaN.
From Verif Require Import Machine Floats FloatFacts WavModel InterpModel CacheModel CacheFacts ReaderModel
  ReaderFacts ReaderSpec Sessions Walk ForwardProofs LifeProofs PlayerCases ReplayCases FadeSpec FadeProofs FadeLoop FadeCases CubicProofs QuadProofs
  LagrangeProofs InterpSafe.
Import ListNotations.
Local Open Scope Z_scope.

(* Faster than 1, quadratic, from the start of an array at the very beginning of
   the memory: the first frame already needs a sample before the array *)
Theorem quad_start_oob : forall m len nch r l pb, array_holds m 0 len nch -> (nch <= 8)%nat -> 1 <= len -> interp_settings IQuadratic r l PSample pb ->
  fin64 (r_rate r) = true -> (1 < R64 (r_rate r) <= IZR (2 ^ 26))%R ->
  exists r', playRaw_array r m 0 len (Z.of_nat nch) = Ok r' /\
    forall fuel n, (1 <= fuel)%nat -> 1 <= n -> r_read fuel r' n = UB UbOutOfBounds.
Proof.
  intros m len nch r l pb A NC LN (I & B) F X. pose proof (sizes m 0 len nch A) as (Z1 & Z2 & Z3 & Z4).
  destruct (playRaw_fwd m 0 len nch _ l PSample pb A B) as (r' & E & PL & SR & R1 & FS & LP & RM & L0 & L1 & PS & PO); auto.
  { change (0 <= R64 (r_rate r))%R. lra. } { discriminate. }
  pose proof (playRaw_interp (setInterpolationType r INone) IQuadratic m 0 len (Z.of_nat nch)) as PI. rewrite E in PI. cbn [bind] in PI. rewrite (interp_set r _ I) in PI.
  exists (setInterpolationType r' IQuadratic). split; [exact PI|]. destruct B as (B1 & B2 & B3 & B4 & B5 & B6 & B7).
  change (r_rem (setInterpolationType r INone)) with (r_rem r) in *. change (r_rate (setInterpolationType r INone)) with (r_rate r) in *.
  set (s := setInterpolationType r' IQuadratic).
  assert (S1 : r_dual s = false) by apply PL. assert (S2 : r_nch s = Z.of_nat nch) by apply PL. assert (S3 : r_pos1 s = 0) by exact PO.
  assert (S4 : r_hdr s = 0) by apply PL. assert (S5 : r_cfst s = 0) by apply PL. assert (S6 : r_playing s = true) by apply PL.
  assert (S7 : r_src s = SArr m 0) by exact SR. assert (S8 : r_rate s = r_rate r) by exact R1. assert (S9 : r_rem s = r_rem r) by exact RM.
  assert (S10 : r_fsamples s = len) by exact FS. assert (S11 : r_lf s = len) by exact L1. assert (S12 : r_interp s = IQuadratic) by reflexivity. clearbody s.
  assert (AE : at_end s = false).
  { unfold at_end. rewrite S1, S8, dge0_true by (auto; lra). rewrite S3, S10, S11. assert (SP : spos s len = len * Z.of_nat nch).
    { unfold spos, sts. rewrite S4, S2, Z.add_0_l, u32_id by (unfold in_u32; nia). apply s32_id. unfold in_s32; nia. }
    rewrite SP. assert (N0 : (len * Z.of_nat nch <=? 0) = false) by (apply Z.leb_gt; nia). rewrite N0. destruct (r_loop s); reflexivity. }
  intros fuel n FU N1. unfold r_read. rewrite S6, S2. cbn [negb]. destruct (Z.ltb_spec (Z.of_nat nch) 0); [lia|].
  destruct fuel as [|fuel]; [lia|]. cbn [read_loop]. destruct (Z.leb_spec n 0); [lia|].
  unfold read_frame. rewrite S1. cbn [bind]. rewrite S2, Nat2Z.id. assert (NN : nch = S (Nat.pred nch)) by lia. rewrite NN. cbn [read_channels read_one].
  unfold readNextValue. rewrite AE. unfold fetch_value. rewrite S1. cbn [negb orb].
  assert (G : getAt s (r_pos1 s) 0 0 = Ok (le16 (mbyte m) 0, s)).
  { unfold getAt. rewrite S3. cbn [Z.add Z.mul]. unfold getSourceBufferValue. rewrite chk32_ok by (unfold in_s32; lia). cbn [bind Z.add]. rewrite chk32_ok by (unfold in_s32; lia). cbn [bind]. rewrite S7.
    destruct (Z.leb_spec 0 (0 + 2 * 0)); [|lia]. destruct (Z.leb_spec (0 + 2 * 0 + 2) (msize m)); [reflexivity|nia]. }
  rewrite G. cbn [bind]. rewrite S12. unfold quadratic_value. cbv zeta. rewrite S8, S9, dgt0_true by (auto; lra).
  set (x := r_rate r) in *. set (q := r_rem r) in *.
  assert (P26 : IZR (2 ^ 26) = 67108864%R) by reflexivity. rewrite P26 in X.
  destruct (dsub_ok q x B6 F) as [ED FD]. { apply big_ok. rewrite B7. apply Rabs_le. lra. }
  rewrite B7 in ED. replace (0 - R64 x)%R with (R64 (dneg x)) in ED by (rewrite R64_neg; ring). rewrite rnd64_id in ED by apply fmt64_R64. rewrite R64_neg in ED.
  assert (DL : dlt (dsub q x) d0 = true) by (rewrite dlt_R, R64_d0 by (auto using fin_d0); apply Rlt_bool_true; lra). rewrite DL.
  destruct (dfloor_R (dsub q x)) as [E2 H2].
  assert (FL : Zfloor (R64 (dsub q x)) <= -2 /\ - 2 ^ 26 <= Zfloor (R64 (dsub q x))).
  { rewrite ED. split; [|apply Zfloor_lub; rewrite opp_IZR, P26; lra]. assert (Zfloor (- R64 x) < -1); [|lia]. apply lt_IZR. pose proof (Zfloor_lb (- R64 x)). lra. }
  rewrite d_to_s32_ok; [|rewrite fin_neg, H2; exact FD|rewrite R64_neg, E2, <- opp_IZR, Ztrunc_IZR; unfold in_s32; lia].
  rewrite R64_neg, E2, <- opp_IZR, Ztrunc_IZR. cbn [bind]. set (k := - Zfloor (R64 (dsub q x))) in *.
  assert (K : exists j, Z.to_nat (Z.min k 4) = S (S j) /\ (j <= 2)%nat) by (exists (Z.to_nat (Z.min k 4) - 2)%nat; lia).
  destruct K as (j & -> & J). cbn [push_points].
  assert (G2 : getAt s (r_pos1 s) (1 - Z.of_nat (S (S j))) 0 = UB UbOutOfBounds).
  { unfold getAt. rewrite S3, S2. rewrite chk32_ok by (unfold in_s32; nia). cbn [bind]. rewrite chk32_ok by (unfold in_s32; nia). cbn [bind].
    unfold getSourceBufferValue. rewrite S7. set (a := 0 + 2 * _). destruct (Z.leb_spec 0 a) as [Q|Q]; [exfalso; unfold a in Q; nia|reflexivity]. }
  rewrite G2. reflexivity.
Qed.

Definition dthree_quarters : b64 := d_of_me 3 (-2).
Definition dthree_halves : b64 := d_of_me 3 (-1).

(* Ping-pong below rate 1: after turning round at the end the frame behind the last is needed *)
Theorem quad_turn_oob : exists r, playRaw_array (at_rate dthree_quarters IQuadratic LPingpong) (ramp 4) 0 4 1 = Ok r /\
  r_read 60 r 8 = UB UbOutOfBounds.
Proof.
  assert (C : exists r, playRaw_array (at_rate dthree_quarters IQuadratic LPingpong) (ramp 4) 0 4 1 = Ok r /\ bounds_ub (r_read 60 r 8) = true)
    by (apply case_of; vm_compute; reflexivity).
  destruct C as (r & E & C). exists r. split; [exact E|]. now apply bounds_ub_eq.
Qed.
(* Repeat above rate 1: the frame before the loop start is needed, although playback started far enough in *)
Theorem quad_wrap_oob : exists r, playRaw_array (setPlayStart (at_rate dthree_halves IQuadratic LRepeat) PArbitrary 2) (ramp 8) 0 8 1 = Ok r /\
  r_read 60 r 8 = UB UbOutOfBounds.
Proof.
  assert (C : exists r, playRaw_array (setPlayStart (at_rate dthree_halves IQuadratic LRepeat) PArbitrary 2) (ramp 8) 0 8 1 = Ok r /\ bounds_ub (r_read 60 r 8) = true)
    by (apply case_of; vm_compute; reflexivity).
  destruct C as (r & E & C). exists r. split; [exact E|]. now apply bounds_ub_eq.
Qed.
(* Linear, backwards, with a fraction left over from an earlier forward playback *)
Local Notation again q y m len n := (play_then (play_then (playRaw_array q m 0 len 1) (fun r => r_read 20 r n)) (fun s => x <- playRaw_array (s <| r_rate := y |>) m 0 len 1 ;; Ok ([], x))).
Theorem linear_back_oob : exists r l s t, playRaw_array (at_rate dthree_halves ILinear LNone) (ramp 8) 0 8 1 = Ok r /\ r_read 20 r 1 = Ok (l, s) /\
  playRaw_array (s <| r_rate := dneg dthree_halves |>) (ramp 8) 0 8 1 = Ok t /\ r_read 20 t 1 = UB UbOutOfBounds.
Proof.
  assert (C : exists t, again (at_rate dthree_halves ILinear LNone) (dneg dthree_halves) (ramp 8) 8 1 = Ok t /\ bounds_ub (r_read 20 t 1) = true)
    by (apply case_of; vm_compute; reflexivity).
  destruct C as (t & E & C). apply play_then_inv in E. destruct E as (s & l' & E1 & E2). apply play_then_inv in E1. destruct E1 as (r & l & E0 & E1).
  exists r, l, s, t. split; [exact E0|]. split; [exact E1|]. split; [|now apply bounds_ub_eq].
  destruct (playRaw_array (s <| r_rate := dneg dthree_halves |>) (ramp 8) 0 8 1) as [x| |]; try discriminate. cbn [bind] in E2. apply Ok_inj in E2. apply pair_equal_spec in E2. destruct E2 as [_ ->]. reflexivity.
Qed.
(* Behind other bytes nothing is undefined, but those bytes are heard *)
Definition blanked (m : mem) (n : Z) : mem := mkMem (msize m) (fun a => if a <? n then 0 else mbyte m a).
Definition same_after (n : Z) (m m' : mem) : Prop := forall a, n <= a -> mbyte m a = mbyte m' a.
Theorem quad_before_heard : exists r r2 l l2 s s2, same_after 12 (blanked (ramp 16) 12) (ramp 16) /\
  playRaw_array (at_rate (d_of_Z 4) IQuadratic LNone) (ramp 16) 12 8 1 = Ok r /\ r_read 20 r 1 = Ok (l, s) /\ concat l = [4] /\
  playRaw_array (at_rate (d_of_Z 4) IQuadratic LNone) (blanked (ramp 16) 12) 12 8 1 = Ok r2 /\ r_read 20 r2 1 = Ok (l2, s2) /\ concat l2 = [0].
Proof.
  assert (C : exists r, playRaw_array (at_rate (d_of_Z 4) IQuadratic LNone) (ramp 16) 12 8 1 = Ok r /\ heard (r_read 20 r 1) [4] = true)
    by (apply case_of; vm_compute; reflexivity).
  assert (C2 : exists r, playRaw_array (at_rate (d_of_Z 4) IQuadratic LNone) (blanked (ramp 16) 12) 12 8 1 = Ok r /\ heard (r_read 20 r 1) [0] = true)
    by (apply case_of; vm_compute; reflexivity).
  destruct C as (r & E & C). apply heard_eq in C. destruct C as (l & s & C & H & _).
  destruct C2 as (r2 & E2 & C2). apply heard_eq in C2. destruct C2 as (l2 & s2 & C2 & H2 & _).
  exists r, r2, l, l2, s, s2. split; [|auto 10]. intros a A. unfold blanked. cbn [mbyte]. destruct (Z.ltb_spec a 12); [lia|reflexivity].
Qed.

(* C16: the delay at work *)
Theorem delay_case : exists r l s, playRaw_array (at_rate d1 IQuadratic LNone) (ramp 8) 0 8 1 = Ok r /\ r_read 20 r 10 = Ok (l, s) /\
  concat l = [0; 0; 0; 1; 2; 3; 4; 5].
Proof.
  assert (C : exists r, playRaw_array (at_rate d1 IQuadratic LNone) (ramp 8) 0 8 1 = Ok r /\ heard (r_read 20 r 10) [0; 0; 0; 1; 2; 3; 4; 5] = true)
    by (apply case_of; vm_compute; reflexivity).
  destruct C as (r & E & C). apply heard_eq in C. destruct C as (l & s & C & H & _). exists r, l, s. auto.
Qed.
(* ... is not exact *)
Theorem delay_off : fastinterpolate 0 (-32765) 0 0 one32 = Ok (-32764).
Proof. vm_compute. reflexivity. Qed.

Lemma interp_at_rate : forall x i l ps pb, interp_settings i (setPlayStart (at_rate x i l) ps pb) l ps (s32 pb).
Proof. intros. split; [reflexivity|]. repeat split; reflexivity. Qed.
Lemma fresh_pts : forall x i l, pts_ok (r_pts (at_rate x i l)).
Proof. intros x i l c. repeat split; discriminate. Qed.

(* Cases in which nothing outside is needed *)
Lemma three_halves : fin64 dthree_halves = true /\ R64 dthree_halves = 1.5%R.
Proof.
  split; [reflexivity|]. destruct (d_of_me_round 3 (-1)) as [E _]. { apply big_ok. cbn. rewrite Rabs_pos_eq; lra. }
  unfold dthree_halves. rewrite E, rnd64_id; [cbn; lra|]. apply fmt64_me; cbn; lia.
Qed.
Theorem forward_safe_case : exists r, playRaw_array (setPlayStart (at_rate dthree_halves IQuadratic LNone) PArbitrary 2) (ramp 8) 0 8 1 = Ok r /\ sessions_safe r 1.
Proof.
  destruct three_halves as [F V]. apply (forward_safe (ramp 8) 0 8 1 _ IQuadratic LNone PArbitrary 2); auto.
  - apply ramp_holds. lia.
  - lia.
  - apply (interp_at_rate dthree_halves IQuadratic LNone PArbitrary 2).
  - apply (fresh_pts dthree_halves IQuadratic LNone).
  - change (0 <= R64 dthree_halves <= IZR (2 ^ 26))%R. rewrite V. cbn. lra.
  - lia.
  - intros _. change (Z.min (Zceil (R64 dthree_halves)) 4 - 1 <= 2). rewrite V, (Zceil_imp 2); [cbn; lia|cbn; lra].
Qed.
Theorem backward_safe_case : exists r, playRaw_array (setPlayStart (at_rate (dneg dthree_halves) IQuadratic LNone) PArbitrary 6) (ramp 8) 0 8 1 = Ok r /\ r_pos1 r = 6 /\ sessions_safe r 1.
Proof.
  destruct three_halves as [F V].
  assert (VN : R64 (r_rate (setPlayStart (at_rate (dneg dthree_halves) IQuadratic LNone) PArbitrary 6)) = (- 1.5)%R).
  { change (R64 (dneg dthree_halves) = (- 1.5)%R). rewrite R64_neg, V. lra. }
  apply (backward_safe (ramp 8) 0 8 1 _ IQuadratic PArbitrary 6); auto.
  - apply ramp_holds. lia.
  - lia.
  - apply (interp_at_rate (dneg dthree_halves) IQuadratic LNone PArbitrary 6).
  - apply (fresh_pts (dneg dthree_halves) IQuadratic LNone).
  - rewrite VN. cbn. lra.
  - lia.
  - intros _. rewrite VN. rewrite (Zceil_imp 2); [cbn; lia|cbn; lra].
Qed.

(* Interpolated playback at rate 0.75 *)
Lemma three_quarters : grid_rate dthree_quarters /\ R64 dthree_quarters = 0.75%R.
Proof.
  destruct (d_of_me_round 3 (-2)) as [E _]. { apply big_ok. cbn. rewrite Rabs_pos_eq; lra. }
  assert (V : R64 dthree_quarters = (3 * bpow radix2 (- 2))%R) by (unfold dthree_quarters; rewrite E; apply rnd64_id; apply fmt64_me; cbn; lia).
  split; [|rewrite V; cbn; lra]. split; [reflexivity|]. exists 3, 2. split; [exact V|]. lia.
Qed.
Theorem linear_slow_case : exists r l s, playRaw_array (at_rate dthree_quarters ILinear LNone) (ramp 8) 0 8 1 = Ok r /\ r_read 20 r 11 = Ok (l, s) /\
  concat l = [0; 1; 1; 2; 3; 3; 4; 5; 6; 6; 7].
Proof.
  assert (C : exists r, playRaw_array (at_rate dthree_quarters ILinear LNone) (ramp 8) 0 8 1 = Ok r /\ heard (r_read 20 r 11) [0; 1; 1; 2; 3; 3; 4; 5; 6; 6; 7] = true)
    by (apply case_of; vm_compute; reflexivity).
  destruct C as (r & E & C). apply heard_eq in C. destruct C as (l & s & C & H & _). exists r, l, s. auto.
Qed.
Theorem cubic_slow_case : exists r l s, playRaw_array (at_rate dthree_quarters IQuadratic LNone) (ramp 8) 0 8 1 = Ok r /\ r_read 20 r 11 = Ok (l, s) /\
  concat l = [0; 0; 0; 0; 1; 2; 3; 4; 4; 5; 6].
Proof.
  assert (C : exists r, playRaw_array (at_rate dthree_quarters IQuadratic LNone) (ramp 8) 0 8 1 = Ok r /\ heard (r_read 20 r 11) [0; 0; 0; 0; 1; 2; 3; 4; 4; 5; 6] = true)
    by (apply case_of; vm_compute; reflexivity).
  destruct C as (r & E & C). apply heard_eq in C. destruct C as (l & s & C & H & _). exists r, l, s. auto.
Qed.
(* Above rate 1 a straight line does not come out straight *)
Definition dfive_halves : b64 := d_of_me 5 (-1).
Theorem linear_fast_bent : exists r l s, playRaw_array (at_rate dfive_halves ILinear LNone) (ramp 16) 0 16 1 = Ok r /\ r_read 20 r 7 = Ok (l, s) /\
  concat l = [0; 2; 3; 7; 8; 12; 13].
Proof.
  assert (C : exists r, playRaw_array (at_rate dfive_halves ILinear LNone) (ramp 16) 0 16 1 = Ok r /\ heard (r_read 20 r 7) [0; 2; 3; 7; 8; 12; 13] = true)
    by (apply case_of; vm_compute; reflexivity).
  destruct C as (r & E & C). apply heard_eq in C. destruct C as (l & s & C & H & _). exists r, l, s. auto.
Qed.

(* There is a cubic through any four points *)
Theorem cubic_exists : forall a b c d : Z, exists f, cubic f /\ f 0%R = IZR a /\ f 1%R = IZR b /\ f 2%R = IZR c /\ f 3%R = IZR d.
Proof.
  intros a b c d. set (d1 := (IZR b - IZR a)%R). set (d2 := (IZR c - 2 * IZR b + IZR a)%R). set (d3 := (IZR d - 3 * IZR c + 3 * IZR b - IZR a)%R).
  exists (fun t => IZR a + (d1 - d2 / 2 + d3 / 3) * t + (d2 / 2 - d3 / 2) * (t * t) + d3 / 6 * (t * t * t))%R. split; [do 4 eexists; intros t; reflexivity|].
  unfold d1, d2, d3. repeat split; field.
Qed.

(* the error does exceed 1.05 *)
Definition x_sharp : b32 := fdiv (f_of_Z 8115) (f_of_Z 4096).
Lemma x_sharp_ok : R32 x_sharp = (8115 / 4096)%R /\ fin32 x_sharp = true.
Proof.
  destruct (f_of_Z_ok 8115 ltac:(lia)) as [Va Fa]. destruct (f_of_Z_ok 4096 ltac:(lia)) as [Vb Fb].
  unfold x_sharp. destruct (fdiv_ok (f_of_Z 8115) (f_of_Z 4096) Fa) as [V F].
  - rewrite Vb. lra.
  - rewrite Va, Vb. apply Rle_trans with (bpow radix2 1); [change (bpow radix2 1) with 2%R; apply Rabs_le; lra|apply bpow_le; lia].
  - rewrite Va, Vb in V. split; [|exact F]. rewrite V. apply rnd32_id. replace (8115 / 4096)%R with (IZR 8115 * bpow radix2 (-12))%R by (change (bpow radix2 (-12)) with (/ 4096)%R; field).
    apply fmt32_me; lia.
Qed.
Lemma fast_sharp : fastinterpolate 32763 (-32768) 32764 (-11129) x_sharp = Ok 31787.
Proof. vm_compute. reflexivity. Qed.
Theorem cubic_sharp : exists a b c d x v, in_s16 a /\ in_s16 b /\ in_s16 c /\ in_s16 d /\ fin32 x = true /\ (1 <= R32 x <= 2)%R /\ fastinterpolate a b c d x = Ok v /\
  forall f, cubic f -> f 0%R = IZR a -> f 1%R = IZR b -> f 2%R = IZR c -> f 3%R = IZR d -> (1.055 <= Rabs (IZR v - clampR (f (R32 x))))%R.
Proof.
  destruct x_sharp_ok as [V F]. exists 32763, (-32768), 32764, (-11129), x_sharp, 31787. unfold in_s16.
  do 4 (split; [lia|]). split; [exact F|]. split; [rewrite V; lra|]. split; [exact fast_sharp|].
  intros f (k0 & k1 & k2 & k3 & K) f0 f1 f2 f3. rewrite V. rewrite K in f0, f1, f2, f3.
  assert (E : (31788.055 <= f (8115 / 4096) <= 31788.056)%R) by (rewrite K; lra).
  unfold clampR, Rmax, Rmin. rewrite Rabs_left1; repeat destruct (Rle_dec _ _); lra.
Qed.
