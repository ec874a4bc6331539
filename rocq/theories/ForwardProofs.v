(* Constant-rate forward playback of an array: C05, C07, C09. *)

From Coq Require Import ZArith Lia List Bool Reals Lra.
From RecordUpdate Require Import RecordUpdate.
From Flocq Require Import Core.Core IEEE754.BinarySingleNaN.
From Verif Require Import Machine Floats FloatFacts WavModel InterpModel CacheModel ReaderModel
  ReaderFacts ReaderSpec Sessions StreamFacts Walk.
Import ListNotations.
Local Open Scope R_scope.

(* ---- arithmetic of grid rates ---------------------------------------- *)

Lemma Zfloor_frac : forall x, 0 <= x - IZR (Zfloor x) < 1.
Proof. intros x. pose proof (Zfloor_lb x). pose proof (Zfloor_ub x). lra. Qed.

Lemma Zfloor_add_Z : forall x z, Zfloor (x - IZR z) = (Zfloor x - z)%Z.
Proof.
  intros x z. apply Zfloor_imp. rewrite plus_IZR, minus_IZR.
  pose proof (Zfloor_frac x). lra.
Qed.

(* The running sum at a grid rate is representable *)
Lemma grid_sum : forall x k, grid_rate x -> 0 <= R64 x ->
  fmt64 (INR k * R64 x - IZR (Zfloor (INR k * R64 x)) + R64 x).
Proof.
  intros x k (F & num & q & E & Hq & Hn) P.
  set (D := (2 ^ q)%Z). assert (HD : (0 < D)%Z) by (apply Z.pow_pos_nonneg; lia).
  assert (HB : bpow radix2 (- q) = / IZR D).
  { rewrite bpow_opp, bpow_IZR by lia. reflexivity. }
  assert (FL : Zfloor (INR k * R64 x) = (Z.of_nat k * num / D)%Z).
  { rewrite <- Zfloor_div by lia. f_equal. rewrite E, HB, mult_IZR, <- INR_IZR_INZ.
    unfold Rdiv. ring. }
  rewrite FL. rewrite E.
  replace (INR k * (IZR num * bpow radix2 (- q)) - IZR (Z.of_nat k * num / D) + IZR num * bpow radix2 (- q))
    with (IZR ((Z.of_nat k * num) mod D + num) * bpow radix2 (- q)).
  - assert (0 <= num)%Z.
    { apply le_IZR. destruct (Rle_or_lt 0 (IZR num)); auto. exfalso.
      rewrite E in P. pose proof (bpow_gt_0 radix2 (- q)). nra. }
    apply fmt64_me; [|lia].
    pose proof (Z.mod_pos_bound (Z.of_nat k * num) D HD).
    assert (D <= 2 ^ 52)%Z by (apply Z.pow_le_mono_r; lia). lia.
  - rewrite plus_IZR. rewrite Z.mod_eq by lia. rewrite minus_IZR, !mult_IZR, <- INR_IZR_INZ, HB.
    field. apply IZR_neq. lia.
Qed.

(* ---- the invariant ------------------------------------------------------ *)

Record fwd_inv (h len : Z) (nch : nat) (p0 : Z) (x : b64) (k : nat) (r : reader)
  : Prop := mkFwd {
  fw_plain : plain h nch r;
  fw_rate : r_rate r = x;
  fw_len : r_fsamples r = len;
  fw_loop : r_loop r = LNone;
  fw_remf : fin64 (r_rem r) = true;
  fw_rem : R64 (r_rem r) = INR k * R64 x - IZR (Zfloor (INR k * R64 x));
  fw_pos : r_pos1 r = (h + (p0 + Zfloor (INR k * R64 x)) * Z.of_nat nch)%Z }.

(* The source frame of the k-th frame delivered *)
Definition fwd_idx (len p0 : Z) (x : R) (k : nat) : option Z :=
  let i := (p0 + Zfloor (INR k * x))%Z in if (i <? len)%Z then Some i else None.

Lemma fwd_at_end : forall h len nch p0 x k r, fits h len nch ->
  fin64 x = true -> 0 <= R64 x ->
  fwd_inv h len nch p0 x k r ->
  at_end r = (len <=? p0 + Zfloor (INR k * R64 x))%Z.
Proof.
  intros h len nch p0 x k r (H1 & H2 & H4 & H5 & H6) F P [PL RT LN LP RF RM PS].
  unfold at_end. rewrite (pl_dual _ _ _ PL), RT, (dge0_true x F P), LP, LN.
  rewrite (spos_plain h nch) by (auto; unfold in_s32; lia). rewrite PS.
  destruct (Z.leb_spec len (p0 + Zfloor (INR k * R64 x)));
    destruct (Z.leb_spec (h + len * Z.of_nat nch) (h + (p0 + Zfloor (INR k * R64 x)) * Z.of_nat nch)); auto; nia.
Qed.

Lemma fwd_walk : forall h len nch p0 x, fits h len nch ->
  grid_rate x -> 0 <= R64 x -> (0 <= p0)%Z ->
  (R64 x + 1) * INR nch <= IZR (2 ^ 30) ->
  walk h nch (fwd_inv h len nch p0 x) (fwd_idx len p0 (R64 x)).
Proof.
  intros h len nch p0 x A G P Hp0 B.
  pose proof A as (H1 & H2 & H4 & H5 & H6).
  split; [auto|]. split; [intros k r s []; constructor; auto using plain_src|]. intros k r I.
  assert (F : fin64 x = true) by apply G.
  pose proof (fwd_at_end _ _ _ _ _ _ _ A F P I) as E.
  destruct I as [PL RT LN LP RF RM PS].
  split; [auto|].
  unfold fwd_idx. set (i := Zfloor (INR k * R64 x)) in *.
  assert (I0 : (0 <= i)%Z).
  { apply Zfloor_lub. apply Rmult_le_pos; auto. apply pos_INR. }
  destruct (Z.ltb_spec (p0 + i) len) as [L|L].
  - rewrite (proj2 (Z.leb_gt _ _) L) in E.
    pose proof (Zfloor_frac (INR k * R64 x)) as FR. fold i in FR.
    (* the sum is exact *)
    assert (SS : step_sum r = R64 (r_rem r) + R64 x).
    { unfold step_sum. rewrite RT. apply rnd64_id. rewrite RM. apply grid_sum; auto. }
    assert (TR : Ztrunc (step_sum r) = (Zfloor (INR (S k) * R64 x) - i)%Z).
    { rewrite SS, RM, Ztrunc_floor by lra. rewrite S_INR.
      replace (INR k * R64 x - IZR i + R64 x) with ((INR k + 1) * R64 x - IZR i) by ring.
      apply Zfloor_add_Z. }
    assert (N1 : 1 <= INR nch).
    { change 1 with (INR 1). apply le_INR. lia. }
    assert (D0 : (0 <= Ztrunc (step_sum r))%Z).
    { rewrite SS, RM, Ztrunc_floor by lra. apply Zfloor_lub. lra. }
    assert (D1 : (Ztrunc (step_sum r) * Z.of_nat nch <= 2 ^ 30)%Z).
    { apply le_IZR. rewrite mult_IZR, <- INR_IZR_INZ.
      assert (IZR (Ztrunc (step_sum r)) <= R64 x + 1).
      { pose proof (Ztrunc_bounds_pos (step_sum r)) as T. rewrite SS, RM in *. lra. }
      nra. }
    assert (X30 : R64 x <= bpow radix2 40).
    { rewrite bpow_IZR by lia. apply Rle_trans with (IZR (2 ^ 30)); [nra|]. apply IZR_le. lia. }
    destruct (advance_plain r) as (y & Y1 & Y2 & Y3 & AD).
    + auto.
    + now rewrite RT.
    + rewrite RM. apply Rabs_le. lra.
    + rewrite RT. rewrite Rabs_pos_eq; auto.
    + apply PL.
    + unfold in_s32. nia.
    + rewrite (pl_nch _ _ _ PL). unfold in_s32. nia.
    + rewrite PS, (pl_nch _ _ _ PL). unfold in_s32. nia.
    + exists 0%nat, r. eexists. split; [now constructor|]. split; [auto|].
      split; [now rewrite PS|]. split; [exact AD|].
      constructor; auto.
      * now apply advance_keeps_plain.
      * change (R64 y = INR (S k) * R64 x - IZR (Zfloor (INR (S k) * R64 x))).
        rewrite Y2, TR, SS, RM, minus_IZR, S_INR. ring.
      * change ((r_pos1 r + Ztrunc (step_sum r) * r_nch r)%Z =
                 (h + (p0 + Zfloor (INR (S k) * R64 x)) * Z.of_nat nch)%Z).
        rewrite PS, TR, (pl_nch _ _ _ PL). ring.
  - rewrite (proj2 (Z.leb_le _ _) L) in E.
    split; [auto|]. split; [auto|].
    constructor; auto. destruct PL; constructor; auto.
Qed.

Lemma frame_in_array : forall m off len nch i, array_holds m off len nch -> (0 <= i < len)%Z ->
  frame_in m (off + 2 * 0) nch i /\ (- 2 ^ 31 <= 0 + i * Z.of_nat nch)%Z /\
  (0 + (i + 1) * Z.of_nat nch < 2 ^ 31)%Z.
Proof. intros m off len nch i (H1 & H2 & H3 & H4 & H5 & H6) H. unfold frame_in. repeat split; nia. Qed.

Lemma fwd_follows : forall m off len nch p0 x, array_holds m off len nch ->
  grid_rate x -> 0 <= R64 x -> (0 <= p0)%Z ->
  (R64 x + 1) * INR nch <= IZR (2 ^ 30) ->
  follows (fun k r => fwd_inv 0 len nch p0 x k r /\ r_src r = SArr m off)
    (fun k => option_map (src_frame m (off + 2 * 0) nch) (fwd_idx len p0 (R64 x) k)).
Proof.
  intros m off len nch p0 x A G P Hp0 B.
  apply walk_follows; [apply fwd_walk; eauto using array_fits|].
  intros k i E. apply (frame_in_array m off len); auto.
  unfold fwd_idx in E. destruct (Z.ltb_spec (p0 + Zfloor (INR k * R64 x)) len); inversion E; subst.
  split; [|lia].
  assert (0 <= Zfloor (INR k * R64 x))%Z; [|lia].
  apply Zfloor_lub. apply Rmult_le_pos; auto. apply pos_INR.
Qed.

Lemma fwd_stream : forall m off len nch p0 x k,
  option_map (src_frame m (off + 2 * 0) nch) (fwd_idx len p0 x k) = pitch_stream m off len nch p0 x k.
Proof.
  intros. unfold fwd_idx, pitch_stream. rewrite Z.mul_0_r, Z.add_0_r. destruct (_ <? _)%Z; reflexivity.
Qed.

(* ---- starting playback -------------------------------------------------- *)

(* What playRaw(array, len, nch) leaves behind, at a rate >= 0 *)
Lemma playRaw_fwd : forall m off len nch r l ps pb, array_holds m off len nch ->
  basic_settings r l ps pb -> fin64 (r_rate r) = true -> 0 <= R64 (r_rate r) ->
  (ps = PArbitrary -> 0 <= pb <= len)%Z ->
  exists r', playRaw_array r m off len (Z.of_nat nch) = Ok r' /\
    plain 0 nch r' /\ r_src r' = SArr m off /\ r_rate r' = r_rate r /\ r_fsamples r' = len /\ r_loop r' = l /\
    r_rem r' = r_rem r /\ r_ls r' = 0%Z /\ r_lf r' = len /\ r_pstart r' = ps /\
    r_pos1 r' = (match ps with PArbitrary => pb | _ => 0 end * Z.of_nat nch)%Z.
Proof.
  intros m off len nch r l ps pb (H1 & H2 & H3 & H4 & H5 & H6) (B1 & B2 & B3 & B4 & B5 & B6 & B7) F P Hpb.
  unfold playRaw_array. set (r0 := setNumChannels _ _).
  assert (NC : r_nch r0 = Z.of_nat nch).
  { unfold r0. cbn. apply s16_id. unfold in_s16. lia. }
  assert (LF : r_lf r0 = len) by (unfold r0; cbn; apply s32_id; unfold in_s32; nia).
  assert (FS : r_fsamples r0 = len) by (unfold r0; cbn; apply s32_id; unfold in_s32; nia).
  unfold r_reset.
  change (r_rate r0) with (r_rate r). rewrite (dge0_true _ F P).
  change (r_pstart r0) with (r_pstart r). rewrite B4.
  assert (SP : forall n, in_s32 (n * Z.of_nat nch) -> spos r0 n = (n * Z.of_nat nch)%Z).
  { intros n Hn. unfold spos, sts. rewrite NC. change (r_hdr r0) with 0%Z.
    rewrite s32_u32. apply s32_id. exact Hn. }
  set (p := (match ps with PArbitrary => pb | _ => 0 end * Z.of_nat nch)%Z).
  assert (E : match ps with
          | PSample => Ok (spos r0 0)
          | PLoop => Ok (spos r0 (r_ls r0))
          | PArbitrary => Ok (spos r0 (r_pbstart r0))
          end = Ok p).
  { unfold p. destruct ps.
    - rewrite SP by (unfold in_s32; nia). reflexivity.
    - change (r_ls r0) with 0%Z. rewrite SP by (unfold in_s32; nia). reflexivity.
    - specialize (Hpb eq_refl). change (r_pbstart r0) with (r_pbstart r). rewrite B5, SP by (unfold in_s32; nia). reflexivity. }
  rewrite E. cbn [bind]. eexists. split; [reflexivity|].
  repeat split; auto.
Qed.

Lemma forward_delivers : forall m off len nch r ps pb, array_holds m off len nch ->
  basic_settings r LNone ps pb -> (ps = PArbitrary -> 0 <= pb <= len)%Z ->
  grid_rate (r_rate r) -> 0 <= R64 (r_rate r) -> (R64 (r_rate r) + 1) * INR nch <= IZR (2 ^ 30) ->
  exists r', playRaw_array r m off len (Z.of_nat nch) = Ok r' /\
    delivers r' (pitch_stream m off len nch (match ps with PArbitrary => pb | _ => 0 end) (R64 (r_rate r))).
Proof.
  intros m off len nch r ps pb A B Hpb G P Hr.
  destruct (playRaw_fwd m off len nch r LNone ps pb A B (proj1 G) P Hpb)
    as (r' & E & PL & SR & RT & FS & LP & RM & LS & LF & PS & PO).
  exists r'. split; auto.
  eapply delivers_ext; [apply fwd_stream|].
  eapply follows_delivers.
  - apply fwd_follows; eauto. destruct ps; try lia. now apply Hpb.
  - split; [|auto]. destruct B as (B1 & B2 & B3 & B4 & B5 & B6 & B7).
    constructor; auto.
    + now rewrite RM.
    + rewrite RM, B7. cbn [INR]. rewrite Rmult_0_l.
      change 0 with (IZR 0). rewrite Zfloor_IZR. lra.
    + rewrite PO. cbn [INR]. rewrite Rmult_0_l.
      change 0 with (IZR 0). rewrite Zfloor_IZR. destruct ps; lia.
Qed.

(* Single-precision rates are grid rates *)
Lemma single_grid : forall x, single_rate x -> bpow radix2 (-29) <= R64 x -> R64 x <= bpow radix2 30 ->
  grid_rate x.
Proof.
  intros x (f & Ff & E) L U. destruct (d_of_f_ok f Ff) as [V W]. rewrite <- E in *.
  split; auto. rewrite V in *.
  destruct f as [s|s| |s mm e Hb]; try discriminate.
  - exfalso. cbn in L. pose proof (bpow_gt_0 radix2 (-29)). lra.
  - cbn [B2R] in *. unfold F2R in *. cbn [Fnum Fexp] in *.
    destruct s; [exfalso; cbn in L; pose proof (bpow_gt_0 radix2 (-29)); pose proof (bpow_gt_0 radix2 e);
      assert (IZR (Zneg mm) < 0) by (apply IZR_lt; lia); nra|].
    cbn [cond_Zopp] in *.
    assert (M : (Zpos mm < 2 ^ 24)%Z).
    { clear Ff E V W L U. unfold SpecFloat.bounded in Hb. apply andb_prop in Hb. destruct Hb as [Hb _].
      unfold SpecFloat.canonical_mantissa in Hb. apply Zeq_bool_eq in Hb.
      rewrite Digits.Zpos_digits2_pos in Hb.
      pose proof (Digits.Zdigits_correct radix2 (Zpos mm)) as DD.
      unfold SpecFloat.fexp in Hb.
      unfold SpecFloat.emin in Hb; assert (Digits.Zdigits radix2 (Zpos mm) <= 24)%Z by lia.
      eapply Z.lt_le_trans; [apply DD|]. change (radix_val radix2) with 2%Z.
      apply Z.pow_le_mono_r; lia. }
    assert (EL : (-52 <= e)%Z).
    { apply Z.nlt_ge. intro C.
      assert (IZR (Zpos mm) * bpow radix2 e < bpow radix2 (-29)); [|lra].
      apply Rlt_le_trans with (bpow radix2 24 * bpow radix2 e).
      - apply Rmult_lt_compat_r; [apply bpow_gt_0|]. rewrite bpow_IZR by lia. now apply IZR_lt.
      - rewrite <- bpow_plus. apply bpow_le. lia. }
    destruct (Z.le_gt_cases e 0) as [C|C].
    + exists (Zpos mm), (- e)%Z. split; [|split; [lia|lia]]. now rewrite Z.opp_involutive.
    + exists (Zpos mm * 2 ^ e)%Z, 0%Z. split; [|split; [lia|]].
      * rewrite mult_IZR, (bpow_IZR e) by lia. cbn [Z.opp bpow]. ring.
      * assert (Zpos mm * 2 ^ e <= 2 ^ 30)%Z.
        { apply le_IZR. rewrite mult_IZR, <- bpow_IZR by lia. rewrite <- (bpow_IZR 30) by lia. exact U. }
        assert (0 <= 2 ^ e)%Z by (apply Z.pow_nonneg; lia). nia.
Qed.

(* ---- counting ----------------------------------------------------------- *)

(* i-th frame exists iff k < ceil((len - p0) / x) *)
Lemma floor_lt_ceil : forall k x n, 0 < x ->
  (Zfloor (INR k * x) < n)%Z <-> (Z.of_nat k < Zceil (IZR n / x))%Z.
Proof.
  intros k x n P. split; intro H.
  - apply Z.lt_nge. intro C.
    assert (IZR n / x <= INR k).
    { rewrite INR_IZR_INZ. eapply Rle_trans; [apply Zceil_ub|]. now apply IZR_le. }
    assert (IZR n <= INR k * x).
    { apply Rmult_le_reg_r with (/ x); [now apply Rinv_0_lt_compat|].
      rewrite Rmult_assoc, Rinv_r by lra. unfold Rdiv in H0. lra. }
    apply Zfloor_lub in H1. lia.
  - apply Z.lt_nge. intro C.
    assert (IZR n <= INR k * x).
    { eapply Rle_trans; [apply IZR_le, C|]. apply Zfloor_lb. }
    assert (IZR n / x <= INR k).
    { apply Rmult_le_reg_r with x; auto. unfold Rdiv. rewrite Rmult_assoc, Rinv_l by lra. lra. }
    rewrite INR_IZR_INZ in H1. apply Zceil_glb in H1. lia.
Qed.

(* ---- backward ------------------------------------------------------------- *)

Record bwd_inv (h : Z) (nch : nat) (p0 : Z) (x : b64) (k : nat) (r : reader)
  : Prop := mkBwd {
  bw_plain : plain h nch r;
  bw_rate : r_rate r = x;
  bw_ls : r_ls r = 0%Z;
  bw_loop : r_loop r = LNone;
  bw_remf : fin64 (r_rem r) = true;
  bw_rem : R64 (r_rem r) = - (INR k * - R64 x - IZR (Zfloor (INR k * - R64 x)));
  bw_pos : r_pos1 r = (h + (p0 - Zfloor (INR k * - R64 x)) * Z.of_nat nch)%Z }.

Definition bwd_idx (p0 : Z) (x : R) (k : nat) : option Z :=
  let i := (p0 - Zfloor (INR k * x))%Z in if (i <? 0)%Z then None else Some i.

Lemma bwd_at_end : forall h nch p0 x k r, (1 <= nch)%nat -> in_s32 h ->
  fin64 x = true -> R64 x < 0 ->
  bwd_inv h nch p0 x k r ->
  at_end r = (p0 - Zfloor (INR k * - R64 x) <? 0)%Z.
Proof.
  intros h nch p0 x k r N HH F P [PL RT LN LP RF RM PS].
  unfold at_end. rewrite (pl_dual _ _ _ PL), RT, (dge0_false x F P), (dlt0_true x F P).
  rewrite LN, (spos_plain h nch r 0 PL) by (rewrite Z.mul_0_l, Z.add_0_r; auto).
  rewrite (pl_hdr _ _ _ PL), Z.mul_0_l, Z.add_0_r.
  replace (match r_pstart r with PSample => (r_pos1 r <? h)%Z | _ => (r_pos1 r <? h)%Z end)
    with (r_pos1 r <? h)%Z by (destruct (r_pstart r); reflexivity).
  rewrite PS.
  destruct (Z.ltb_spec (p0 - Zfloor (INR k * - R64 x)) 0);
    destruct (Z.ltb_spec (h + (p0 - Zfloor (INR k * - R64 x)) * Z.of_nat nch) h); auto; nia.
Qed.

Lemma grid_neg : forall x, grid_rate x -> grid_rate (dneg x).
Proof.
  intros x (F & num & q & E & Hq & Hn). split; [now rewrite fin_neg|].
  exists (- num)%Z, q. rewrite R64_neg, E, opp_IZR. repeat split; try lia. ring.
Qed.

Lemma bwd_walk : forall h len nch p0 x, fits h len nch ->
  grid_rate x -> R64 x < 0 -> (p0 < len)%Z ->
  (- R64 x + 1) * INR nch <= IZR (2 ^ 30) ->
  walk h nch (bwd_inv h nch p0 x) (bwd_idx p0 (- R64 x)).
Proof.
  intros h len nch p0 x A G P Hp0 B.
  pose proof A as (H1 & H2 & H4 & H5 & H6).
  split; [auto|]. split; [intros k r s []; constructor; auto using plain_src|]. intros k r I.
  assert (F : fin64 x = true) by apply G.
  assert (IH : in_s32 h) by (unfold in_s32; nia).
  pose proof (bwd_at_end _ _ _ _ _ _ H5 IH F P I) as E.
  destruct I as [PL RT LN LP RF RM PS].
  split; [auto|].
  unfold bwd_idx. set (i := Zfloor (INR k * - R64 x)) in *.
  assert (I0 : (0 <= i)%Z).
  { apply Zfloor_lub. apply Rmult_le_pos; [apply pos_INR|lra]. }
  destruct (Z.ltb_spec (p0 - i) 0) as [L|L].
  - split; [auto|]. split; [auto|]. constructor; auto. destruct PL; constructor; auto.
  - pose proof (Zfloor_frac (INR k * - R64 x)) as FR. fold i in FR.
    assert (SS : step_sum r = R64 (r_rem r) + R64 x).
    { unfold step_sum. rewrite RT. apply rnd64_id. rewrite RM.
      replace (- (INR k * - R64 x - IZR i) + R64 x)
        with (- (INR k * - R64 x - IZR i + - R64 x)) by ring.
      apply generic_format_opp. unfold i. rewrite <- R64_neg. apply grid_sum.
      - now apply grid_neg.
      - rewrite R64_neg. lra. }
    assert (TR : Ztrunc (step_sum r) = (- (Zfloor (INR (S k) * - R64 x) - i))%Z).
    { rewrite SS, RM, Ztrunc_ceil by lra. unfold Zceil. f_equal. rewrite S_INR.
      replace (- (- (INR k * - R64 x - IZR i) + R64 x)) with ((INR k + 1) * - R64 x - IZR i) by ring.
      apply Zfloor_add_Z. }
    assert (N1 : 1 <= INR nch).
    { change 1 with (INR 1). apply le_INR. lia. }
    assert (D0 : (Ztrunc (step_sum r) <= 0)%Z).
    { rewrite SS, RM, Ztrunc_ceil by lra. apply Zceil_glb. lra. }
    assert (D1 : (- (2 ^ 30) <= Ztrunc (step_sum r) * Z.of_nat nch)%Z).
    { apply le_IZR. rewrite mult_IZR, opp_IZR, <- INR_IZR_INZ.
      assert (- (- R64 x + 1) <= IZR (Ztrunc (step_sum r))).
      { pose proof (Ztrunc_bounds_neg (step_sum r)) as T. rewrite SS, RM in *. lra. }
      nra. }
    assert (X30 : - R64 x <= bpow radix2 40).
    { rewrite bpow_IZR by lia. apply Rle_trans with (IZR (2 ^ 30)); [nra|]. apply IZR_le. lia. }
    destruct (advance_plain r) as (y & Y1 & Y2 & Y3 & AD).
    + auto.
    + now rewrite RT.
    + rewrite RM. apply Rabs_le. lra.
    + rewrite RT. rewrite Rabs_left by auto. auto.
    + apply PL.
    + unfold in_s32. nia.
    + rewrite (pl_nch _ _ _ PL). unfold in_s32. nia.
    + rewrite PS, (pl_nch _ _ _ PL). unfold in_s32. nia.
    + exists 0%nat, r. eexists. split; [now constructor|]. split; [auto|].
      split; [now rewrite PS|]. split; [exact AD|].
      constructor; auto.
      * now apply advance_keeps_plain.
      * change (R64 y = - (INR (S k) * - R64 x - IZR (Zfloor (INR (S k) * - R64 x)))).
        rewrite Y2, TR, SS, RM, opp_IZR, minus_IZR, S_INR. ring.
      * change ((r_pos1 r + Ztrunc (step_sum r) * r_nch r)%Z =
                (h + (p0 - Zfloor (INR (S k) * - R64 x)) * Z.of_nat nch)%Z).
        rewrite PS, TR, (pl_nch _ _ _ PL). ring.
Qed.

Lemma bwd_follows : forall m off len nch p0 x, array_holds m off len nch ->
  grid_rate x -> R64 x < 0 -> (p0 < len)%Z ->
  (- R64 x + 1) * INR nch <= IZR (2 ^ 30) ->
  follows (fun k r => bwd_inv 0 nch p0 x k r /\ r_src r = SArr m off)
    (fun k => option_map (src_frame m (off + 2 * 0) nch) (bwd_idx p0 (- R64 x) k)).
Proof.
  intros m off len nch p0 x A G P Hp0 B.
  apply walk_follows; [eapply bwd_walk; eauto using array_fits|].
  intros k i E. apply (frame_in_array m off len); auto.
  unfold bwd_idx in E. destruct (Z.ltb_spec (p0 - Zfloor (INR k * - R64 x)) 0); inversion E; subst.
  split; [lia|].
  assert (0 <= Zfloor (INR k * - R64 x))%Z; [|lia].
  apply Zfloor_lub. apply Rmult_le_pos; [apply pos_INR|lra].
Qed.

Lemma bwd_stream : forall m off nch p0 x k,
  option_map (src_frame m (off + 2 * 0) nch) (bwd_idx p0 x k) = back_stream m off nch p0 x k.
Proof.
  intros. unfold bwd_idx, back_stream. rewrite Z.mul_0_r, Z.add_0_r. destruct (_ <? _)%Z; reflexivity.
Qed.

(* What playRaw(array, len, nch) leaves behind, at a rate < 0.  The start
   position for play_start_sample and play_start_loop is computed with mixed
   units (frames and samples). *)
Lemma playRaw_bwd : forall m off len nch r l ps pb, array_holds m off len nch ->
  basic_settings r l ps pb -> fin64 (r_rate r) = true -> R64 (r_rate r) < 0 ->
  (ps = PArbitrary -> 0 <= pb <= len)%Z ->
  exists r', playRaw_array r m off len (Z.of_nat nch) = Ok r' /\
    plain 0 nch r' /\ r_src r' = SArr m off /\ r_rate r' = r_rate r /\ r_fsamples r' = len /\ r_loop r' = l /\
    r_rem r' = r_rem r /\ r_ls r' = 0%Z /\ r_lf r' = len /\ r_pstart r' = ps /\
    (r_pos1 r' = match ps with
                 | PSample => len - Z.of_nat nch
                 | PLoop => s32 ((len - Z.of_nat nch) * Z.of_nat nch)
                 | PArbitrary => pb * Z.of_nat nch
                 end)%Z.
Proof.
  intros m off len nch r l ps pb (H1 & H2 & H3 & H4 & H5 & H6) (B1 & B2 & B3 & B4 & B5 & B6 & B7) F P Hpb.
  assert (LL : (len <= len * Z.of_nat nch)%Z) by nia.
  unfold playRaw_array. set (r0 := setNumChannels _ _).
  assert (NC : r_nch r0 = Z.of_nat nch).
  { unfold r0. cbn. apply s16_id. unfold in_s16. lia. }
  assert (LF : r_lf r0 = len) by (unfold r0; cbn; apply s32_id; unfold in_s32; nia).
  assert (FZ : r_fsize r0 = (2 * len)%Z).
  { change (r_fsize r0) with (s32 (u32 (len * 2))). rewrite s32_u32.
    rewrite s32_id by (unfold in_s32; lia). lia. }
  assert (FS : r_fsamples r0 = len) by (unfold r0; cbn; apply s32_id; unfold in_s32; nia).
  unfold r_reset.
  change (r_rate r0) with (r_rate r). rewrite (dge0_false _ F P).
  change (r_pstart r0) with (r_pstart r). rewrite B4.
  assert (SP : forall n, spos r0 n = s32 (n * Z.of_nat nch)%Z).
  { intros n. unfold spos, sts. rewrite NC. change (r_hdr r0) with 0%Z.
    now rewrite s32_u32. }
  set (p := match ps with
                 | PSample => len - Z.of_nat nch
                 | PLoop => s32 ((len - Z.of_nat nch) * Z.of_nat nch)
                 | PArbitrary => pb * Z.of_nat nch
                 end%Z).
  assert (E : match ps with
          | PSample => chk32 (Z.quot (r_fsize r0) 2 - r_nch r0)
          | PLoop => n <- chk32 (r_lf r0 - r_nch r0) ;; Ok (spos r0 n)
          | PArbitrary => Ok (spos r0 (r_pbstart r0))
          end = Ok p).
  { unfold p. destruct ps.
    - rewrite FZ, NC. rewrite Z.mul_comm, Z.quot_mul by lia. apply chk32_ok. unfold in_s32; lia.
    - rewrite LF, NC, chk32_ok by (unfold in_s32; lia). cbn [bind]. now rewrite SP.
    - specialize (Hpb eq_refl). change (r_pbstart r0) with (r_pbstart r). rewrite B5, SP, s32_id by (unfold in_s32; nia). reflexivity. }
  rewrite E. cbn [bind]. eexists. split; [reflexivity|].
  repeat split; auto.
Qed.

Lemma backward_delivers : forall m off len nch r ps pb p0, array_holds m off len nch ->
  basic_settings r LNone ps pb -> (ps = PArbitrary -> 0 <= pb <= len)%Z ->
  grid_rate (r_rate r) -> R64 (r_rate r) < 0 -> (- R64 (r_rate r) + 1) * INR nch <= IZR (2 ^ 30) ->
  (p0 < len)%Z ->
  (match ps with
   | PSample => (p0 * Z.of_nat nch = len - Z.of_nat nch)%Z
   | PLoop => nch = 1%nat /\ p0 = (len - 1)%Z
   | PArbitrary => p0 = pb
   end) ->
  exists r', playRaw_array r m off len (Z.of_nat nch) = Ok r' /\
    delivers r' (back_stream m off nch p0 (- R64 (r_rate r))).
Proof.
  intros m off len nch r ps pb p0 A B Hpb G P Hr Hp0 H0.
  pose proof A as (H1 & H2 & H3 & H4 & H5 & H6).
  destruct (playRaw_bwd m off len nch r LNone ps pb A B (proj1 G) P Hpb)
    as (r' & E & PL & SR & RT & FS & LP & RM & LS & LF & PS & PO).
  exists r'. split; auto.
  eapply delivers_ext; [apply bwd_stream|].
  eapply follows_delivers.
  - eapply bwd_follows; eauto.
  - split; [|auto]. destruct B as (B1 & B2 & B3 & B4 & B5 & B6 & B7).
    constructor; auto.
    + now rewrite RM.
    + rewrite RM, B7. cbn [INR]. rewrite Rmult_0_l.
      change 0 with (IZR 0). rewrite Zfloor_IZR. lra.
    + rewrite PO. cbn [INR]. rewrite Rmult_0_l.
      change 0 with (IZR 0). rewrite Zfloor_IZR. destruct ps.
      * lia.
      * destruct H0 as [-> ->]. rewrite s32_id by (unfold in_s32; lia). lia.
      * subst p0. lia.
Qed.
