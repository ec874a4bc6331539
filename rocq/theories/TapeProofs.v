(* C98: playback from arrays and files while the rate changes. *)

From Coq Require Import ZArith Lia List Bool Reals Lra.
From RecordUpdate Require Import RecordUpdate.
From Flocq Require Import Core.Core IEEE754.BinarySingleNaN.
From Verif Require Import Machine Floats FloatFacts WavModel InterpModel CacheModel ReaderModel
  ReaderFacts ReaderSpec Sessions StreamFacts Walk ForwardProofs PlayProofs CacheFacts CacheSpec CacheProofs WavSpec WavProofs WavPlayProofs
  FileSpec WindowProofs FileProofs FilePlay FileForward TapeSpec.
Import ListNotations.
Local Open Scope Z_scope.

(* ---- positions in units of 2^-q ---------------------------------------- *)

Section Q.
Variable q : Z.
Hypothesis Q : 0 <= q <= 52.
Let D := 2 ^ q.
Let HD : 0 < D.
Proof. apply Z.pow_pos_nonneg; lia. Qed.
Let HB : bpow radix2 (- q) = (/ IZR D)%R.
Proof. rewrite bpow_opp, bpow_IZR by lia. reflexivity. Qed.

Lemma floor_units : forall T, Zfloor (IZR T * bpow radix2 (- q)) = T / D.
Proof. intro T. rewrite HB, <- Zfloor_div by lia. reflexivity. Qed.

Record tape_inv (h len : Z) (nch : nat) (T : Z) (x : b64) (r : reader) : Prop := mkTape {
  tp_plain : plain h nch r;
  tp_rate : r_rate r = x;
  tp_len : r_fsamples r = len;
  tp_loop : r_loop r = LNone;
  tp_remf : fin64 (r_rem r) = true;
  tp_rem : R64 (r_rem r) = (IZR (T mod D) * bpow radix2 (- q))%R;
  tp_pos : r_pos1 r = h + T / D * Z.of_nat nch }.

Definition tape_idx (len T num : Z) (k : nat) : option Z :=
  let i := (T + Z.of_nat k * num) / D in if i <? len then Some i else None.

Lemma tape_at_end : forall h len nch T x r, fits h len nch -> fin64 x = true -> (0 <= R64 x)%R ->
  tape_inv h len nch T x r -> at_end r = (len <=? T / D).
Proof.
  intros h len nch T x r (H1 & H2 & H4 & H5 & H6) F P [PL RT LN LP RF RM PS].
  unfold at_end. rewrite (pl_dual _ _ _ PL), RT, (dge0_true x F P), LP, LN.
  rewrite (spos_plain h nch) by (auto; unfold in_s32; lia). rewrite PS.
  destruct (Z.leb_spec len (T / D)); destruct (Z.leb_spec (h + len * Z.of_nat nch) (h + T / D * Z.of_nat nch)); auto; nia.
Qed.

Lemma tape_walk : forall h len nch T x num, fits h len nch -> fin64 x = true ->
  R64 x = (IZR num * bpow radix2 (- q))%R -> 0 <= num <= 2 ^ 52 -> ((R64 x + 1) * INR nch <= IZR (2 ^ 30))%R -> 0 <= T ->
  walk h nch (fun k => tape_inv h len nch (T + Z.of_nat k * num) x) (tape_idx len T num).
Proof.
  intros h len nch T x num A F X NM B T0. pose proof A as (H1 & H2 & H4 & H5 & H6).
  assert (P : (0 <= R64 x)%R) by (rewrite X; apply Rmult_le_pos; [apply (IZR_le 0); lia|apply bpow_ge_0]).
  split; [auto|]. split; [intros k r s []; constructor; auto using plain_src|]. intros k r I.
  pose proof (tape_at_end _ _ _ _ _ _ A F P I) as E. pose proof I as [PL RT LN LP RF RM PS].
  split; [auto|]. unfold tape_idx. set (U := T + Z.of_nat k * num) in *.
  assert (U0 : 0 <= U) by (unfold U; nia).
  assert (I0 : 0 <= U / D) by (apply Z.div_pos; lia).
  pose proof (Z.mod_pos_bound U D HD) as MB. pose proof (Z.div_mod U D ltac:(lia)) as DM.
  assert (D52 : D <= 2 ^ 52) by (apply Z.pow_le_mono_r; lia).
  destruct (Z.ltb_spec (U / D) len) as [L|L].
  - rewrite (proj2 (Z.leb_gt _ _) L) in E.
    assert (SX : (R64 (r_rem r) + R64 x = IZR (U mod D + num) * bpow radix2 (- q))%R) by (rewrite RM, X, plus_IZR; ring).
    assert (SS : step_sum r = (IZR (U mod D + num) * bpow radix2 (- q))%R).
    { unfold step_sum. rewrite RT, SX. apply rnd64_id. apply fmt64_me; lia. }
    assert (SP : (0 <= step_sum r)%R) by (rewrite SS; apply Rmult_le_pos; [apply (IZR_le 0); lia|apply bpow_ge_0]).
    assert (TR : Ztrunc (step_sum r) = (U mod D + num) / D) by (rewrite Ztrunc_floor by auto; rewrite SS; apply floor_units).
    assert (NX : (U + num) / D = U / D + (U mod D + num) / D).
    { replace (U + num) with (U mod D + num + U / D * D) by lia. rewrite Z.div_add by lia. lia. }
    assert (NM2 : (U + num) mod D = U mod D + num - (U mod D + num) / D * D).
    { rewrite Z.mod_eq by lia. rewrite NX. lia. }
    assert (D0 : 0 <= (U mod D + num) / D) by (apply Z.div_pos; lia).
    assert (N1 : (1 <= INR nch)%R) by (change 1%R with (INR 1); apply le_INR; lia).
    assert (RB : (0 <= R64 (r_rem r) < 1)%R).
    { rewrite RM, HB. split; [apply Rmult_le_pos; [apply (IZR_le 0); lia|left; apply Rinv_0_lt_compat, (IZR_lt 0); lia]|].
      apply Rmult_lt_reg_r with (IZR D); [apply (IZR_lt 0); lia|].
      rewrite Rmult_assoc, Rinv_l, Rmult_1_r, Rmult_1_l by (apply IZR_neq; lia). apply IZR_lt. lia. }
    assert (D1 : Ztrunc (step_sum r) * Z.of_nat nch <= 2 ^ 30).
    { apply le_IZR. rewrite mult_IZR, <- INR_IZR_INZ.
      assert (IZR (Ztrunc (step_sum r)) <= R64 x + 1)%R.
      { rewrite Ztrunc_floor by auto. pose proof (Zfloor_lb (step_sum r)). rewrite SS, <- SX in *. lra. }
      nra. }
    assert (X30 : (R64 x <= bpow radix2 40)%R).
    { rewrite bpow_IZR by lia. apply Rle_trans with (IZR (2 ^ 30)); [nra|]. apply IZR_le. lia. }
    destruct (advance_plain r) as (y & Y1 & Y2 & Y3 & AD).
    + auto.
    + now rewrite RT.
    + apply Rabs_le. lra.
    + rewrite RT. rewrite Rabs_pos_eq; auto.
    + apply PL.
    + rewrite TR in *. unfold in_s32. nia.
    + rewrite (pl_nch _ _ _ PL). rewrite TR in *. unfold in_s32. nia.
    + rewrite PS, (pl_nch _ _ _ PL). rewrite TR in *. unfold in_s32. nia.
    + exists 0%nat, r. eexists. split; [now constructor|]. split; [auto|].
      split; [now rewrite PS|]. split; [exact AD|].
      replace (T + Z.of_nat (S k) * num) with (U + num) by (unfold U; lia).
      constructor; auto.
      * now apply advance_keeps_plain.
      * change (R64 y = (IZR ((U + num) mod D) * bpow radix2 (- q))%R).
        rewrite Y2, TR, SS, NM2, minus_IZR, mult_IZR, HB. field. apply IZR_neq. lia.
      * change (r_pos1 r + Ztrunc (step_sum r) * r_nch r = h + (U + num) / D * Z.of_nat nch).
        rewrite PS, TR, (pl_nch _ _ _ PL), NX. ring.
  - rewrite (proj2 (Z.leb_le _ _) L) in E. split; [auto|]. split; [auto|].
    constructor; auto. destruct PL; constructor; auto.
Qed.

(* setPlaybackRate to a rate that is not negative *)
Lemma tape_speed : forall h len nch T x y r, fits h len nch -> 0 <= T -> tape_inv h len nch T x r -> fin64 y = true -> (0 <= R64 y)%R ->
  setPlaybackRate r y = Ok (r <| r_rate := y |>) /\ tape_inv h len nch T y (r <| r_rate := y |>).
Proof.
  intros h len nch T x y r A T0 [PL RT LN LP RF RM PS] F P. split.
  - unfold setPlaybackRate. cbv zeta. change (r_dual (r <| r_rate := y |>)) with (r_dual r). rewrite (pl_dual _ _ _ PL). cbn [negb].
    assert (dlt y d0 = false).
    { rewrite dlt_R by (auto; reflexivity). apply Rlt_bool_false. change (R64 d0) with 0%R. exact P. }
    rewrite H. change (r_pos1 (r <| r_rate := y |>)) with (r_pos1 r). change (r_hdr (r <| r_rate := y |>)) with (r_hdr r).
    rewrite PS, (pl_hdr _ _ _ PL). assert (0 <= T / D) by (apply Z.div_pos; lia).
    destruct (Z.ltb_spec (h + T / D * Z.of_nat nch) h); [nia|]. now rewrite andb_false_r.
  - constructor; auto. destruct PL; constructor; auto.
Qed.

(* The spec in units *)
Lemma spot_units : forall fr len T num k, spot fr len (IZR T * bpow radix2 (- q)) (IZR num * bpow radix2 (- q)) k =
  option_map fr (tape_idx len T num k).
Proof.
  intros fr len T num k. unfold spot, tape_idx. cbv zeta.
  replace (IZR T * bpow radix2 (- q) + INR k * (IZR num * bpow radix2 (- q)))%R with (IZR (T + Z.of_nat k * num) * bpow radix2 (- q))%R
    by (rewrite plus_IZR, mult_IZR, <- INR_IZR_INZ; ring).
  rewrite floor_units. destruct (_ <? _); reflexivity.
Qed.

Lemma rate_num : forall X x, rate_ok q X x -> fin64 x = true /\ (0 <= R64 x <= X)%R /\
  exists num, 0 <= num <= 2 ^ 52 /\ R64 x = (IZR num * bpow radix2 (- q))%R /\ (IZR num <= X * IZR D)%R.
Proof.
  intros X x (F & U & num & NM & E). split; [auto|]. split.
  { split; [|auto]. rewrite E. apply Rmult_le_pos; [apply (IZR_le 0); lia|apply bpow_ge_0]. }
  exists num. split; [auto|]. split; [auto|]. rewrite E, HB in U.
  apply Rmult_le_reg_r with (/ IZR D)%R; [apply Rinv_0_lt_compat, (IZR_lt 0); lia|].
  rewrite (Rmult_assoc X), Rinv_r, Rmult_1_r by (apply IZR_neq; lia). exact U.
Qed.

(* Distances in frames from distances in units *)
Lemma unit_span : forall a b (Y : R), b <= a -> (IZR (a - b) <= Y * IZR D)%R -> (IZR (a / D - b / D + 1) <= Y + 2)%R.
Proof.
  intros a b Y L H. rewrite <- !floor_units, plus_IZR, minus_IZR, HB.
  pose proof (Zfloor_lb (IZR a * / IZR D)). pose proof (Zfloor_ub (IZR b * / IZR D)).
  assert (IZR a * / IZR D - IZR b * / IZR D <= Y)%R.
  { rewrite minus_IZR in H. apply Rmult_le_reg_r with (IZR D); [apply (IZR_lt 0); lia|].
    rewrite Rmult_minus_distr_r, !Rmult_assoc, Rinv_l, !Rmult_1_r by (apply IZR_neq; lia). exact H. }
  lra.
Qed.

Lemma spun_fuel : forall l F F' r x, (F <= F')%nat -> spun F r l = Ok x -> spun F' r l = Ok x.
Proof.
  induction l as [|[y|n] l IH]; intros F F' r x L H; auto; cbn [spun] in *.
  - apply bind_ok in H. destruct H as (r1 & E & H). rewrite E. cbn [bind]. eauto.
  - apply bind_ok in H. destruct H as ([b r1] & E & H). rewrite (r_read_fuel _ _ _ _ _ L E). cbn [bind].
    apply bind_ok in H. destruct H as (r2 & E2 & H). rewrite (r_reload_fuel (r_cfg r1) _ _ _ _ L E2). cbn [bind].
    apply bind_ok in H. destruct H as ([bs r3] & E3 & H). rewrite (IH _ _ _ _ L E3). exact H.
Qed.

Lemma pulls_ends : forall (out : stream) n k, length (pulls out k n) = n \/ out (k + length (pulls out k n))%nat = None.
Proof.
  intros out. induction n as [|n IH]; intros k; [left; reflexivity|]. cbn [pulls].
  destruct (out k) as [v|] eqn:E; cbn [length].
  - destruct (IH (S k)) as [H|H]; [left; lia|right]. rewrite <- H. f_equal. lia.
  - right. now rewrite Nat.add_0_r.
Qed.

Section F.
Variables (c : ccfg) (fl : file) (h len : Z) (nch B : nat) (X : R).
Hypothesis C : cfg_ok c.
Hypothesis FH : file_holds fl h len nch.
Hypothesis XB : ((X + 1) * INR nch <= IZR (2 ^ 30))%R.
Hypothesis KU : ((INR (2 * B) * X + 2) * INR nch <= IZR ((Z.of_nat (c_nbuf c) - 1) * BS c))%R.
Let at_ U := blk c (h + U / D * Z.of_nat nch).

Lemma tape_upd : forall T Tp num n, 0 <= Tp -> Tp <= T -> (IZR (T - Tp) <= INR B * (X * IZR D))%R -> (n <= B)%nat ->
  0 <= num -> (IZR num <= X * IZR D)%R -> upd_ok c fl h nch (tape_idx len T num) (at_ Tp) 0 n.
Proof.
  intros T Tp num n TP TM SP NB N0 NU k i K E. unfold tape_idx in E.
  set (U := T + Z.of_nat k * num) in *. destruct (Z.ltb_spec (U / D) len) as [L|]; [|discriminate]. apply Some_inj in E. subst i.
  assert (TU : T <= U) by (unfold U; nia).
  assert (TQ : Tp / D <= T / D) by (apply Z.div_le_mono; lia).
  assert (UQ : T / D <= U / D) by (apply Z.div_le_mono; lia).
  assert (P0 : 0 <= Tp / D) by (apply Z.div_pos; lia).
  destruct FH as ((H1 & H2 & H3 & H4 & H5) & FE & FL).
  split; [unfold frame_file; nia|]. split.
  - replace (Z.of_nat (c_nbuf c)) with (Z.of_nat (c_nbuf c) - 1 + 1) by lia. rewrite Z.add_assoc.
    apply blk_span; [auto|].
    enough ((U / D - Tp / D + 1) * Z.of_nat nch <= (Z.of_nat (c_nbuf c) - 1) * BS c) by nia.
    apply le_IZR. eapply Rle_trans; [|exact KU]. rewrite mult_IZR, <- INR_IZR_INZ.
    apply Rmult_le_compat_r; [apply pos_INR|]. apply unit_span; [lia|].
    replace (U - Tp) with (T - Tp + Z.of_nat k * num) by (unfold U; ring).
    rewrite plus_IZR, mult_IZR, <- INR_IZR_INZ. rewrite mult_INR. change (INR 2) with 2%R.
    assert (INR k * IZR num <= INR B * (X * IZR D))%R.
    { apply Rmult_le_compat; auto; [apply pos_INR|apply (IZR_le 0); lia|apply le_INR; lia]. }
    lra.
  - intros i0 E. unfold tape_idx in E. cbn [Z.of_nat] in E. rewrite Z.mul_0_l, Z.add_0_r in E.
    destruct (_ <? _); [|discriminate]. apply Some_inj in E. subst i0.
    split; apply blk_mono; auto; nia.
Qed.

Lemma tape_session : forall l T Tm Tp x m r, tape_inv h len nch Tm x r -> rate_ok q X x ->
  windowed c fl (at_ Tp) m None r -> 0 <= Tp -> Tp <= Tm -> (IZR (Tm - Tp) <= INR B * (X * IZR D))%R ->
  (Tm = T \/ len <= Tm / D /\ len <= T / D) -> Forall (tape_ok q X B) l ->
  exists F r', spun F r l = Ok (tape (file_frame fl h nch) len (IZR T * bpow radix2 (- q)) (R64 x) l, r') /\ misses r' = 0.
Proof.
  pose proof FH as ((H1 & H2 & H3 & H4 & H5) & FE & FL).
  assert (FS : fsize fl <= 2 ^ 31) by lia.
  assert (N1 : (1 <= INR nch)%R) by (change 1%R with (INR 1); now apply le_INR).
  assert (XU : forall x, rate_ok q X x -> ((R64 x + 1) * INR nch <= IZR (2 ^ 30))%R /\ (0 <= R64 x <= IZR (2 ^ 30))%R).
  { intros x RX. destruct (rate_num X x RX) as (_ & RB & _). split; [nra|]. split; [lra|]. nra. }
  induction l as [|[y|n] l IH]; intros T Tm Tp x m r HI RX W TP TM SP TT OK.
  - exists O, r. split; [reflexivity|]. eapply windowed_misses; eauto.
  - inversion OK as [|? ? O1 O2]; subst. cbn [tape_ok] in O1. destruct (rate_num X y O1) as (FY & [PY _] & _).
    destruct (tape_speed h len nch Tm x y r (proj1 FH) ltac:(lia) HI FY PY) as [E HI2].
    destruct (IH T Tm Tp y m _ HI2 O1) as (F & r' & S & M); auto.
    exists F, r'. cbn [spun tape]. rewrite E. cbn [bind]. auto.
  - inversion OK as [|? ? O1 O2]; subst. cbn [tape_ok] in O1.
    destruct (rate_num X x RX) as (FX & PX & num & NM & EX & NU). destruct (XU x RX) as [XB1 XB2].
    set (I := fun k : nat => tape_inv h len nch (Tm + Z.of_nat k * num) x).
    set (idx := tape_idx len Tm num).
    pose proof (tape_walk h len nch Tm x num (proj1 FH) FX EX NM XB1 ltac:(lia)) as WK. fold I idx in WK.
    assert (FWD : forall k r, I k r -> fle f0 (f_of_d (r_rate r)) = true).
    { intros k r0 HI0. rewrite (tp_rate _ _ _ _ _ _ HI0). now apply rate_single_sign. }
    assert (I0 : I O r) by (unfold I; cbn [Z.of_nat]; rewrite Z.mul_0_l, Z.add_0_r; exact HI).
    pose proof (tape_upd Tm Tp num n TP TM SP O1 (proj1 NM) NU) as UP. fold idx in UP.
    destruct (file_update c fl h nch C FS I idx WK n (at_ Tp) m O r I0 W UP) as (F & r1 & o & E & HI1 & W1 & NW).
    set (out := fun k => option_map (file_frame fl h nch) (idx k)) in *.
    assert (BW : 2 * (next_win c h nch idx (at_ Tp) 0 n * BS c) < 2 ^ 31).
    { assert (WB : 2 * (at_ Tp * BS c) < 2 ^ 31) by (destruct W as (f & _ & _ & WO & _); destruct WO as (_ & _ & Q1 & _); lia).
      unfold next_win. destruct n as [|n']; [exact WB|]. destruct (idx O) as [i|] eqn:EI; [|exact WB].
      destruct (UP O i ltac:(lia) EI) as ([A1 A2] & _).
      pose proof (blk_mod c (h + i * Z.of_nat nch) C) as BM. pose proof (mod_BS c (h + i * Z.of_nat nch) C) as MB. lia. }
    rewrite NW in BW.
    destruct (file_reload c fl h nch C FS I idx WK FWD _ m o _ r1 HI1 W1 BW) as (F1 & r2 & E1 & HI2 & W2).
    cbv zeta in W2. rewrite <- NW in W2. cbn [Nat.add] in HI2. unfold I in HI2.
    set (L := length (pulls out 0 n)) in *.
    assert (LN : (L <= n)%nat) by apply pulls_length.
    (* the blocks agree *)
    assert (EB : pulls out 0 n = pulls (spot (file_frame fl h nch) len (IZR T * bpow radix2 (- q)) (R64 x)) 0 n).
    { rewrite EX. destruct TT as [->|[T1 T2]].
      - apply pulls_ext. intro k. symmetry. apply spot_units.
      - destruct n as [|n']; [reflexivity|]. cbn [pulls]. rewrite spot_units. unfold out, idx, tape_idx. cbn [Z.of_nat].
        rewrite !Z.mul_0_l, !Z.add_0_r. destruct (Z.ltb_spec (Tm / D) len); [lia|]. destruct (Z.ltb_spec (T / D) len); [lia|]. reflexivity. }
    assert (NT : (IZR T * bpow radix2 (- q) + INR n * R64 x = IZR (T + Z.of_nat n * num) * bpow radix2 (- q))%R)
      by (rewrite EX, plus_IZR, mult_IZR, <- INR_IZR_INZ; ring).
    (* the next window *)
    assert (NX : exists Tp', next_win c h nch idx (at_ Tp) 0 n = at_ Tp' /\ 0 <= Tp' /\ Tp' <= Tm + Z.of_nat L * num /\
      (IZR (Tm + Z.of_nat L * num - Tp') <= INR B * (X * IZR D))%R).
    { unfold next_win. destruct n as [|n']; [exists Tp; cbn; rewrite Z.add_0_r; auto|].
      destruct (idx O) as [i|] eqn:EI.
      - exists Tm. unfold idx, tape_idx in EI. cbn [Z.of_nat] in EI. rewrite Z.mul_0_l, Z.add_0_r in EI.
        destruct (_ <? _); [|discriminate]. apply Some_inj in EI. subst i.
        split; [reflexivity|]. split; [lia|]. split; [nia|].
        replace (Tm + Z.of_nat L * num - Tm) with (Z.of_nat L * num) by ring. rewrite mult_IZR, <- INR_IZR_INZ.
        apply Rmult_le_compat; auto; [apply pos_INR|apply (IZR_le 0); lia|apply le_INR; lia].
      - exists Tp. assert (L = O) as -> by (unfold L, out; cbn [pulls]; rewrite EI; reflexivity).
        cbn [Z.of_nat]. rewrite Z.mul_0_l, Z.add_0_r. auto. }
    destruct NX as (Tp' & NX & Q0 & Q1 & Q2). rewrite NX in W2.
    assert (TT2 : Tm + Z.of_nat L * num = T + Z.of_nat n * num \/
                  len <= (Tm + Z.of_nat L * num) / D /\ len <= (T + Z.of_nat n * num) / D).
    { destruct TT as [->|[T1 T2]].
      - destruct (pulls_ends out n O) as [LE|LE]; fold L in LE; [left; lia|right]. cbn [Nat.add] in LE.
        unfold out, idx, tape_idx in LE. destruct (Z.ltb_spec ((T + Z.of_nat L * num) / D) len); [discriminate|].
        split; [auto|]. eapply Z.le_trans; [eassumption|]. apply Z.div_le_mono; [lia|].
        apply Z.add_le_mono_l, Z.mul_le_mono_nonneg_r; lia.
      - right. assert (0 <= Z.of_nat L * num) by (apply Z.mul_nonneg_nonneg; lia).
        assert (0 <= Z.of_nat n * num) by (apply Z.mul_nonneg_nonneg; lia).
        split; [apply Z.le_trans with (Tm / D)|apply Z.le_trans with (T / D)]; auto; apply Z.div_le_mono; lia. }
    destruct (IH (T + Z.of_nat n * num) _ Tp' x m r2 HI2 RX W2 Q0 Q1 Q2 TT2 O2) as (F2 & r3 & S & M).
    exists (F + (F1 + F2))%nat, r3. split; [|auto]. cbn [spun tape].
    assert (R : r_read (F + (F1 + F2)) r (Z.of_nat n) = Ok (pulls out 0 n, r1)).
    { pose proof (tp_plain _ _ _ _ _ _ HI) as P.
      unfold r_read. rewrite (pl_playing _ _ _ P). cbn [negb]. rewrite (pl_nch _ _ _ P).
      destruct (Z.ltb_spec (Z.of_nat nch) 0); [lia|].
      eapply read_loop_fuel; [| |exact E]; lia. }
    rewrite R. cbn [bind].
    replace (F + (F1 + F2))%nat with (F1 + (F + F2))%nat by lia. rewrite E1. cbn [bind].
    rewrite (spun_fuel l F2 (F1 + (F + F2)) r2 _ ltac:(lia) S). cbn [bind]. rewrite EB, NT. reflexivity.
Qed.
End F.

(* ---- arrays ------------------------------------------------------------- *)

Lemma tape_array : forall m off len nch B X, array_holds m off len nch -> ((X + 1) * INR nch <= IZR (2 ^ 30))%R ->
  forall l T Tm x r, tape_inv 0 len nch Tm x r -> r_src r = SArr m off -> rate_ok q X x -> 0 <= Tm ->
  (Tm = T \/ len <= Tm / D /\ len <= T / D) -> Forall (tape_ok q X B) l ->
  exists F r', spun F r l = Ok (tape (src_frame m off nch) len (IZR T * bpow radix2 (- q)) (R64 x) l, r').
Proof.
  intros ar off len nch B X A XB.
  assert (N1 : (1 <= INR nch)%R) by (destruct (array_fits _ _ _ _ A) as (_ & _ & _ & N1 & _); change 1%R with (INR 1); now apply le_INR).
  induction l as [|[y|n] l IH]; intros T Tm x r HI SR RX T0 TT OK.
  - exists O, r. reflexivity.
  - inversion OK as [|? ? O1 O2]; subst. cbn [tape_ok] in O1. destruct (rate_num X y O1) as (FY & [PY _] & _).
    destruct (tape_speed 0 len nch Tm x y r (array_fits _ _ _ _ A) ltac:(lia) HI FY PY) as [E HI2].
    destruct (IH T Tm y _ HI2 SR O1) as (F & r' & S); auto.
    exists F, r'. cbn [spun tape]. rewrite E. cbn [bind]. auto.
  - inversion OK as [|? ? O1 O2]; subst. cbn [tape_ok] in O1.
    destruct (rate_num X x RX) as (FX & PX & num & NM & EX & NU).
    assert (XB1 : ((R64 x + 1) * INR nch <= IZR (2 ^ 30))%R) by nra.
    set (I := fun k : nat => tape_inv 0 len nch (Tm + Z.of_nat k * num) x).
    set (idx := tape_idx len Tm num).
    pose proof (tape_walk 0 len nch Tm x num (array_fits _ _ _ _ A) FX EX NM XB1 T0) as WK. fold I idx in WK.
    assert (FO : follows (fun k r => I k r /\ r_src r = SArr ar off) (fun k => option_map (src_frame ar (off + 2 * 0) nch) (idx k))).
    { apply walk_follows; [exact WK|]. intros k i E. apply (frame_in_array ar off len); auto. unfold idx, tape_idx in E.
      destruct (Z.ltb_spec ((Tm + Z.of_nat k * num) / D) len); [|discriminate]. apply Some_inj in E. subst i.
      split; [|auto]. apply Z.div_pos; [nia|lia]. }
    assert (I0 : I O r) by (unfold I; cbn [Z.of_nat]; rewrite Z.mul_0_l, Z.add_0_r; exact HI).
    destruct (follows_loop _ _ FO n O r (conj I0 SR)) as (F & r1 & E & HI1 & SR1).
    set (out := fun k => option_map (src_frame ar (off + 2 * 0) nch) (idx k)) in *.
    cbn [Nat.add] in HI1. unfold I in HI1. set (L := length (pulls out 0 n)) in *.
    assert (LN : (L <= n)%nat) by apply pulls_length.
    assert (EB : pulls out 0 n = pulls (spot (src_frame ar off nch) len (IZR T * bpow radix2 (- q)) (R64 x)) 0 n).
    { rewrite EX. destruct TT as [->|[T1 T2]].
      - apply pulls_ext. intro k. unfold out. rewrite Z.mul_0_r, Z.add_0_r. symmetry. apply spot_units.
      - destruct n as [|n']; [reflexivity|]. cbn [pulls]. rewrite spot_units. unfold out, idx, tape_idx. cbn [Z.of_nat].
        rewrite !Z.mul_0_l, !Z.add_0_r. destruct (Z.ltb_spec (Tm / D) len); [lia|]. destruct (Z.ltb_spec (T / D) len); [lia|]. reflexivity. }
    assert (NT : (IZR T * bpow radix2 (- q) + INR n * R64 x = IZR (T + Z.of_nat n * num) * bpow radix2 (- q))%R)
      by (rewrite EX, plus_IZR, mult_IZR, <- INR_IZR_INZ; ring).
    assert (TT2 : Tm + Z.of_nat L * num = T + Z.of_nat n * num \/
                  len <= (Tm + Z.of_nat L * num) / D /\ len <= (T + Z.of_nat n * num) / D).
    { destruct TT as [->|[T1 T2]].
      - destruct (pulls_ends out n O) as [LE|LE]; fold L in LE; [left; lia|right]. cbn [Nat.add] in LE.
        unfold out, idx, tape_idx in LE. destruct (Z.ltb_spec ((T + Z.of_nat L * num) / D) len); [discriminate|].
        split; [auto|]. eapply Z.le_trans; [eassumption|]. apply Z.div_le_mono; [lia|].
        apply Z.add_le_mono_l, Z.mul_le_mono_nonneg_r; lia.
      - right. assert (0 <= Z.of_nat L * num) by (apply Z.mul_nonneg_nonneg; lia).
        assert (0 <= Z.of_nat n * num) by (apply Z.mul_nonneg_nonneg; lia).
        split; [apply Z.le_trans with (Tm / D)|apply Z.le_trans with (T / D)]; auto; apply Z.div_le_mono; lia. }
    destruct (IH (T + Z.of_nat n * num) (Tm + Z.of_nat L * num) x r1 HI1 SR1 RX ltac:(nia) TT2 O2) as (F2 & r3 & S).
    exists (F + F2)%nat, r3. cbn [spun tape].
    assert (R : r_read (F + F2) r (Z.of_nat n) = Ok (pulls out 0 n, r1)).
    { pose proof (tp_plain _ _ _ _ _ _ HI) as P.
      unfold r_read. rewrite (pl_playing _ _ _ P). cbn [negb]. rewrite (pl_nch _ _ _ P).
      destruct (Z.ltb_spec (Z.of_nat nch) 0); [lia|].
      eapply read_loop_fuel; [| |exact E]; lia. }
    rewrite R. cbn [bind]. unfold r_triggerReload. rewrite SR1. cbn [bind].
    rewrite (spun_fuel l F2 (F + F2) r1 _ ltac:(lia) S). cbn [bind]. rewrite EB, NT. reflexivity.
Qed.

Lemma units_whole : forall p, (IZR p = IZR (p * D) * bpow radix2 (- q))%R.
Proof. intro p. rewrite mult_IZR, HB. field. apply IZR_neq. lia. Qed.

Lemma tape_start : forall h len nch p x r, plain h nch r -> r_rate r = x -> r_fsamples r = len -> r_loop r = LNone ->
  fin64 (r_rem r) = true -> R64 (r_rem r) = 0%R -> r_pos1 r = h + p * Z.of_nat nch -> tape_inv h len nch (p * D) x r.
Proof.
  intros h len nch p x r PL RT LN LP RF RM PS. constructor; auto.
  - rewrite Z.mod_mul by lia. rewrite RM. lra.
  - rewrite Z.div_mul by lia. exact PS.
Qed.

(* ---- from the public entry points --------------------------------------- *)

Lemma tape_open : forall r fl fsam nch h len p garbage ps pb B X, cfg_ok (r_cfg r) ->
  basic_settings r LNone ps pb -> r_nch r = Z.of_nat nch -> r_hdr r = h -> r_fsize r = fsize fl ->
  r_fsamples r = fsam -> 0 <= fsam -> len = fsam / Z.of_nat nch -> file_holds fl h len nch ->
  (ps = PArbitrary -> 0 <= pb <= len) -> rate_ok q X (r_rate r) ->
  ((X + 1) * INR nch <= IZR (2 ^ 30))%R ->
  ((INR (2 * B) * X + 2) * INR nch <= IZR ((Z.of_nat (c_nbuf (r_cfg r)) - 1) * BS (r_cfg r)))%R ->
  exists r', play_open r fl p garbage = Ok (true, r') /\
    forall l, Forall (tape_ok q X B) l -> exists fuel r2,
      spun fuel r' l = Ok (tape (file_frame fl h nch) len (IZR (start_frame ps pb)) (R64 (r_rate r)) l, r2) /\ misses r2 = misses r'.
Proof.
  intros r fl fsam nch h len p garbage ps pb B X C BSET NC HH FZ FQ FQ0 LEN FH PB RX XB KU.
  destruct (rate_num X _ RX) as (FR & PR & num & NM & EX & NU).
  destruct (open_state r fl fsam nch h len p garbage LNone ps pb C BSET NC HH FZ FQ FQ0 LEN FH PB (fun _ => eq_refl) FR (proj1 PR))
    as (r' & g & E & PL & RT & FS & LP & RM & PS & PO & _ & _ & SR & W).
  specialize (W eq_refl). destruct W as (m & W).
  exists r'. split; [exact E|]. intros l OK. set (p0 := start_frame ps pb) in *.
  assert (P0 : 0 <= p0) by (unfold p0, start_frame; destruct ps; [lia|lia|apply (PB eq_refl)]).
  destruct BSET as (_ & _ & _ & _ & _ & B6 & B7).
  assert (I0 : tape_inv h len nch (p0 * D) (r_rate r) r') by (apply tape_start; auto; rewrite RM; auto).
  assert (PP : p0 * D / D = p0) by (apply Z.div_mul; lia).
  destruct (tape_session (r_cfg r) fl h len nch B X C FH XB KU l (p0 * D) (p0 * D) (p0 * D) (r_rate r) m r' I0 RX)
    as (F & r2 & S & M); auto; try nia.
  - now rewrite PP.
  - rewrite Z.sub_diag. apply Rmult_le_pos; [apply pos_INR|]. apply Rmult_le_pos; [lra|apply (IZR_le 0); lia].
  - exists F, r2. rewrite <- units_whole in S. split; [exact S|]. rewrite M. symmetry. eapply windowed_misses; eauto.
Qed.

Lemma tape_raw : forall r fl nch stack garbage ps pb B X, cfg_ok (r_cfg r) -> r_kind r <> KArray ->
  basic_settings r LNone ps pb -> r_hdr r = 0 -> (1 <= nch)%nat -> Z.of_nat nch < 2 ^ 15 -> 0 < fsize fl < 2 ^ 31 ->
  let len := fsize fl / 2 / Z.of_nat nch in
  (ps = PArbitrary -> 0 <= pb <= len) -> rate_ok q X (r_rate r) ->
  ((X + 1) * INR nch <= IZR (2 ^ 30))%R ->
  ((INR (2 * B) * X + 2) * INR nch <= IZR ((Z.of_nat (c_nbuf (r_cfg r)) - 1) * BS (r_cfg r)))%R ->
  exists r', r_play_file r (Some fl) false (Z.of_nat nch) stack garbage = Ok (true, r') /\
    forall l, Forall (tape_ok q X B) l -> exists fuel r2,
      spun fuel r' l = Ok (tape (file_frame fl 0 nch) len (IZR (start_frame ps pb)) (R64 (r_rate r)) l, r2) /\ misses r2 = misses r'.
Proof.
  intros r fl nch stack garbage ps pb B X C K BSET HH N1 NB S len PB RX XB KU.
  destruct (play_raw_open r fl (Z.of_nat nch) stack garbage K ltac:(lia) ltac:(lia)) as (r1 & E & CC & NC & HC & SC & FC & RC & SS).
  rewrite E. rewrite <- RC in RX |- *. rewrite <- CC in C, KU.
  assert (LN : 0 <= len) by (unfold len; apply Z.div_pos; [apply Z.div_pos|]; lia).
  assert (L2 : 2 * (len * Z.of_nat nch) <= fsize fl).
  { unfold len. pose proof (Z.mul_div_le (fsize fl) 2 ltac:(lia)).
    pose proof (Z.mul_div_le (fsize fl / 2) (Z.of_nat nch) ltac:(lia)). lia. }
  apply (tape_open r1 fl (fsize fl / 2) nch 0 len 0 garbage ps pb B X); auto; try congruence.
  - now apply (settings_same r).
  - apply Z.div_pos; lia.
  - unfold file_holds, fits. repeat split; auto; lia.
Qed.

Lemma tape_wav : forall r fl nch tags n nraw stack garbage ps pb B X, cfg_ok (r_cfg r) -> r_kind r <> KArray ->
  basic_settings r LNone ps pb -> bytes_ok stack -> wav_file fl nch tags n -> Z.of_nat nch < 2 ^ 15 ->
  let len := n / 2 / Z.of_nat nch in
  (ps = PArbitrary -> 0 <= pb <= len) -> rate_ok q X (r_rate r) ->
  ((X + 1) * INR nch <= IZR (2 ^ 30))%R ->
  ((INR (2 * B) * X + 2) * INR nch <= IZR ((Z.of_nat (c_nbuf (r_cfg r)) - 1) * BS (r_cfg r)))%R ->
  exists r', r_play_file r (Some fl) true nraw stack garbage = Ok (true, r') /\
    forall l, Forall (tape_ok q X B) l -> exists fuel r2,
      spun fuel r' l = Ok (tape (file_frame fl ((44 + tags) / 2) nch) len (IZR (start_frame ps pb)) (R64 (r_rate r)) l, r2) /\
      misses r2 = misses r'.
Proof.
  intros r fl nch tags n nraw stack garbage ps pb B X C K BSET BST WF NB len PB RX XB KU.
  destruct (play_wav_open r fl nch tags n nraw stack garbage K BST WF NB) as (r1 & E & CC & NC & HC & SC & FC & RC & SS).
  destruct (wav_file_plays fl nch tags n WF) as (_ & _ & _ & E2 & N0).
  destruct WF as (_ & _ & _ & _ & N1 & _ & _ & T0 & SZ & SL).
  rewrite E. rewrite <- RC in RX |- *. rewrite <- CC in C, KU.
  assert (LN : 0 <= len) by (unfold len; apply Z.div_pos; [apply Z.div_pos|]; lia).
  assert (L2 : 2 * (len * Z.of_nat nch) <= n).
  { unfold len. pose proof (Z.mul_div_le n 2 ltac:(lia)).
    pose proof (Z.mul_div_le (n / 2) (Z.of_nat nch) ltac:(lia)). lia. }
  apply (tape_open r1 fl (n / 2) nch ((44 + tags) / 2) len (44 + tags) garbage ps pb B X); auto; try congruence.
  - now apply (settings_same r).
  - apply Z.div_pos; lia.
  - unfold file_holds, fits. repeat split; auto; lia.
Qed.

Lemma tape_mem : forall r m off len nch ps pb B X, array_holds m off len nch -> basic_settings r LNone ps pb ->
  (ps = PArbitrary -> 0 <= pb <= len) -> rate_ok q X (r_rate r) -> ((X + 1) * INR nch <= IZR (2 ^ 30))%R ->
  exists r', playRaw_array r m off len (Z.of_nat nch) = Ok r' /\
    forall l, Forall (tape_ok q X B) l -> exists fuel r2,
      spun fuel r' l = Ok (tape (src_frame m off nch) len (IZR (start_frame ps pb)) (R64 (r_rate r)) l, r2).
Proof.
  intros r m off len nch ps pb B X A BSET PB RX XB. destruct (rate_num X _ RX) as (FR & PR & num & NM & EX & NU).
  destruct (playRaw_fwd m off len nch r LNone ps pb A BSET FR (proj1 PR) PB) as (r' & E & PL & SR & RT & FS & LP & RM & _ & _ & _ & PO).
  exists r'. split; [exact E|]. intros l OK. set (p0 := start_frame ps pb) in *.
  assert (P0 : 0 <= p0) by (unfold p0, start_frame; destruct ps; [lia|lia|apply (PB eq_refl)]).
  destruct BSET as (_ & _ & _ & _ & _ & B6 & B7).
  assert (I0 : tape_inv 0 len nch (p0 * D) (r_rate r) r') by (apply tape_start; auto; rewrite RM; auto).
  destruct (tape_array m off len nch B X A XB l (p0 * D) (p0 * D) (r_rate r) r' I0 SR RX) as (F & r2 & S); auto; try nia.
  exists F, r2. rewrite <- units_whole in S. exact S.
Qed.
End Q.
