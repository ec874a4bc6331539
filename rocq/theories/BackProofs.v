(* C100: reverse playback from arrays and files while the rate changes. *)

From Coq Require Import ZArith Lia List Bool Reals Lra.
From RecordUpdate Require Import RecordUpdate.
From Flocq Require Import Core.Core IEEE754.BinarySingleNaN.
From Verif Require Import Machine Floats FloatFacts WavModel InterpModel CacheModel ReaderModel
  ReaderFacts ReaderSpec Sessions StreamFacts Walk ForwardProofs PlayProofs CacheFacts CacheSpec CacheProofs WavSpec WavProofs WavPlayProofs
  FileSpec WindowProofs FileProofs FilePlay FileForward TapeSpec TapeProofs LoopWindow PongWindow BackWindow BackFile BackSpec.
Import ListNotations.
Local Open Scope Z_scope.

Lemma back_single_sign : forall q X x, 0 <= q <= 52 -> back_ok q X x -> (X <= IZR (2 ^ 30))%R -> fle f0 (f_of_d x) = false.
Proof.
  intros q X x Q (F & U & num & NM & E) XB.
  assert (UP : (R64 x <= - bpow radix2 (- q))%R).
  { rewrite E. pose proof (bpow_gt_0 radix2 (- q)). assert (1 <= IZR num)%R by (apply (IZR_le 1); lia). nra. }
  pose proof (bpow_gt_0 radix2 (- q)) as BP.
  destruct (f_of_d_ok x F) as [V W].
  { rewrite Rabs_left by lra. eapply Rle_trans with (IZR (2 ^ 30)); [lra|]. rewrite <- bpow_IZR by lia. apply bpow_le. lia. }
  rewrite fle_R by (auto; reflexivity). apply Rle_bool_false. rewrite V. change (R32 f0) with 0%R.
  apply Rle_lt_trans with (- bpow radix2 (- q))%R; [|lra].
  apply round_le_generic; try typeclasses eauto; [|auto]. apply generic_format_opp, generic_format_bpow.
  rewrite fexp32_FLT. unfold FLT_exp. lia.
Qed.

Section Q.
Variable q : Z.
Hypothesis Q : 0 <= q <= 52.
Let D := 2 ^ q.
Let HD : 0 < D.
Proof. apply Z.pow_pos_nonneg; lia. Qed.
Let HB : bpow radix2 (- q) = (/ IZR D)%R.
Proof. rewrite bpow_opp, bpow_IZR by lia. reflexivity. Qed.

(* V units of 2^-q below frame 0 *)
Record back_inv (h : Z) (nch : nat) (V : Z) (x : b64) (r : reader) : Prop := mkBack {
  bk_plain : plain h nch r;
  bk_rate : r_rate r = x;
  bk_ls : r_ls r = 0;
  bk_loop : r_loop r = LNone;
  bk_remf : fin64 (r_rem r) = true;
  bk_rem : R64 (r_rem r) = (- (IZR (V mod D) * bpow radix2 (- q)))%R;
  bk_pos : r_pos1 r = h - V / D * Z.of_nat nch }.

Definition back_idx (V num : Z) (k : nat) : option Z :=
  let i := - ((V + Z.of_nat k * num) / D) in if i <? 0 then None else Some i.

Lemma back_at_end : forall h nch V x r, (1 <= nch)%nat -> in_s32 h -> fin64 x = true -> (R64 x < 0)%R ->
  back_inv h nch V x r -> at_end r = (- (V / D) <? 0).
Proof.
  intros h nch V x r N HH F P [PL RT LN LP RF RM PS].
  unfold at_end. rewrite (pl_dual _ _ _ PL), RT, (dge0_false x F P), (dlt0_true x F P).
  rewrite LN, (spos_plain h nch r 0 PL) by (rewrite Z.mul_0_l, Z.add_0_r; auto).
  rewrite (pl_hdr _ _ _ PL), Z.mul_0_l, Z.add_0_r.
  replace (match r_pstart r with PSample => (r_pos1 r <? h)%Z | _ => (r_pos1 r <? h)%Z end)
    with (r_pos1 r <? h)%Z by (destruct (r_pstart r); reflexivity).
  rewrite PS.
  destruct (Z.ltb_spec (- (V / D)) 0); destruct (Z.ltb_spec (h - V / D * Z.of_nat nch) h); auto; nia.
Qed.

Lemma back_walk : forall h len nch V x num, fits h len nch -> fin64 x = true ->
  R64 x = (- (IZR num * bpow radix2 (- q)))%R -> 0 < num <= 2 ^ 52 -> ((- R64 x + 1) * INR nch <= IZR (2 ^ 30))%R -> - (V / D) < len ->
  walk h nch (fun k => back_inv h nch (V + Z.of_nat k * num) x) (back_idx V num).
Proof.
  intros h len nch V x num A F X NM B VL. pose proof A as (H1 & H2 & H4 & H5 & H6).
  assert (P : (R64 x < 0)%R).
  { rewrite X. pose proof (bpow_gt_0 radix2 (- q)). assert (1 <= IZR num)%R by (apply (IZR_le 1); lia). nra. }
  assert (IH : in_s32 h) by (unfold in_s32; nia).
  split; [auto|]. split; [intros k r s []; constructor; auto using plain_src|]. intros k r I.
  pose proof (back_at_end _ _ _ _ _ H5 IH F P I) as E. pose proof I as [PL RT LN LP RF RM PS].
  split; [auto|]. unfold back_idx. set (U := V + Z.of_nat k * num) in *.
  assert (VU : V / D <= U / D) by (apply Z.div_le_mono; unfold U; nia).
  pose proof (Z.mod_pos_bound U D HD) as MB. pose proof (Z.div_mod U D ltac:(lia)) as DM.
  assert (D52 : D <= 2 ^ 52) by (apply Z.pow_le_mono_r; lia).
  destruct (Z.ltb_spec (- (U / D)) 0) as [L|L].
  - split; [auto|]. split; [auto|]. constructor; auto. destruct PL; constructor; auto.
  - assert (SX : (R64 (r_rem r) + R64 x = - (IZR (U mod D + num) * bpow radix2 (- q)))%R) by (rewrite RM, X, plus_IZR; ring).
    assert (SS : step_sum r = (- (IZR (U mod D + num) * bpow radix2 (- q)))%R).
    { unfold step_sum. rewrite RT, SX. apply rnd64_id. apply generic_format_opp. apply fmt64_me; lia. }
    assert (SP : (0 <= IZR (U mod D + num) * bpow radix2 (- q))%R) by (apply Rmult_le_pos; [apply (IZR_le 0); lia|apply bpow_ge_0]).
    assert (TR : Ztrunc (step_sum r) = - ((U mod D + num) / D)).
    { rewrite SS, Ztrunc_opp. f_equal. rewrite Ztrunc_floor by auto. apply (floor_units q Q). }
    assert (NX : (U + num) / D = U / D + (U mod D + num) / D).
    { replace (U + num) with (U mod D + num + U / D * D) by lia. rewrite Z.div_add by lia. lia. }
    assert (NM2 : (U + num) mod D = U mod D + num - (U mod D + num) / D * D).
    { rewrite Z.mod_eq by lia. rewrite NX. lia. }
    assert (D0 : 0 <= (U mod D + num) / D) by (apply Z.div_pos; lia).
    assert (N1 : (1 <= INR nch)%R) by (change 1%R with (INR 1); apply le_INR; lia).
    assert (RB : (-1 < R64 (r_rem r) <= 0)%R).
    { rewrite RM, HB.
      assert (0 <= IZR (U mod D) * / IZR D)%R by (apply Rmult_le_pos; [apply (IZR_le 0); lia|left; apply Rinv_0_lt_compat, (IZR_lt 0); lia]).
      assert (IZR (U mod D) * / IZR D < 1)%R; [|lra].
      apply Rmult_lt_reg_r with (IZR D); [apply (IZR_lt 0); lia|].
      rewrite Rmult_assoc, Rinv_l, Rmult_1_r, Rmult_1_l by (apply IZR_neq; lia). apply IZR_lt. lia. }
    assert (D1 : (U mod D + num) / D * Z.of_nat nch <= 2 ^ 30).
    { apply le_IZR. rewrite mult_IZR, <- INR_IZR_INZ.
      assert (IZR ((U mod D + num) / D) <= - R64 x + 1)%R.
      { unfold D. rewrite <- (floor_units q Q). pose proof (Zfloor_lb (IZR (U mod D + num) * bpow radix2 (- q))).
        fold D. lra. }
      nra. }
    assert (X30 : (- R64 x <= bpow radix2 40)%R).
    { rewrite bpow_IZR by lia. apply Rle_trans with (IZR (2 ^ 30)); [nra|]. apply IZR_le. lia. }
    destruct (advance_plain r) as (y & Y1 & Y2 & Y3 & AD).
    + auto.
    + now rewrite RT.
    + apply Rabs_le. lra.
    + rewrite RT. rewrite Rabs_left; auto.
    + apply PL.
    + rewrite TR in *. unfold in_s32. nia.
    + rewrite (pl_nch _ _ _ PL). rewrite TR in *. unfold in_s32. nia.
    + rewrite PS, (pl_nch _ _ _ PL). rewrite TR in *. unfold in_s32. nia.
    + exists 0%nat, r. eexists. split; [now constructor|]. split; [auto|].
      split; [rewrite PS; ring|]. split; [exact AD|].
      replace (V + Z.of_nat (S k) * num) with (U + num) by (unfold U; lia).
      constructor; auto.
      * now apply advance_keeps_plain.
      * change (R64 y = (- (IZR ((U + num) mod D) * bpow radix2 (- q)))%R).
        rewrite Y2, TR, SS, NM2, minus_IZR, mult_IZR, opp_IZR, HB. field. apply IZR_neq. lia.
      * change (r_pos1 r + Ztrunc (step_sum r) * r_nch r = h - (U + num) / D * Z.of_nat nch).
        rewrite PS, TR, (pl_nch _ _ _ PL), NX. ring.
Qed.

(* setPlaybackRate to a negative rate, above the first frame *)
Lemma back_speed : forall h nch V x y r, (1 <= nch)%nat -> V < 0 -> back_inv h nch V x r -> fin64 y = true -> (R64 y < 0)%R ->
  setPlaybackRate r y = Ok (r <| r_rate := y |>) /\ back_inv h nch V y (r <| r_rate := y |>).
Proof.
  intros h nch V x y r N1 V0 [PL RT LS LP RF RM PS] F P. split.
  - unfold setPlaybackRate. cbv zeta. change (r_dual (r <| r_rate := y |>)) with (r_dual r). rewrite (pl_dual _ _ _ PL). cbn [negb].
    rewrite (dlt0_true y F P). change (r_pos1 (r <| r_rate := y |>)) with (r_pos1 r). change (r_hdr (r <| r_rate := y |>)) with (r_hdr r).
    rewrite PS, (pl_hdr _ _ _ PL). assert (V / D < 0) by (apply Z.div_lt_upper_bound; lia).
    destruct (Z.leb_spec (h - V / D * Z.of_nat nch) h); [nia|reflexivity].
  - constructor; auto. destruct PL; constructor; auto.
Qed.

(* The spec in units *)
Lemma rspot_units : forall fr V num k, rspot fr (- (IZR V * bpow radix2 (- q))) (- (IZR num * bpow radix2 (- q))) k =
  option_map fr (back_idx V num k).
Proof.
  intros fr V num k. unfold rspot, back_idx. cbv zeta.
  replace (- (IZR V * bpow radix2 (- q)) + INR k * - (IZR num * bpow radix2 (- q)))%R with (- (IZR (V + Z.of_nat k * num) * bpow radix2 (- q)))%R
    by (rewrite plus_IZR, mult_IZR, <- INR_IZR_INZ; ring).
  unfold Zceil. rewrite Ropp_involutive, (floor_units q Q). fold D. destruct (_ <? _); reflexivity.
Qed.

Lemma back_num : forall X x, back_ok q X x -> fin64 x = true /\ (- X <= R64 x < 0)%R /\
  exists num, 0 < num <= 2 ^ 52 /\ R64 x = (- (IZR num * bpow radix2 (- q)))%R /\ (IZR num <= X * IZR D)%R.
Proof.
  intros X x (F & U & num & NM & E). split; [auto|].
  assert (0 < IZR num * bpow radix2 (- q))%R by (apply Rmult_lt_0_compat; [apply (IZR_lt 0); lia|apply bpow_gt_0]).
  split; [lra|].
  exists num. split; [auto|]. split; [auto|]. rewrite E, HB in U.
  apply Rmult_le_reg_r with (/ IZR D)%R; [apply Rinv_0_lt_compat, (IZR_lt 0); lia|].
  rewrite (Rmult_assoc X), Rinv_r, Rmult_1_r by (apply IZR_neq; lia). lra.
Qed.

Section F.
Variables (c : ccfg) (fl : file) (h len : Z) (nch B : nat) (X : R).
Hypothesis C : cfg_ok c.
Hypothesis FH : file_holds fl h len nch.
Hypothesis XB : ((X + 1) * INR nch <= IZR (2 ^ 30))%R.
Hypothesis KU : ((INR (2 * B) * X + 2) * INR nch <= IZR ((Z.of_nat (c_nbuf c) - 1) * BS c))%R.
(* the highest block of the frame at U *)
Let at_ U := blk c (h - U / D * Z.of_nat nch + Z.of_nat nch - 1).

Lemma back_upd_ok : forall V Vp num n, - (Vp / D) < len -> Vp <= V -> (IZR (V - Vp) <= INR B * (X * IZR D))%R -> (n <= B)%nat ->
  0 < num -> (IZR num <= X * IZR D)%R -> back_upd c fl h nch (back_idx V num) (at_ Vp) 0 n.
Proof.
  intros V Vp num n VP VM SP NB N0 NU k i K E. unfold back_idx in E.
  set (U := V + Z.of_nat k * num) in *. destruct (Z.ltb_spec (- (U / D)) 0) as [|L]; [discriminate|]. apply Some_inj in E. subst i.
  assert (TU : V <= U) by (unfold U; nia).
  assert (TQ : Vp / D <= V / D) by (apply Z.div_le_mono; lia).
  assert (UQ : V / D <= U / D) by (apply Z.div_le_mono; lia).
  destruct FH as ((H1 & H2 & H3 & H4 & H5) & FE & FL).
  split; [unfold frame_file; nia|]. split.
  - enough (at_ Vp < blk c (h + - (U / D) * Z.of_nat nch) + (Z.of_nat (c_nbuf c) - 1) + 1) by lia. unfold at_.
    apply blk_span; [auto|].
    enough ((U / D - Vp / D + 1) * Z.of_nat nch <= (Z.of_nat (c_nbuf c) - 1) * BS c) by nia.
    apply le_IZR. eapply Rle_trans; [|exact KU]. rewrite mult_IZR, <- INR_IZR_INZ.
    apply Rmult_le_compat_r; [apply pos_INR|]. apply (unit_span q Q); [lia|]. fold D.
    replace (U - Vp) with (V - Vp + Z.of_nat k * num) by (unfold U; ring).
    rewrite plus_IZR, mult_IZR, <- INR_IZR_INZ. rewrite mult_INR. change (INR 2) with 2%R.
    assert (INR k * IZR num <= INR B * (X * IZR D))%R.
    { apply Rmult_le_compat; auto; [apply pos_INR|apply (IZR_le 0); lia|apply le_INR; lia]. }
    lra.
  - intros i0 E. unfold back_idx in E. cbn [Z.of_nat] in E. rewrite Z.mul_0_l, Z.add_0_r in E.
    destruct (_ <? _); [discriminate|]. apply Some_inj in E. subst i0. unfold at_.
    split; apply blk_mono; auto; nia.
Qed.

Lemma back_session : forall l V Vm Vp x r, back_inv h nch Vm x r -> back_ok q X x ->
  rwindowed c fl (at_ Vp) None r -> - (Vp / D) < len -> Vp <= Vm -> (IZR (Vm - Vp) <= INR B * (X * IZR D))%R ->
  (Vm = V \/ 0 < Vm / D /\ 0 < V / D) -> Forall (rtape_ok q X B) l -> above (- (IZR V * bpow radix2 (- q))) (R64 x) l ->
  exists F r', spun F r l = Ok (rtape (file_frame fl h nch) (- (IZR V * bpow radix2 (- q))) (R64 x) l, r') /\ misses r' = 0.
Proof.
  pose proof FH as ((H1 & H2 & H3 & H4 & H5) & FE & FL).
  assert (FS : fsize fl <= 2 ^ 31) by lia.
  assert (N1 : (1 <= INR nch)%R) by (change 1%R with (INR 1); now apply le_INR).
  induction l as [|[y|n] l IH]; intros V Vm Vp x r HI RX W VP VM SP TT OK AB.
  - exists O, r. split; [reflexivity|]. eapply rwindowed_misses; eauto.
  - inversion OK as [|? ? O1 O2]; subst. cbn [rtape_ok] in O1. destruct (back_num X y O1) as (FY & [_ PY] & _).
    cbn [above] in AB. destruct AB as [AV AB].
    assert (V0 : V < 0).
    { apply lt_IZR. pose proof (bpow_gt_0 radix2 (- q)). nra. }
    assert (VV : Vm = V) by (destruct TT as [|[_ TT]]; [auto|]; assert (V / D < 0) by (apply Z.div_lt_upper_bound; lia); lia).
    destruct (back_speed h nch Vm x y r H4 ltac:(lia) HI FY PY) as [E HI2].
    destruct (IH V Vm Vp y _ HI2 O1) as (F & r' & S & M); auto.
    exists F, r'. cbn [spun rtape]. rewrite E. cbn [bind]. auto.
  - inversion OK as [|? ? O1 O2]; subst. cbn [rtape_ok] in O1. cbn [above] in AB.
    destruct (back_num X x RX) as (FX & PX & num & NM & EX & NU).
    assert (XB1 : ((- R64 x + 1) * INR nch <= IZR (2 ^ 30))%R) by nra.
    assert (X30 : (X <= IZR (2 ^ 30))%R) by nra.
    set (I := fun k : nat => back_inv h nch (Vm + Z.of_nat k * num) x).
    set (idx := back_idx Vm num).
    assert (VML : - (Vm / D) < len) by (assert (Vp / D <= Vm / D) by (apply Z.div_le_mono; lia); lia).
    pose proof (back_walk h len nch Vm x num (proj1 FH) FX EX NM XB1 VML) as WK. fold I idx in WK.
    assert (BWD : forall k r, I k r -> fle f0 (f_of_d (r_rate r)) = false).
    { intros k r0 HI0. rewrite (bk_rate _ _ _ _ _ HI0). now apply (back_single_sign q X). }
    assert (I0 : I O r) by (unfold I; cbn [Z.of_nat]; rewrite Z.mul_0_l, Z.add_0_r; exact HI).
    pose proof (back_upd_ok Vm Vp num n VP VM SP O1 (proj1 NM) NU) as UP. fold idx in UP.
    destruct (back_update c fl h nch C FS I idx WK n (at_ Vp) O r I0 W UP) as (F & r1 & o & E & HI1 & W1 & NW).
    set (out := fun k => option_map (file_frame fl h nch) (idx k)) in *.
    destruct (back_reload c fl h nch C FS I idx WK BWD _ o _ r1 HI1 W1) as (F1 & r2 & E1 & HI2 & W2).
    rewrite <- NW in W2. cbn [Nat.add] in HI2. unfold I in HI2.
    set (L := length (pulls out 0 n)) in *.
    assert (LN : (L <= n)%nat) by apply pulls_length.
    assert (EB : pulls out 0 n = pulls (rspot (file_frame fl h nch) (- (IZR V * bpow radix2 (- q))) (R64 x)) 0 n).
    { rewrite EX. destruct TT as [->|[T1 T2]].
      - apply pulls_ext. intro k. symmetry. apply rspot_units.
      - destruct n as [|n']; [reflexivity|]. cbn [pulls]. rewrite rspot_units. unfold out, idx, back_idx. cbn [Z.of_nat].
        rewrite !Z.mul_0_l, !Z.add_0_r. destruct (Z.ltb_spec (- (Vm / D)) 0); [|lia]. destruct (Z.ltb_spec (- (V / D)) 0); [|lia]. reflexivity. }
    assert (NT : (- (IZR V * bpow radix2 (- q)) + INR n * R64 x = - (IZR (V + Z.of_nat n * num) * bpow radix2 (- q)))%R)
      by (rewrite EX, plus_IZR, mult_IZR, <- INR_IZR_INZ; ring).
    assert (NX : exists Vp', next_back c h nch idx (at_ Vp) 0 n = at_ Vp' /\ - (Vp' / D) < len /\ Vp' <= Vm + Z.of_nat L * num /\
      (IZR (Vm + Z.of_nat L * num - Vp') <= INR B * (X * IZR D))%R).
    { unfold next_back. destruct n as [|n']; [exists Vp; cbn; rewrite Z.add_0_r; auto|].
      destruct (idx O) as [i|] eqn:EI.
      - exists Vm. unfold idx, back_idx in EI. cbn [Z.of_nat] in EI. rewrite Z.mul_0_l, Z.add_0_r in EI.
        destruct (_ <? _); [discriminate|]. apply Some_inj in EI. subst i.
        split; [unfold at_; f_equal; ring|]. split; [lia|]. split; [nia|].
        replace (Vm + Z.of_nat L * num - Vm) with (Z.of_nat L * num) by ring. rewrite mult_IZR, <- INR_IZR_INZ.
        apply Rmult_le_compat; auto; [apply pos_INR|apply (IZR_le 0); lia|apply le_INR; lia].
      - exists Vp. assert (L = O) as -> by (unfold L, out; cbn [pulls]; rewrite EI; reflexivity).
        cbn [Z.of_nat]. rewrite Z.mul_0_l, Z.add_0_r. auto. }
    destruct NX as (Vp' & NX & Q0 & Q1 & Q2). rewrite NX in W2.
    assert (TT2 : Vm + Z.of_nat L * num = V + Z.of_nat n * num \/
                  0 < (Vm + Z.of_nat L * num) / D /\ 0 < (V + Z.of_nat n * num) / D).
    { destruct TT as [->|[T1 T2]].
      - destruct (pulls_ends q Q out n O) as [LE|LE]; fold L in LE; [left; lia|right]. cbn [Nat.add] in LE.
        unfold out, idx, back_idx in LE. destruct (Z.ltb_spec (- ((V + Z.of_nat L * num) / D)) 0); [|discriminate].
        split; [lia|]. apply Z.lt_le_trans with ((V + Z.of_nat L * num) / D); [lia|]. apply Z.div_le_mono; [lia|].
        apply Z.add_le_mono_l, Z.mul_le_mono_nonneg_r; lia.
      - right. assert (0 <= Z.of_nat L * num) by (apply Z.mul_nonneg_nonneg; lia).
        assert (0 <= Z.of_nat n * num) by (apply Z.mul_nonneg_nonneg; lia).
        split; [apply Z.lt_le_trans with (Vm / D)|apply Z.lt_le_trans with (V / D)]; auto; apply Z.div_le_mono; lia. }
    rewrite NT in AB.
    destruct (IH (V + Z.of_nat n * num) _ Vp' x r2 HI2 RX W2 Q0 Q1 Q2 TT2 O2 AB) as (F2 & r3 & S & M).
    exists (F + (F1 + F2))%nat, r3. split; [|auto]. cbn [spun rtape].
    assert (R : r_read (F + (F1 + F2)) r (Z.of_nat n) = Ok (pulls out 0 n, r1)).
    { pose proof (bk_plain _ _ _ _ _ HI) as P.
      unfold r_read. rewrite (pl_playing _ _ _ P). cbn [negb]. rewrite (pl_nch _ _ _ P).
      destruct (Z.ltb_spec (Z.of_nat nch) 0); [lia|].
      eapply read_loop_fuel; [| |exact E]; lia. }
    rewrite R. cbn [bind].
    replace (F + (F1 + F2))%nat with (F1 + (F + F2))%nat by lia. rewrite E1. cbn [bind].
    rewrite (spun_fuel l F2 (F1 + (F + F2)) r2 _ ltac:(lia) S). cbn [bind]. rewrite EB, NT. reflexivity.
Qed.
End F.

(* ---- arrays ------------------------------------------------------------- *)

Lemma back_array : forall m off len nch B X, array_holds m off len nch -> ((X + 1) * INR nch <= IZR (2 ^ 30))%R ->
  forall l V Vm x r, back_inv 0 nch Vm x r -> r_src r = SArr m off -> back_ok q X x -> - (Vm / D) < len ->
  (Vm = V \/ 0 < Vm / D /\ 0 < V / D) -> Forall (rtape_ok q X B) l -> above (- (IZR V * bpow radix2 (- q))) (R64 x) l ->
  exists F r', spun F r l = Ok (rtape (src_frame m off nch) (- (IZR V * bpow radix2 (- q))) (R64 x) l, r').
Proof.
  intros ar off len nch B X A XB.
  pose proof (array_fits _ _ _ _ A) as FT. pose proof FT as (_ & _ & _ & N1' & _).
  assert (N1 : (1 <= INR nch)%R) by (change 1%R with (INR 1); now apply le_INR).
  induction l as [|[y|n] l IH]; intros V Vm x r HI SR RX VML TT OK AB.
  - exists O, r. reflexivity.
  - inversion OK as [|? ? O1 O2]; subst. cbn [rtape_ok] in O1. destruct (back_num X y O1) as (FY & [_ PY] & _).
    cbn [above] in AB. destruct AB as [AV AB].
    assert (V0 : V < 0).
    { apply lt_IZR. pose proof (bpow_gt_0 radix2 (- q)). nra. }
    assert (VV : Vm = V) by (destruct TT as [|[_ TT]]; [auto|]; assert (V / D < 0) by (apply Z.div_lt_upper_bound; lia); lia).
    destruct (back_speed 0 nch Vm x y r N1' ltac:(lia) HI FY PY) as [E HI2].
    destruct (IH V Vm y _ HI2 SR O1) as (F & r' & S); auto.
    exists F, r'. cbn [spun rtape]. rewrite E. cbn [bind]. auto.
  - inversion OK as [|? ? O1 O2]; subst. cbn [rtape_ok] in O1. cbn [above] in AB.
    destruct (back_num X x RX) as (FX & PX & num & NM & EX & NU).
    assert (XB1 : ((- R64 x + 1) * INR nch <= IZR (2 ^ 30))%R) by nra.
    set (I := fun k : nat => back_inv 0 nch (Vm + Z.of_nat k * num) x).
    set (idx := back_idx Vm num).
    pose proof (back_walk 0 len nch Vm x num FT FX EX NM XB1 VML) as WK. fold I idx in WK.
    assert (FO : follows (fun k r => I k r /\ r_src r = SArr ar off) (fun k => option_map (src_frame ar (off + 2 * 0) nch) (idx k))).
    { apply walk_follows; [exact WK|]. intros k i E. apply (frame_in_array ar off len); auto. unfold idx, back_idx in E.
      destruct (Z.ltb_spec (- ((Vm + Z.of_nat k * num) / D)) 0); [discriminate|]. apply Some_inj in E. subst i.
      assert (Vm / D <= (Vm + Z.of_nat k * num) / D) by (apply Z.div_le_mono; nia). lia. }
    assert (I0 : I O r) by (unfold I; cbn [Z.of_nat]; rewrite Z.mul_0_l, Z.add_0_r; exact HI).
    destruct (follows_loop _ _ FO n O r (conj I0 SR)) as (F & r1 & E & HI1 & SR1).
    set (out := fun k => option_map (src_frame ar (off + 2 * 0) nch) (idx k)) in *.
    cbn [Nat.add] in HI1. unfold I in HI1. set (L := length (pulls out 0 n)) in *.
    assert (LN : (L <= n)%nat) by apply pulls_length.
    assert (EB : pulls out 0 n = pulls (rspot (src_frame ar off nch) (- (IZR V * bpow radix2 (- q))) (R64 x)) 0 n).
    { rewrite EX. destruct TT as [->|[T1 T2]].
      - apply pulls_ext. intro k. unfold out. rewrite Z.mul_0_r, Z.add_0_r. symmetry. apply rspot_units.
      - destruct n as [|n']; [reflexivity|]. cbn [pulls]. rewrite rspot_units. unfold out, idx, back_idx. cbn [Z.of_nat].
        rewrite !Z.mul_0_l, !Z.add_0_r. destruct (Z.ltb_spec (- (Vm / D)) 0); [|lia]. destruct (Z.ltb_spec (- (V / D)) 0); [|lia]. reflexivity. }
    assert (NT : (- (IZR V * bpow radix2 (- q)) + INR n * R64 x = - (IZR (V + Z.of_nat n * num) * bpow radix2 (- q)))%R)
      by (rewrite EX, plus_IZR, mult_IZR, <- INR_IZR_INZ; ring).
    assert (TT2 : Vm + Z.of_nat L * num = V + Z.of_nat n * num \/
                  0 < (Vm + Z.of_nat L * num) / D /\ 0 < (V + Z.of_nat n * num) / D).
    { destruct TT as [->|[T1 T2]].
      - destruct (pulls_ends q Q out n O) as [LE|LE]; fold L in LE; [left; lia|right]. cbn [Nat.add] in LE.
        unfold out, idx, back_idx in LE. destruct (Z.ltb_spec (- ((V + Z.of_nat L * num) / D)) 0); [|discriminate].
        split; [lia|]. apply Z.lt_le_trans with ((V + Z.of_nat L * num) / D); [lia|]. apply Z.div_le_mono; [lia|].
        apply Z.add_le_mono_l, Z.mul_le_mono_nonneg_r; lia.
      - right. assert (0 <= Z.of_nat L * num) by (apply Z.mul_nonneg_nonneg; lia).
        assert (0 <= Z.of_nat n * num) by (apply Z.mul_nonneg_nonneg; lia).
        split; [apply Z.lt_le_trans with (Vm / D)|apply Z.lt_le_trans with (V / D)]; auto; apply Z.div_le_mono; lia. }
    rewrite NT in AB.
    assert (VL2 : - ((Vm + Z.of_nat L * num) / D) < len).
    { assert (Vm / D <= (Vm + Z.of_nat L * num) / D) by (apply Z.div_le_mono; nia). lia. }
    destruct (IH (V + Z.of_nat n * num) (Vm + Z.of_nat L * num) x r1 HI1 SR1 RX VL2 TT2 O2 AB) as (F2 & r3 & S).
    exists (F + F2)%nat, r3. cbn [spun rtape].
    assert (R : r_read (F + F2) r (Z.of_nat n) = Ok (pulls out 0 n, r1)).
    { pose proof (bk_plain _ _ _ _ _ HI) as P.
      unfold r_read. rewrite (pl_playing _ _ _ P). cbn [negb]. rewrite (pl_nch _ _ _ P).
      destruct (Z.ltb_spec (Z.of_nat nch) 0); [lia|].
      eapply read_loop_fuel; [| |exact E]; lia. }
    rewrite R. cbn [bind]. unfold r_triggerReload. rewrite SR1. cbn [bind].
    rewrite (spun_fuel l F2 (F + F2) r1 _ ltac:(lia) S). cbn [bind]. rewrite EB, NT. reflexivity.
Qed.

Lemma back_whole : forall p, (IZR p = - (IZR (- p * D) * bpow radix2 (- q)))%R.
Proof. intro p. rewrite mult_IZR, opp_IZR, HB. field. apply IZR_neq. lia. Qed.

Lemma back_start : forall h nch p x r, plain h nch r -> r_rate r = x -> r_ls r = 0 -> r_loop r = LNone ->
  fin64 (r_rem r) = true -> R64 (r_rem r) = 0%R -> r_pos1 r = h + p * Z.of_nat nch -> back_inv h nch (- p * D) x r.
Proof.
  intros h nch p x r PL RT LN LP RF RM PS. constructor; auto.
  - rewrite Z.mod_mul by lia. rewrite RM. lra.
  - rewrite Z.div_mul by lia. rewrite PS. ring.
Qed.
End Q.
