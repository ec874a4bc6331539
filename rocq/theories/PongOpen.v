(* Ping-pong loops played from files: from opening the file to the delivered frames. *)

From Coq Require Import ZArith Lia List Bool Reals Lra.
From RecordUpdate Require Import RecordUpdate.
From Flocq Require Import Core.Core IEEE754.BinarySingleNaN.
From Verif Require Import Machine Floats FloatFacts WavModel InterpModel CacheModel ReaderModel
  ReaderFacts ReaderSpec Sessions StreamFacts Walk CacheFacts CacheSpec CacheProofs WavSpec WavPlayProofs FileSpec WindowProofs
  FileProofs PlayProofs FilePlay FileForward LoopSpec LoopFileSpec LoopProofs LoopWindow LoopFile LoopOpen
  PongSpec PongWindow PongFile PongPath.
Import ListNotations.
Local Open Scope Z_scope.

(* ---- opening ------------------------------------------------------------- *)

Lemma preload_prev : forall todo n fwd f i t x f', preload_loop todo n fwd f i t = Ok (x, f') -> i_prev f' = i_prev f.
Proof.
  induction todo as [|todo IH]; intros n fwd f i t x f' H; cbn [preload_loop] in H.
  - apply Ok_inj in H. apply pair_equal_spec in H. destruct H as [_ <-]. reflexivity.
  - set (f1 := if Nat.leb (length (i_bufs f)) n then f <| i_bufs := i_bufs f ++ [mkBuf 0 0 StConstructed (i_garbage f n)] |> else f) in *.
    assert (P1 : i_prev f1 = i_prev f) by (unfold f1; destruct (Nat.leb _ _); reflexivity). clearbody f1.
    destruct (nth_error (i_bufs f1) n) as [b|]; [|discriminate].
    destruct (loadBuffer f1 b i) as [[b' p] m].
    destruct (m <? BS (i_cfg f)).
    + apply Ok_inj in H. apply pair_equal_spec in H. destruct H as [_ <-]. exact P1.
    + destruct (chk32 _) as [i'| |]; cbn [bind] in H; try discriminate. apply IH in H. cbn in H. congruence.
Qed.

Lemma first_pwin : forall c fl g i n g' S X, cfg_ok c -> fsize fl <= 2 ^ 31 -> 0 <= i -> i < 2 ^ 30 ->
  i_cfg g = c -> i_file g = fl -> i_loop g = LPingpong -> i_lsb g = S -> i_lfb g = X -> i_fails g = 0 -> i_bufs g = [] ->
  preLoadBuffers g i true = Ok (n, g') ->
  2 * ((blk c i + Z.of_nat (c_nbuf c) - 1) * BS c) < fsize fl ->
  pwin c fl S X (blk c i) 1 g' /\ marks None g' /\ i_prev g' = i_prev g.
Proof.
  intros c fl g i n g' S X C FS I0 I1 G1 G2 G3 GS GE G4 G5 P FULL.
  assert (PV : i_prev g' = i_prev g) by (unfold preLoadBuffers in P; eapply preload_prev; eauto).
  set (g0 := g <| i_loop := LNone |>).
  assert (EG : g = relooped LPingpong S X g0).
  { unfold relooped, g0. destruct g. cbn in *. subst. reflexivity. }
  unfold preLoadBuffers in P. rewrite EG, preload_reloop in P.
  change (i_cfg (relooped LPingpong S X g0)) with (i_cfg g0) in P.
  destruct (preload_loop (c_nbuf (i_cfg g0)) 0 true g0 i 0) as [[x g1]| |] eqn:P0; try discriminate.
  apply Ok_inj in P. apply pair_equal_spec in P. destruct P as [_ EG'].
  destruct (first_win c fl g0 i x g1 C FS I0 I1) as (m & W & WO & MK); auto.
  assert (MM : m = c_nbuf c).
  { destruct WO as (ML & J0 & J1 & [CV|CV]); [auto|]. pose proof (BS_pos _ C) as HB.
    destruct (Nat.eq_dec m (c_nbuf c)); [auto|exfalso].
    assert (blk c i + Z.of_nat m <= blk c i + Z.of_nat (c_nbuf c) - 1) by lia. nia. }
  subst m. split; [|split; [|exact PV]]; rewrite <- EG'; [|exact MK].
  destruct W as [W1 W2 W3 W4 W5 W6 W7]. constructor; auto.
  intros t b N. destruct (W7 t b N) as [A1 A2]. split; [lia|auto].
Qed.

Lemma copy_loop_prev : forall r g, r_src r = SFile g -> exists g', r_src (copy_loop r) = SFile g' /\ i_prev g' = i_prev g.
Proof.
  intros r g H. unfold copy_loop.
  destruct (setLoopType_proj r (r_loop r) _ H) as (S2 & _). cbv zeta in *.
  set (r2 := setLoopType r (r_loop r)) in *. clearbody r2.
  destruct (setLoopStart_proj r2 (r_ls r2) _ S2) as (S3 & _). cbv zeta in *.
  set (r3 := setLoopStart r2 (r_ls r2)) in *. clearbody r3.
  destruct (setLoopFinish_proj r3 (r_lf r3) _ S3) as (S4 & _). cbv zeta in *.
  eexists. split; [exact S4|]. reflexivity.
Qed.

Lemma pong_open : forall r fl fsam nch h len p garbage ps pb ls lf, cfg_ok (r_cfg r) ->
  basic_settings r LPingpong ps pb -> r_ls r = ls -> r_lf r = lf ->
  r_nch r = Z.of_nat nch -> r_hdr r = h -> r_fsize r = fsize fl ->
  r_fsamples r = fsam -> 0 <= fsam -> len = fsam / Z.of_nat nch -> file_holds fl h len nch ->
  0 <= ls < lf -> lf <= len ->
  let p0 := loop_start ps ls pb in 0 <= p0 < lf ->
  fin64 (r_rate r) = true -> (0 <= R64 (r_rate r))%R ->
  let c := r_cfg r in
  let b0 := blk c (h + p0 * Z.of_nat nch) in
  let lsb := blk c (h + ls * Z.of_nat nch) in
  let lfb := blk c (h + lf * Z.of_nat nch) in
  2 * ((b0 + Z.of_nat (c_nbuf c) - 1) * BS c) < fsize fl ->
  exists r', play_open r fl p garbage = Ok (true, r') /\
    plain h nch r' /\ r_rate r' = r_rate r /\ r_loop r' = LPingpong /\ r_rem r' = r_rem r /\ r_pstart r' = ps /\
    r_pos1 r' = h + p0 * Z.of_nat nch /\ r_ls r' = ls /\ r_lf r' = lf /\
    pwindowed c fl lsb lfb b0 1 None false f0 r'.
Proof.
  intros r fl fsam nch h len p garbage ps pb ls lf C BSET EL EF NC HH FZ FQ FQ0 LEN (FT & FE & FL) HL HF p0 HP F P c b0 lsb lfb FULL.
  pose proof FT as (H1 & H2 & H3 & H4 & H5). destruct BSET as (B1 & B2 & B3 & B4 & B5 & B6 & B7).
  unfold play_open. rewrite HH, FZ.
  rewrite (u32_id (fsize fl)), (u32_id (h * 2)) by (unfold in_u32; lia).
  destruct (Z.leb_spec (fsize fl) (h * 2)) as [L|L]; [lia|].
  unfold sdiv32. rewrite NC, FQ. destruct (Z.eqb_spec (Z.of_nat nch) 0); [lia|].
  rewrite Z.quot_div_nonneg by lia. rewrite <- LEN. rewrite chk32_ok by (unfold in_s32; nia). cbn [bind].
  destruct (open_src_proj r len fl p garbage) as (S1 & _).
  assert (O1 : core (open_src r len fl p garbage) = core r) by (unfold open_src; destruct (r_loop r); reflexivity).
  assert (O3 : r_ls (open_src r len fl p garbage) = ls /\ r_lf (open_src r len fl p garbage) = lf).
  { unfold open_src. rewrite B3. split; assumption. }
  cbv zeta in S1. set (r1 := open_src r len fl p garbage) in *. clearbody r1. destruct O3 as [O3 O4].
  destruct (copy_loop_core r1) as (Q1 & Q2 & Q3 & Q4).
  destruct (copy_loop_prev r1 _ S1) as (g2 & S2' & G8).
  destruct (copy_loop_src2 r1 _ S1) as (g & S2 & G5 & G1 & G2 & G4 & G3 & G6 & G7). cbn in G5, G1, G2, G4, G6, G7.
  assert (g2 = g) by congruence. subst g2. cbn in G8.
  set (r2 := copy_loop r1) in *. clearbody r2. unfold core in *.
  assert (LB : in_s32 ls /\ in_s32 lf) by (unfold in_s32; split; nia). destruct LB as [LB1 LB2].
  rewrite O3 in Q2, G6. rewrite O4 in Q3, G7. rewrite s32_id in Q2, G6 by auto. rewrite s32_id in Q3, G7 by auto.
  assert (LL : r_loop r1 = LPingpong) by congruence.
  assert (RR : r_rate r2 = r_rate r) by congruence.
  assert (SPG : forall rr n, r_hdr rr = h -> r_nch rr = Z.of_nat nch -> in_s32 (h + n * Z.of_nat nch) -> spos rr n = h + n * Z.of_nat nch).
  { intros rr n0 Y1 Y2 Hn. unfold spos, sts. rewrite Y1, Y2, s32_u32. apply s32_id. exact Hn. }
  assert (IN : forall n, 0 <= n <= len -> 0 <= h + n * Z.of_nat nch < 2 ^ 30) by (intros; nia).
  rewrite SPG in G6 by (try congruence; pose proof (IN ls ltac:(lia)); unfold in_s32; lia).
  rewrite SPG in G7 by (try congruence; pose proof (IN lf ltac:(lia)); unfold in_s32; lia).
  fold c in G1, G6, G7. fold lsb in G6. fold lfb in G7.
  set (q := h + p0 * Z.of_nat nch) in *.
  assert (QB : 0 <= q < 2 ^ 30) by (apply IN; lia).
  destruct (reset_forward r2 q) as (r3 & RE & X2); [rewrite RR; apply (dge0_true _ F P)| |].
  { replace (r_pstart r2) with ps by congruence. unfold q, p0, loop_start in *. rewrite Q2.
    replace (r_pbstart r2) with pb by congruence.
    destruct ps; rewrite SPG by (try congruence; unfold in_s32; lia); reflexivity. }
  destruct (reset_core _ _ RE) as (X3 & X1 & X4 & X5 & X6 & X7). unfold core in X3.
  destruct (preLoadBuffers_total g q true) as [[t g'] E]; [rewrite G1; exact C|exact G5|lia|].
  exists (started r3 g g').
  split.
  { apply (start_file_eq r2 r3 g t g' RE); [congruence|]. rewrite X2.
    replace (r_rate r3) with (r_rate r) by congruence. rewrite (dge0_true _ F P). exact E. }
  destruct (started_proj r3 g g') as (Y3 & Y1 & Y4 & Y5 & Y6 & Y7 & Y2 & Y8).
  set (r4 := started r3 g g') in *. clearbody r4. unfold core in Y3.
  split; [constructor; congruence|]. repeat (split; [congruence|]).
  destruct (first_pwin c fl g q t g' lsb lfb C) as (W & MK & PV); auto; try lia; [congruence|].
  exists g'. split; [auto|]. split; [auto|]. split; [|split; [auto|split; [|congruence]]].
  - split; [left; reflexivity|]. pose proof (BS_pos _ C) as HB. pose proof (blk_mod c q C) as BM. pose proof (mod_BS c q C) as MB.
    pose proof (blk_nonneg c q C ltac:(lia)) as BN. fold b0 in BM, BN.
    assert (NB : (1 <= c_nbuf c <= 64)%nat) by apply C. intros t0 T0. split; [lia|]. fold c in HB.
    assert ((1 * Z.of_nat t0 + 1) * BS c <= 64 * 8192) by nia. nia.
  - unfold last_read. destruct (nth_error _ _) as [b|] eqn:N; [|reflexivity]. now rewrite (MK _ _ N).
Qed.

(* ---- the invariants ------------------------------------------------------- *)

Section T.
Variables (S X M D : Z) (B : nat) (lo hi : nat -> Z) (bk : nat -> bool) (T L : nat -> Prop).
Hypothesis ZZ : zigzag S X lo hi bk T L.
Hypothesis CL : close D B lo hi.
Hypothesis DM : D <= M - 2.
Hypothesis SX : S + M - 1 <= X.

Definition following (k : nat) (e d : Z) : Prop :=
  d = 1 /\ rising S X M B lo hi bk T e k \/
  d = -1 /\ rising (- X) (- S) M B (fun j => - hi j) (fun j => - lo j) (fun j => negb (bk j)) L (- e) k.

Lemma follow_pres : forall k e d j, following k e d -> (k <= j < k + B)%nat ->
  forall b, lo j <= b <= hi j -> 0 <= d * (b - e) < M.
Proof.
  intros k e d j [[-> H]|[-> H]] J b HB.
  - pose proof (rising_pres S X M D B lo hi bk T L ZZ CL DM e k j H J). lia.
  - pose proof (rising_pres _ _ M D B _ _ _ _ _ (mirror _ _ _ _ _ _ _ ZZ) (close_mirror _ _ _ _ CL) DM (- e) k j H J). cbn beta in *. lia.
Qed.

Lemma follow_next : forall k e d n u lr, following k e d -> (n <= B)%nat ->
  (forall j, (k <= j < k + n)%nat -> u <= d * (lo j - e) /\ u <= d * (hi j - e)) ->
  (exists j, (k <= j < k + n)%nat /\ lo j <= e + d * u <= hi j) ->
  (lr = true -> exists j, (k <= j < k + n)%nat /\ lo j <= e + d * (M - 1) <= hi j) ->
  (forall j, (k <= j < k + n)%nat -> lo j = e + d * (M - 1) \/ hi j = e + d * (M - 1) -> lr = true) ->
  let left := if 0 <? d then X - (e + M - 1) else e - M + 1 - S in
  0 <= left /\
  (if (left =? 0) && (0 <? u) && lr then following (k + n) (e + d * (M - 1)) (- d)
   else following (k + n) (e + d * Z.min u left) d).
Proof.
  intros k e d n u lr F NB MN (j0 & J0 & U0) LR RL left. pose proof F as [[-> H]|[-> H]]; cbn [Z.ltb Z.compare] in left.
  - pose proof (zz_range _ _ _ _ _ _ _ ZZ) as R. split; [destruct H; unfold left; lia|].
    destruct ((left =? 0) && (0 <? u) && lr) eqn:E.
    + apply andb_prop in E. destruct E as [E ->]. apply andb_prop in E. destruct E as [E E2].
      destruct (LR eq_refl) as (i & I1 & I2). right. split; [reflexivity|].
      replace (- (e + 1 * (M - 1))) with (- X) by (unfold left in E; lia).
      apply (rising_turn S X M D B lo hi bk T L ZZ CL DM SX k n i NB I1). pose proof (R i). unfold left in E. lia.
    + left. split; [reflexivity|].
      replace (e + 1 * Z.min u left) with (Z.min (e + u) (X - M + 1)) by (unfold left; lia).
      apply (rising_next S X M D B lo hi bk T L ZZ CL DM SX e k n (e + u) H NB).
      * intros j J. pose proof (R j). pose proof (MN j J). lia.
      * exists j0. split; [auto|]. pose proof (R j0). pose proof (MN j0 J0). lia.
      * intros E1 E2 j J. pose proof (R j). destruct (Z.eq_dec (hi j) X) as [Y|]; [|lia]. exfalso.
        assert (LT : lr = true) by (apply (RL j J); lia). subst lr.
        assert (EL : left = 0) by (unfold left; lia). rewrite EL in E. assert (U : (0 <? u) = true) by lia. rewrite U in E. discriminate.
  - pose proof (mirror _ _ _ _ _ _ _ ZZ) as ZM. pose proof (close_mirror _ _ _ _ CL) as CM.
    pose proof (zz_range _ _ _ _ _ _ _ ZM) as R. cbn beta in R. split; [destruct H; unfold left; lia|].
    destruct ((left =? 0) && (0 <? u) && lr) eqn:E.
    + apply andb_prop in E. destruct E as [E ->]. apply andb_prop in E. destruct E as [E E2].
      destruct (LR eq_refl) as (i & I1 & I2). left. split; [reflexivity|].
      replace (e + -1 * (M - 1)) with S by (unfold left in E; lia).
      assert (Y : - lo i = - S) by (pose proof (R i); unfold left in E; lia).
      destruct (rising_turn _ _ M D B _ _ _ _ _ ZM CM DM ltac:(lia) k n i NB I1 Y) as (Q1 & Q2 & Q3 & Q4).
      cbn beta in *. rewrite negb_involutive in Q2. split; [lia|].
      split; [destruct Q2 as [Q2|[Q2|Q2]]; [auto|right; left; lia|auto]|]. split; [lia|].
      destruct Q4 as [Q4|Q4]; [left; lia|right]. intros j J. specialize (Q4 j J). lia.
    + right. split; [reflexivity|].
      replace (- (e + -1 * Z.min u left)) with (Z.min (- e + u) (- S - M + 1)) by (unfold left; lia).
      apply (rising_next _ _ M D B _ _ _ _ _ ZM CM DM ltac:(lia) (- e) k n (- e + u) H NB).
      * intros j J. pose proof (R j). pose proof (MN j J). lia.
      * exists j0. split; [auto|]. pose proof (R j0). pose proof (MN j0 J0). lia.
      * intros E1 E2 j J. pose proof (R j). destruct (Z.eq_dec (lo j) S) as [Y|]; [|lia]. exfalso.
        assert (LT : lr = true) by (apply (RL j J); lia). subst lr.
        assert (EL : left = 0) by (unfold left; lia). rewrite EL in E. assert (U : (0 <? u) = true) by lia. rewrite U in E. discriminate.
Qed.
End T.

(* The remembered direction is the order of the buffers *)
Definition signed (d : Z) (p : b32) : Prop := fin32 p = true /\ (0 < IZR d * R32 p)%R.

Lemma signed_rate : forall f x d, i_loop f = LPingpong -> fin32 x = true -> direction d -> signed d (i_prev f) ->
  fle f0 (reload_rate f x) = (0 <? d).
Proof.
  intros f x d E FX HD [FP P]. unfold reload_rate. rewrite E. cbn [loop_eqb andb].
  rewrite (fle_R f0 x), (fle_R f0 (i_prev f)), (flt_R x f0), (flt_R (i_prev f) f0) by (auto; reflexivity). change (R32 f0) with 0%R.
  destruct HD as [-> | ->].
  - assert (0 < R32 (i_prev f))%R by lra. rewrite (Rlt_bool_false (R32 (i_prev f)) 0) by lra. rewrite andb_false_r. cbn [orb].
    rewrite (Rle_bool_true 0 (R32 (i_prev f))) by lra. rewrite andb_true_r.
    destruct (Rlt_bool_spec (R32 x) 0).
    + rewrite fle_R by (auto; reflexivity). apply Rle_bool_true. change (R32 f0) with 0%R. lra.
    + rewrite fle_R by (auto; reflexivity). apply Rle_bool_true. change (R32 f0) with 0%R. lra.
  - assert (R32 (i_prev f) < 0)%R by lra. rewrite (Rlt_bool_true (R32 (i_prev f)) 0) by lra. rewrite andb_true_r.
    rewrite (Rle_bool_false 0 (R32 (i_prev f))) by lra. rewrite andb_false_r, orb_false_r.
    destruct (Rle_bool_spec 0 (R32 x)).
    + rewrite fle_R by (auto; reflexivity). apply Rle_bool_false. change (R32 f0) with 0%R. lra.
    + rewrite fle_R by (auto; reflexivity). apply Rle_bool_false. change (R32 f0) with 0%R. lra.
Qed.

Lemma signed_neg : forall d p, signed d p -> signed (- d) (fneg p).
Proof.
  intros d p [F P]. unfold signed, fneg. rewrite is_finite_Bopp, B2R_Bopp. split; [auto|]. rewrite opp_IZR. lra.
Qed.

Lemma signed_set : forall d p, signed d p -> feq f0 p = false.
Proof.
  intros d p [F P]. unfold feq. rewrite Beqb_correct by (auto; reflexivity). change (B2R f0) with 0%R.
  apply Raux.Req_bool_false. intros E. rewrite <- E in P. lra.
Qed.

(* A rate as a single *)
Lemma single_pos : forall x num q, fin64 x = true -> R64 x = (IZR num * bpow radix2 (- q))%R -> 0 <= q <= 52 -> 0 < num ->
  (R64 x <= IZR (2 ^ 30))%R -> signed 1 (f_of_d x) /\ fin32 (f_of_d (dneg x)) = true.
Proof.
  intros x num q F V Hq Hn U.
  assert (P : (bpow radix2 (-52) <= R64 x)%R).
  { rewrite V. apply Rle_trans with (1 * bpow radix2 (- q))%R; [rewrite Rmult_1_l; apply bpow_le; lia|].
    apply Rmult_le_compat_r; [apply bpow_ge_0|apply (IZR_le 1); lia]. }
  pose proof (bpow_gt_0 radix2 (-52)) as P0.
  assert (A : (Rabs (R64 x) <= bpow radix2 120)%R).
  { rewrite Rabs_pos_eq by lra. eapply Rle_trans; [exact U|]. rewrite <- bpow_IZR by lia. apply bpow_le. lia. }
  destruct (f_of_d_ok x F A) as [W1 W2]. split.
  - split; [auto|]. rewrite W1, Rmult_1_l. eapply Rlt_le_trans; [exact P0|].
    apply round_ge_generic; try typeclasses eauto; [|auto]. apply generic_format_bpow. vm_compute. discriminate.
  - apply f_of_d_ok; unfold dneg; rewrite ?is_finite_Bopp, ?B2R_Bopp, ?Rabs_Ropp; auto.
Qed.

Lemma orbit_pong : forall a a' lo lf top num den h k, orbit (mkLoop true a lo lf top) num den h k = orbit (mkLoop true a' lo lf top) num den h k.
Proof.
  intros a a' lo lf top num den h k.
  induction k as [|k IH]; cbn [orbit]; [|rewrite IH]; reflexivity.
Qed.

Lemma nat_pos : forall u, (0 <? u)%nat = (0 <? Z.of_nat u).
Proof. intros [|u]; [reflexivity|]. symmetry. apply Z.ltb_lt. lia. Qed.

Lemma unread_stops : forall f x, marks None f -> (1 <= length (i_bufs f))%nat -> reload_loop 1 f x = Ok f.
Proof.
  intros f x MK L. cbn [reload_loop]. unfold reload_step. destruct (i_bufs f) as [|b rest] eqn:E; [cbn in L; lia|].
  rewrite (MK O b) by now rewrite E. reflexivity.
Qed.

Lemma fresh_rate : forall f x, i_loop f = LPingpong -> i_prev f = f0 -> signed 1 x -> fle f0 (reload_rate f x) = true.
Proof.
  intros f x E EP [FX P]. assert (X : (0 < R32 x)%R) by lra. unfold reload_rate. rewrite E, EP.
  replace (flt f0 f0) with false by reflexivity. rewrite andb_false_r. rewrite (flt_R x f0) by (auto; reflexivity).
  change (R32 f0) with 0%R. rewrite Rlt_bool_false by lra. cbn [orb andb loop_eqb]. rewrite fle_R by (auto; reflexivity).
  apply Rle_bool_true. change (R32 f0) with 0%R. lra.
Qed.

Lemma top_inside : forall c h nch lo lf M, cfg_ok c -> (1 <= nch)%nat ->
  blk c (h + lo * Z.of_nat nch) + M - 1 <= blk c (h + lf * Z.of_nat nch) -> turns_in_last_block c h lf nch -> 2 <= M ->
  lo <= lf - Z.of_nat nch.
Proof.
  intros c h nch lo lf M C N1 R T M2. destruct (Z.le_gt_cases lo (lf - Z.of_nat nch)) as [Y|Y]; [exact Y|exfalso].
  assert (blk c (h + (lf - Z.of_nat nch) * Z.of_nat nch + Z.of_nat nch - 1) <= blk c (h + lo * Z.of_nat nch)).
  { apply (blk_mono c C). nia. }
  unfold turns_in_last_block in T. lia.
Qed.

Lemma keeps_two : forall b s n m z, 0 <= b -> 0 <= s -> 1 <= n -> 0 < z -> (2 * b * s + n - 1) * n <= (m - 2) * z -> 2 <= m.
Proof.
  intros b s n m z B S N Z H. assert (0 <= b * s) by nia. assert (0 <= (2 * b * s + n - 1) * n) by nia. nia.
Qed.
Lemma le_scaled : forall x y h n, 1 <= n -> h + x * n <= h + y * n -> x <= y.
Proof. intros x y h n N H. nia. Qed.

Lemma pong_file : forall r fl fsam nch h len p garbage ps pb ls lf num q, cfg_ok (r_cfg r) ->
  basic_settings r LPingpong ps pb -> r_ls r = ls -> r_lf r = lf ->
  r_nch r = Z.of_nat nch -> r_hdr r = h -> r_fsize r = fsize fl ->
  r_fsamples r = fsam -> 0 <= fsam -> len = fsam / Z.of_nat nch -> file_holds fl h len nch ->
  0 <= ls < lf -> lf <= len ->
  let p0 := loop_start ps ls pb in let lo := loop_low ps ls in 0 <= p0 < lf ->
  fin64 (r_rate r) = true -> R64 (r_rate r) = (IZR num * bpow radix2 (- q))%R ->
  0 <= q <= 52 -> 0 < num <= 2 ^ 52 -> ((R64 (r_rate r) + 1) * INR nch <= IZR (2 ^ 30))%R ->
  let c := r_cfg r in
  let M := Z.of_nat (c_nbuf c) in
  let pos i := h + i * Z.of_nat nch in
  2 * ((blk c (pos p0) + M - 1) * BS c) < fsize fl ->
  exists r', play_open r fl p garbage = Ok (true, r') /\
    (loop_buffered c (pos p0) (pos ls) (pos lf) -> forall B, file_delivers B r' (file_pingpong fl h nch lo lf p0 num (2 ^ q))) /\
    (starts_inside c (pos p0) (pos lo) (pos lf) -> blk c (pos lo) = blk c (pos ls) -> turns_in_last_block c h lf nch ->
     forall B s, num <= s * 2 ^ q -> pingpong_keeps_up c nch B s -> file_delivers B r' (file_pingpong fl h nch lo lf p0 num (2 ^ q))).
Proof.
  intros r fl fsam nch h len p garbage ps pb ls lf num q C BSET EL EF NC HH FZ FQ FQ0 LEN FH HL HF p0 lo HP F V Hq Hn U c M pos FULL.
  pose proof FH as (FT & FE & FX). pose proof FT as (A1 & A2 & A3 & A4 & A5).
  assert (P : (0 < R64 (r_rate r))%R).
  { rewrite V. apply Rmult_lt_0_compat; [apply (IZR_lt 0); lia|apply bpow_gt_0]. }
  pose proof (BS_pos _ C) as HB. fold c in HB.
  assert (MN : 1 <= M <= 64) by (unfold M; destruct C as [_ C]; fold c in C; lia).
  assert (BIN : forall n, 0 <= n <= len -> 0 <= blk c (pos n) /\ blk c (pos n) * BS c < 2 ^ 30).
  { intros n Hn0. unfold pos. assert (0 <= h + n * Z.of_nat nch < 2 ^ 30) by nia.
    pose proof (blk_mod c (h + n * Z.of_nat nch) C). pose proof (mod_BS c (h + n * Z.of_nat nch) C).
    pose proof (blk_nonneg c (h + n * Z.of_nat nch) C ltac:(lia)). lia. }
  pose proof (BIN ls ltac:(lia)) as BLS. pose proof (BIN lf ltac:(lia)) as BLF. pose proof (BIN p0 ltac:(lia)) as BP.
  set (b0 := blk c (pos p0)) in *. set (lsb := blk c (pos ls)) in *. set (lfb := blk c (pos lf)) in *.
  assert (LFB : (lfb + 1) * BS c < 2 ^ 31) by lia.
  destruct (pong_open r fl fsam nch h len p garbage ps pb ls lf C BSET EL EF NC HH FZ FQ FQ0 LEN FH HL HF HP F ltac:(lra) FULL)
    as (r' & E & PL & RT & LP & RM & PS & PO & RLS & RLF & W).
  exists r'. split; [exact E|]. fold p0 in PO, W. fold c in W. fold (pos p0) (pos ls) (pos lf) in W. fold b0 lsb lfb in W.
  set (L := loop_of LPingpong ps ls lf nch).
  assert (LK : loop_ok L len nch) by (apply loop_of_ok; auto).
  assert (HK : head_ok L len (mkHead p0 0 false)) by (unfold head_ok; cbn; lia).
  assert (HD : 0 < 2 ^ q) by (apply Z.pow_pos_nonneg; lia).
  pose proof (loop_walk h nch L (r_rate r) num q (mkHead p0 0 false) len FT LK HK F V Hq Hn U HD) as WK.
  set (I := fun k => loop_inv h nch L (r_rate r) q (pre L num (2 ^ q) (mkHead p0 0 false) k)) in *.
  set (orb := fun k => orbit L num (2 ^ q) (mkHead p0 0 false) k).
  set (ix := fun k => hd_i (orb k)).
  assert (I0 : I O r').
  { unfold I. cbn [pre]. destruct BSET as (_ & _ & _ & _ & _ & B6 & B7). constructor; auto.
    - change (lp_lo L) with (match ps with PSample => 0 | _ => ls end). rewrite PS, RLS. reflexivity.
    - now rewrite RM.
    - rewrite RM. change (R64 (r_rem r) = (IZR 0 * bpow radix2 (- q))%R). rewrite B7. ring. }
  assert (FS2 : fsize fl <= 2 ^ 31) by lia.
  assert (XU : (R64 (r_rate r) <= IZR (2 ^ 30))%R).
  { assert (1 <= INR nch)%R by (change 1%R with (INR 1); now apply le_INR). nra. }
  destruct (single_pos (r_rate r) num q F V Hq ltac:(lia) XU) as [SP SN].
  assert (RX : forall k rr, I k rr -> fin32 (f_of_d (r_rate rr)) = true /\
     (hd_back (pre L num (2 ^ q) (mkHead p0 0 false) k) = false -> r_rate rr = r_rate r)).
  { intros k rr HI. rewrite (li_rate _ _ _ _ _ _ _ HI). destruct (hd_back _); split; auto; [discriminate|apply SP]. }
  assert (LOW : 0 <= lo < lf) by (unfold lo, loop_low; destruct ps; lia).
  assert (RG : forall k, Z.min p0 lo <= ix k < lf).
  { intros k. exact (proj1 (orb_range ls lo lf num (2 ^ q) num p0 nch LOW ltac:(lia) HD ltac:(lia) ltac:(nia) A4 k)). }
  assert (INF : forall k, frame_file fl nch (h + ix k * Z.of_nat nch)).
  { intros k. pose proof (RG k). unfold frame_file. nia. }
  assert (OUT : forall B, (forall ns, Forall (fun n => (n <= B)%nat) ns ->
      exists F0 r2, serviced F0 r' ns = Ok (blocks_spec (loop_out fl h nch ix) 0 ns, r2) /\ misses r2 = 0) ->
      file_delivers B r' (file_pingpong fl h nch lo lf p0 num (2 ^ q))).
  { intros B HO ns FN. destruct (HO ns FN) as (F0 & r2 & S2 & M2). exists F0, r2. split.
    - rewrite S2. do 2 f_equal. apply blocks_ext. intros k. unfold loop_out, file_pingpong, endless_stream, ix, orb.
      do 3 f_equal. unfold L, loop_of. cbn [loop_eqb]. apply orbit_pong.
    - rewrite M2. destruct W as (f & SF & W & _). unfold misses. rewrite SF. symmetry. apply W. }
  assert (BM : forall x y, x <= y -> blk c x <= blk c y) by (intros; now apply (blk_mono c C)).
  split.
  - intros [R1 R2] B. fold b0 lsb lfb M in R1, R2. apply OUT. intros ns FN.
    destruct (pong_session c fl h nch lsb lfb C FS2 I ix WK INF (fun n => (n <= B)%nat)
        (fun _ e d _ => d = 1 /\ e = b0 \/ d = -1 /\ e = b0 + M - 1))
      with (ns := ns) (k := O) (e := b0) (d := 1) (pv := f0) (r := r') as (F0 & r2 & S2 & M2); auto.
    + intros k e d pv n GK _ b (k' & ch & K & CH & ->).
      assert (B1 : b0 <= blk c (h + ix k' * Z.of_nat nch + Z.of_nat ch)).
      { destruct (Z.le_gt_cases p0 (ix k')).
        - apply BM. unfold pos. nia.
        - eapply Z.le_trans; [exact R1|]. apply BM. pose proof (RG k'). unfold pos.
          assert (ls <= ix k'); [|nia]. unfold lo, p0, loop_low, loop_start in *. destruct ps; lia. }
      assert (B2 : blk c (h + ix k' * Z.of_nat nch + Z.of_nat ch) <= lfb).
      { apply BM. pose proof (RG k'). unfold pos. nia. }
      set (b := blk c (h + ix k' * Z.of_nat nch + Z.of_nat ch)) in *. exists (Z.to_nat (d * (b - e))). unfold place.
      unfold M in *. destruct GK as [[-> ->]|[-> ->]]; lia.
    + intros k e d pv n o lr rr f GK _ HI WW WO MK _ _ _.
      destruct (pwin_loop_all c fl lsb lfb (reload_rate f (f_of_d (r_rate rr))) d o e f C ltac:(lia) LFB WW WO MK)
        as (F0 & f1 & e' & d' & E1 & W1 & WO1 & NX).
      { fold M. destruct GK as [[-> ->]|[-> ->]]; cbn [Z.ltb Z.compare]; lia. }
      destruct (pwin_trigger c fl lsb lfb e' d' f f1 F0 _ E1 W1) as (f2 & E2 & W2 & MK2 & LR2 & _).
      exists F0, f2, e', d'. repeat (split; [assumption|]). fold M in NX.
      destruct NX as [[-> ->]|[-> ->]]; [exact GK|]. destruct GK as [[-> ->]|[-> ->]]; lia.
    + eauto.
  - intros [R1 R2] SL TL B s HS KU. fold b0 lfb M in R2. apply OUT. intros ns FN.
    fold lsb in SL.
    assert (LT : lo <= lf - Z.of_nat nch).
    { apply (top_inside c h nch lo lf M); auto.
      - pose proof (BM (pos lo) (pos p0) R1). fold b0 in H. fold (pos lo) (pos lf). fold lfb. lia.
      - apply (keeps_two (Z.of_nat B) s (Z.of_nat nch) M (BS c)); [lia|nia|lia|lia|exact KU]. }
    assert (PLO : lo <= p0).
    { apply (le_scaled lo p0 h (Z.of_nat nch)); [lia|exact R1]. }
    pose proof (orb_zigzag ls lo lf num (2 ^ q) s p0 nch c h C LOW ltac:(lia) HD ltac:(lia) HS A4 LT TL) as ZZ.
    pose proof (orb_close ls lo lf num (2 ^ q) s p0 nch c h C LOW ltac:(lia) HD ltac:(lia) HS A4 B M KU) as CL.
    cbv beta zeta in ZZ, CL. change (h + lo * Z.of_nat nch) with (pos lo) in ZZ. change (h + lf * Z.of_nat nch) with (pos lf) in ZZ.
    rewrite SL in ZZ. fold lfb in ZZ.
    change (mkLoop true ls lo lf (lf - Z.of_nat nch)) with L in ZZ, CL.
    set (fst := fun k : nat => blk c (h + hd_i (orbit L num (2 ^ q) (mkHead p0 0 false) k) * Z.of_nat nch)) in ZZ, CL.
    set (lst := fun k : nat => blk c (h + hd_i (orbit L num (2 ^ q) (mkHead p0 0 false) k) * Z.of_nat nch + Z.of_nat nch - 1)) in ZZ, CL.
    match type of ZZ with zigzag _ _ _ _ ?b ?t ?l => set (bk := b) in ZZ; set (T := t) in ZZ; set (LL := l) in ZZ end.
    assert (O0 : orbit L num (2 ^ q) (mkHead p0 0 false) O = mkHead p0 0 false).
    { apply (orb_0 ls lo lf num (2 ^ q) p0 nch); lia. }
    assert (F00 : fst O = b0).
    { unfold fst. rewrite O0. reflexivity. }
    assert (SX : lsb + M - 1 <= lfb).
    { rewrite <- SL. pose proof (BM (pos lo) (pos p0) R1). fold b0 in H. lia. }
    assert (LOHI : forall k ch, (ch < nch)%nat -> fst k <= blk c (h + ix k * Z.of_nat nch + Z.of_nat ch) <= lst k).
    { intros k ch CH. unfold fst, lst. split; apply BM; unfold ix, orb; lia. }
    set (G := fun k e d pv => following lsb lfb M B fst lst bk T LL k e d /\
        ((k = O /\ d = 1 /\ e = b0 /\ pv = f0) \/ signed d pv)).
    destruct (pong_session c fl h nch lsb lfb C FS2 I ix WK INF (fun n => (n <= B)%nat) G)
      with (ns := ns) (k := O) (e := b0) (d := 1) (pv := f0) (r := r') as (F0 & r2 & S2 & M2); auto.
    + intros k e d pv n [GK _] NB b (k' & ch & K & CH & ->).
      pose proof (LOHI k' ch CH) as BB.
      pose proof (follow_pres lsb lfb M (M - 2) B fst lst bk T LL ZZ CL ltac:(lia) k e d k' GK ltac:(lia) _ BB) as FP.
      set (b := blk c (h + ix k' * Z.of_nat nch + Z.of_nat ch)) in *. exists (Z.to_nat (d * (b - e))). unfold place.
      unfold M in *. assert (DD : direction d) by (unfold following, direction in *; tauto). destruct DD as [-> | ->]; lia.
    + intros k e d pv n o lr rr f [GK SG] NB HI WW WO MK LR PV FO.
      destruct (RX _ _ HI) as [FXX RB]. pose proof (proj1 WO) as DD.
      assert (FRESH : k = O /\ d = 1 /\ e = b0 /\ pv = f0 -> f_of_d (r_rate rr) = f_of_d (r_rate r) /\ lr = false).
      { intros (-> & -> & -> & ->). split.
        - f_equal. apply RB. destruct n as [|m]; [reflexivity|]. cbn [Nat.add pre]. change (bk m = false).
          destruct (stays_up lsb lfb fst lst bk T LL O m ZZ) as [(i & I1 & I2)|Y]; [|exfalso|exact Y].
          + unfold bk. rewrite O0. reflexivity.
          + apply (zz_top _ _ _ _ _ _ _ ZZ) in I2. destruct (CL O i ltac:(lia)) as [Y _]. rewrite F00 in Y. lia.
        - destruct lr; [exfalso|reflexivity]. destruct (proj1 (proj1 FO) eq_refl) as (k' & ch & K & CH & EB).
          pose proof (LOHI k' ch CH) as BB. rewrite <- EB in BB. destruct (CL O k' ltac:(lia)) as [Y _]. rewrite F00 in Y. fold M in BB. lia. }
      assert (DIR : fle f0 (reload_rate f (f_of_d (r_rate rr))) = (0 <? d)).
      { destruct SG as [SG|SG]; [|apply signed_rate; auto; [apply WW|now rewrite PV]].
        destruct (FRESH SG) as [-> _]. destruct SG as (_ & -> & _ & ->). apply fresh_rate; auto; apply WW. }
      assert (SGN : forall f1, i_prev f1 = i_prev f -> signed d (if feq f0 (i_prev f1) then f_of_d (r_rate rr) else i_prev f1)).
      { intros f1 E1. rewrite E1, PV. destruct SG as [SG|SG]; [|rewrite (signed_set _ _ SG); exact SG].
        destruct (FRESH SG) as [-> _]. destruct SG as (_ & -> & _ & ->). exact SP. }
      destruct o as [u|].
      * destruct FO as (FL & UL & FM & FU).
        destruct (follow_next lsb lfb M (M - 2) B fst lst bk T LL ZZ CL ltac:(lia) SX k e d n (Z.of_nat u) lr GK NB) as [LV FN2].
        { intros j J. assert (ON : forall ch b, (ch < nch)%nat -> b = blk c (h + ix j * Z.of_nat nch + Z.of_nat ch) -> Z.of_nat u <= d * (b - e)).
          { intros ch b CH EB. pose proof (LOHI j ch CH) as BB. rewrite <- EB in BB.
            pose proof (follow_pres lsb lfb M (M - 2) B fst lst bk T LL ZZ CL ltac:(lia) k e d j GK ltac:(lia) _ BB) as FP.
            pose proof (FM b (Z.to_nat (d * (b - e)))) as Q. lapply Q; [|exists j, ch; auto]. clear Q. intros Q. lapply Q; [lia|].
            unfold place. unfold M in FP. destruct DD as [-> | ->]; lia. }
          split; [apply (ON O); [lia|unfold fst, ix, orb; f_equal; lia]|apply (ON (nch - 1)%nat); [lia|unfold lst, ix, orb; f_equal; lia]]. }
        { destruct FU as (k' & ch & K & CH & EB). exists k'. split; [auto|]. rewrite EB. auto. }
        { intros LT'. destruct (proj1 FL LT') as (k' & ch & K & CH & EB). exists k'. split; [auto|]. fold M in EB. rewrite EB. auto. }
        { intros j J Q. apply FL. fold M. destruct Q as [<- | <-]; [exists j, O|exists j, (nch - 1)%nat]; (split; [auto|split; [lia|]]);
            unfold fst, lst, ix, orb; f_equal; lia. }
        destruct (pwin_loop c fl lsb lfb (reload_rate f (f_of_d (r_rate rr))) d C FS2 ltac:(lia) LFB DIR u e f WW WO MK UL LV) as (F0 & f1 & E1 & Q1).
        fold M in Q1. change (left_over c lsb lfb e d) with (if 0 <? d then lfb - (e + M - 1) else e - M + 1 - lsb) in Q1.
        rewrite nat_pos, LR in Q1.
        match type of FN2 with if ?t then _ else _ => destruct t eqn:TT end.
        { destruct Q1 as (W1 & WO1 & P1). destruct (pwin_trigger c fl lsb lfb _ _ f f1 F0 _ E1 W1) as (f2 & E2 & W2 & MK2 & LR2 & P2).
          exists F0, f2, (e + d * (M - 1)), (- d). repeat (split; [assumption|]). rewrite P2.
          destruct SG as [SG|SG].
          { exfalso. destruct (FRESH SG) as [_ ->]. rewrite andb_false_r in TT. discriminate. }
          assert (SS : signed (- d) (i_prev f1)) by (rewrite P1, PV; now apply signed_neg).
          rewrite (signed_set _ _ SS). auto. }
        { destruct Q1 as (W1 & WO1 & P1). destruct (pwin_trigger c fl lsb lfb _ _ f f1 F0 _ E1 W1) as (f2 & E2 & W2 & MK2 & LR2 & P2).
          eexists F0, f2, _, d. repeat (split; [eassumption|]). rewrite P2. right. apply SGN, P1. }
      * assert (n = O).
        { destruct n as [|n]; [reflexivity|exfalso]. apply (proj2 FO (blk c (h + ix k * Z.of_nat nch + Z.of_nat 0))).
          exists k, O. repeat split; lia. }
        subst n. rewrite Nat.add_0_r.
        assert (E1 : reload_loop 1 f (reload_rate f (f_of_d (r_rate rr))) = Ok f).
        { apply unread_stops; [exact MK|]. rewrite (pw_len _ _ _ _ _ _ _ WW). unfold M in MN. lia. }
        destruct (pwin_trigger c fl lsb lfb e d f f 1%nat _ E1 WW) as (f2 & E2 & W2 & MK2 & LR2 & P2).
        exists 1%nat, f2, e, d. repeat (split; [assumption|]). rewrite P2. right. apply SGN. reflexivity.
    + split; [|left; auto]. left. split; [reflexivity|]. rewrite <- F00. split; [|split; [|split; [lia|]]].
      * rewrite F00. pose proof (zz_range _ _ _ _ _ _ _ ZZ O) as Y. rewrite F00 in Y. lia.
      * left. unfold bk. rewrite O0. reflexivity.
      * right. intros j J. destruct (CL O j ltac:(lia)). lia.
    + eauto.
Qed.

(* ---- from the public entry points ----------------------------------------- *)

Lemma raw_pong : forall r fl nch stack garbage ps pb ls lf num q, cfg_ok (r_cfg r) -> r_kind r <> KArray ->
  basic_settings r LPingpong ps pb -> r_ls r = ls -> r_lf r = lf -> r_hdr r = 0 -> (1 <= nch)%nat -> Z.of_nat nch < 2 ^ 15 ->
  0 < fsize fl < 2 ^ 31 -> 0 <= ls < lf -> lf <= fsize fl / 2 / Z.of_nat nch ->
  let p0 := loop_start ps ls pb in let lo := loop_low ps ls in 0 <= p0 < lf ->
  fin64 (r_rate r) = true -> R64 (r_rate r) = (IZR num * bpow radix2 (- q))%R ->
  0 <= q <= 52 -> 0 < num <= 2 ^ 52 -> ((R64 (r_rate r) + 1) * INR nch <= IZR (2 ^ 30))%R ->
  let pos i := 0 + i * Z.of_nat nch in
  buffers_fill (r_cfg r) fl (pos p0) ->
  exists r', r_play_file r (Some fl) false (Z.of_nat nch) stack garbage = Ok (true, r') /\
    (loop_buffered (r_cfg r) (pos p0) (pos ls) (pos lf) ->
     forall B, file_delivers B r' (file_pingpong fl 0 nch lo lf p0 num (2 ^ q))) /\
    (starts_inside (r_cfg r) (pos p0) (pos lo) (pos lf) -> blk (r_cfg r) (pos lo) = blk (r_cfg r) (pos ls) ->
     turns_in_last_block (r_cfg r) 0 lf nch ->
     forall B s, num <= s * 2 ^ q -> pingpong_keeps_up (r_cfg r) nch B s ->
       file_delivers B r' (file_pingpong fl 0 nch lo lf p0 num (2 ^ q))).
Proof.
  intros r fl nch stack garbage ps pb ls lf num q C K BSET EL EF HH N1 NB S HL HF p0 lo HP F V Hq Hn U pos BF.
  destruct (play_raw_open r fl (Z.of_nat nch) stack garbage K ltac:(lia) ltac:(lia)) as (r1 & E & CC & NC & HC & SC & FC & RC & SS).
  rewrite E. rewrite <- RC in F, V, U. rewrite <- CC in C, BF |- *.
  set (len := fsize fl / 2 / Z.of_nat nch) in *.
  assert (LN : 0 <= len) by (unfold len; apply Z.div_pos; [apply Z.div_pos|]; lia).
  assert (L2 : 2 * (len * Z.of_nat nch) <= fsize fl).
  { unfold len. pose proof (Z.mul_div_le (fsize fl) 2 ltac:(lia)).
    pose proof (Z.mul_div_le (fsize fl / 2) (Z.of_nat nch) ltac:(lia)). lia. }
  destruct (pong_file r1 fl (fsize fl / 2) nch 0 len 0 garbage ps pb ls lf num q) as (r' & E' & D1 & D2); auto; try congruence.
  - now apply (settings_same r).
  - apply Z.div_pos; lia.
  - unfold file_holds, fits. repeat split; auto; lia.
  - exists r'. split; [exact E'|]. split; [exact D1|exact D2].
Qed.

Lemma wav_pong : forall r fl nch tags n nraw stack garbage ps pb ls lf num q, cfg_ok (r_cfg r) -> r_kind r <> KArray ->
  basic_settings r LPingpong ps pb -> r_ls r = ls -> r_lf r = lf -> bytes_ok stack -> wav_file fl nch tags n -> Z.of_nat nch < 2 ^ 15 ->
  0 <= ls < lf -> lf <= n / 2 / Z.of_nat nch ->
  let p0 := loop_start ps ls pb in let lo := loop_low ps ls in 0 <= p0 < lf ->
  fin64 (r_rate r) = true -> R64 (r_rate r) = (IZR num * bpow radix2 (- q))%R ->
  0 <= q <= 52 -> 0 < num <= 2 ^ 52 -> ((R64 (r_rate r) + 1) * INR nch <= IZR (2 ^ 30))%R ->
  let h := (44 + tags) / 2 in
  let pos i := h + i * Z.of_nat nch in
  buffers_fill (r_cfg r) fl (pos p0) ->
  exists r', r_play_file r (Some fl) true nraw stack garbage = Ok (true, r') /\
    (loop_buffered (r_cfg r) (pos p0) (pos ls) (pos lf) ->
     forall B, file_delivers B r' (file_pingpong fl h nch lo lf p0 num (2 ^ q))) /\
    (starts_inside (r_cfg r) (pos p0) (pos lo) (pos lf) -> blk (r_cfg r) (pos lo) = blk (r_cfg r) (pos ls) ->
     turns_in_last_block (r_cfg r) h lf nch ->
     forall B s, num <= s * 2 ^ q -> pingpong_keeps_up (r_cfg r) nch B s ->
       file_delivers B r' (file_pingpong fl h nch lo lf p0 num (2 ^ q))).
Proof.
  intros r fl nch tags n nraw stack garbage ps pb ls lf num q C K BSET EL EF BST WF NB HL HF p0 lo HP F V Hq Hn U h pos BF.
  destruct (play_wav_open r fl nch tags n nraw stack garbage K BST WF NB) as (r1 & E & CC & NC & HC & SC & FC & RC & SS).
  destruct (wav_file_plays fl nch tags n WF) as (_ & _ & _ & E2 & N0).
  destruct WF as (_ & _ & _ & _ & N1 & _ & _ & T0 & SZ & SL).
  rewrite E. rewrite <- RC in F, V, U. rewrite <- CC in C, BF |- *.
  set (len := n / 2 / Z.of_nat nch) in *.
  assert (LN : 0 <= len) by (unfold len; apply Z.div_pos; [apply Z.div_pos|]; lia).
  assert (L2 : 2 * (len * Z.of_nat nch) <= n).
  { unfold len. pose proof (Z.mul_div_le n 2 ltac:(lia)).
    pose proof (Z.mul_div_le (n / 2) (Z.of_nat nch) ltac:(lia)). lia. }
  destruct (pong_file r1 fl (n / 2) nch h len (44 + tags) garbage ps pb ls lf num q) as (r' & E' & D1 & D2); auto; try congruence.
  - now apply (settings_same r).
  - apply Z.div_pos; lia.
  - unfold file_holds, fits. unfold h. repeat split; auto; lia.
  - exists r'. split; [exact E'|]. split; [exact D1|exact D2].
Qed.

(* At rate 1.0 the frames are those of the closed form *)
Lemma file_pingpong_unity : forall fl h nch lo lf p0 k, (1 <= nch)%nat -> 0 <= lo < lf -> 0 <= p0 < lf ->
  file_pingpong fl h nch lo lf p0 1 1 k = Some (file_frame fl h nch (triangle_frame lo lf (lf - Z.of_nat nch) p0 k)).
Proof.
  intros fl h nch lo lf p0 k N1 HL HP. unfold file_pingpong, endless_stream.
  rewrite orbit_triangle by lia. reflexivity.
Qed.
