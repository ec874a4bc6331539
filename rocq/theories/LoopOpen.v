(* Repeat loops played from files: from opening the file to the delivered frames. *)

From Coq Require Import ZArith Lia List Bool Reals Lra.
From RecordUpdate Require Import RecordUpdate.
From Flocq Require Import Core.Core IEEE754.BinarySingleNaN.
From Verif Require Import Machine Floats FloatFacts WavModel InterpModel CacheModel ReaderModel
  ReaderFacts ReaderSpec Sessions StreamFacts Walk CacheFacts CacheSpec CacheProofs WavSpec WavPlayProofs FileSpec WindowProofs
  FileProofs PlayProofs FilePlay FileForward LoopSpec LoopFileSpec LoopProofs LoopWindow LoopFile LoopPath.
Import ListNotations.
Local Open Scope Z_scope.

(* ---- opening ------------------------------------------------------------- *)

Definition relooped (l : loop_type) (s e : Z) (f : ifile) : ifile :=
  f <| i_loop := l |> <| i_lsb := s |> <| i_lfb := e |>.

Lemma preload_reloop : forall l s e todo n fwd f i t,
  preload_loop todo n fwd (relooped l s e f) i t =
  match preload_loop todo n fwd f i t with Ok (x, f') => Ok (x, relooped l s e f') | UB w => UB w | NoFuel => NoFuel end.
Proof.
  intros l s e. induction todo as [|todo IH]; intros n fwd f i t; [reflexivity|].
  cbn [preload_loop].
  change (i_bufs (relooped l s e f)) with (i_bufs f). change (i_cfg (relooped l s e f)) with (i_cfg f).
  change (i_garbage (relooped l s e f)) with (i_garbage f).
  set (f1 := if Nat.leb (length (i_bufs f)) n then f <| i_bufs := i_bufs f ++ [mkBuf 0 0 StConstructed (i_garbage f n)] |> else f).
  replace (if Nat.leb (length (i_bufs f)) n
           then relooped l s e f <| i_bufs := i_bufs f ++ [mkBuf 0 0 StConstructed (i_garbage f n)] |>
           else relooped l s e f) with (relooped l s e f1) by (unfold f1; destruct (Nat.leb _ _); reflexivity).
  clearbody f1. change (i_bufs (relooped l s e f1)) with (i_bufs f1).
  destruct (nth_error (i_bufs f1) n) as [b|]; [|reflexivity].
  change (loadBuffer (relooped l s e f1) b i) with (loadBuffer f1 b i).
  destruct (loadBuffer f1 b i) as [[b' p] m].
  destruct (m <? BS (i_cfg f)); [reflexivity|].
  destruct (chk32 _) as [i'| |]; cbn [bind]; [|reflexivity|reflexivity].
  rewrite <- IH. reflexivity.
Qed.

Lemma first_lwin : forall c fl g i n g' S E X, cfg_ok c -> fsize fl <= 2 ^ 31 -> 0 <= i -> i < 2 ^ 30 ->
  i_cfg g = c -> i_file g = fl -> i_loop g = LRepeat -> i_lsb g = S -> i_lfb g = E -> i_fails g = 0 -> i_bufs g = [] ->
  preLoadBuffers g i true = Ok (n, g') ->
  2 * ((blk c i + Z.of_nat (c_nbuf c) - 1) * BS c) < fsize fl -> blk c i + Z.of_nat (c_nbuf c) - 1 <= X ->
  lwin c fl S E X (blk c i) g' /\ marks None g'.
Proof.
  intros c fl g i n g' S E X C FS I0 I1 G1 G2 G3 GS GE G4 G5 P FULL HX.
  set (g0 := g <| i_loop := LNone |>).
  assert (EG : g = relooped LRepeat S E g0).
  { unfold relooped, g0. destruct g. cbn in *. subst. reflexivity. }
  unfold preLoadBuffers in P. rewrite EG, preload_reloop in P.
  change (i_cfg (relooped LRepeat S E g0)) with (i_cfg g0) in P.
  destruct (preload_loop (c_nbuf (i_cfg g0)) 0 true g0 i 0) as [[x g1]| |] eqn:P0; try discriminate.
  apply Ok_inj in P. apply pair_equal_spec in P. destruct P as [_ <-].
  destruct (first_win c fl g0 i x g1 C FS I0 I1) as (m & W & WO & MK); auto.
  assert (MM : m = c_nbuf c).
  { destruct WO as (ML & J0 & J1 & [CV|CV]); [auto|]. pose proof (BS_pos _ C) as HB.
    destruct (Nat.eq_dec m (c_nbuf c)); [auto|exfalso].
    assert (blk c i + Z.of_nat m <= blk c i + Z.of_nat (c_nbuf c) - 1) by lia. nia. }
  subst m. split; [|exact MK].
  destruct W as [W1 W2 W3 W4 W5 W6 W7].
  apply (lwin_of_win c fl S E X (blk c i) g1); auto. constructor; auto.
Qed.

Lemma copy_loop_src2 : forall r g, r_src r = SFile g -> exists g', r_src (copy_loop r) = SFile g' /\
  i_bufs g' = i_bufs g /\ i_cfg g' = i_cfg g /\ i_file g' = i_file g /\ i_fails g' = i_fails g /\ i_loop g' = r_loop r /\
  i_lsb g' = blk (i_cfg g) (spos r (s32 (r_ls r))) /\ i_lfb g' = blk (i_cfg g) (spos r (s32 (r_lf r))).
Proof.
  intros r g H. unfold copy_loop.
  destruct (setLoopType_proj r (r_loop r) _ H) as (S2 & _ & N2 & _ & H2 & _). cbv zeta in *.
  assert (L2 : r_ls (setLoopType r (r_loop r)) = r_ls r /\ r_lf (setLoopType r (r_loop r)) = r_lf r).
  { unfold setLoopType. match goal with |- context [match ?x with _ => _ end] => destruct x end; split; reflexivity. }
  set (r2 := setLoopType r (r_loop r)) in *. clearbody r2. destruct L2 as [L2 L2'].
  destruct (setLoopStart_proj r2 (r_ls r2) _ S2) as (S3 & _ & N3 & _ & H3 & _).
  assert (L3 : r_lf (setLoopStart r2 (r_ls r2)) = r_lf r2).
  { unfold setLoopStart. match goal with |- context [match ?x with _ => _ end] => destruct x end; reflexivity. }
  cbv zeta in *.
  set (r3 := setLoopStart r2 (r_ls r2)) in *. clearbody r3.
  destruct (setLoopFinish_proj r3 (r_lf r3) _ S3) as (S4 & _). cbv zeta in *.
  set (r4 := setLoopFinish r3 (r_lf r3)) in *. clearbody r4.
  assert (SP : forall n, spos r2 n = spos r n /\ spos r3 n = spos r n).
  { intros n. unfold spos, sts. now rewrite H3, H2, N3, N2. }
  eexists. split; [exact S4|]. cbn. rewrite L3, L2', L2. repeat split.
  - now rewrite (proj1 (SP _)).
  - now rewrite (proj2 (SP _)).
Qed.

Lemma loop_open : forall r fl fsam nch h len p garbage ps pb ls lf X, cfg_ok (r_cfg r) ->
  basic_settings r LRepeat ps pb -> r_ls r = ls -> r_lf r = lf ->
  r_nch r = Z.of_nat nch -> r_hdr r = h -> r_fsize r = fsize fl ->
  r_fsamples r = fsam -> 0 <= fsam -> len = fsam / Z.of_nat nch -> file_holds fl h len nch ->
  0 <= ls < lf -> lf <= len ->
  let p0 := loop_start ps ls pb in 0 <= p0 < lf ->
  fin64 (r_rate r) = true -> (0 <= R64 (r_rate r))%R ->
  let c := r_cfg r in
  let b0 := blk c (h + p0 * Z.of_nat nch) in
  let lsb := blk c (h + ls * Z.of_nat nch) in
  let lfb := blk c (h + lf * Z.of_nat nch) in
  2 * ((b0 + Z.of_nat (c_nbuf c) - 1) * BS c) < fsize fl ->
  b0 + Z.of_nat (c_nbuf c) - 1 <= X -> lwin_ok c lsb lfb X b0 ->
  exists r', play_open r fl p garbage = Ok (true, r') /\
    plain h nch r' /\ r_rate r' = r_rate r /\ r_loop r' = LRepeat /\ r_rem r' = r_rem r /\ r_pstart r' = ps /\
    r_pos1 r' = h + p0 * Z.of_nat nch /\ r_ls r' = ls /\ r_lf r' = lf /\
    lwindowed c fl lsb lfb X b0 None r'.
Proof.
  intros r fl fsam nch h len p garbage ps pb ls lf X C BSET EL EF NC HH FZ FQ FQ0 LEN (FT & FE & FL) HL HF p0 HP F P c b0 lsb lfb FULL HX LOK.
  pose proof FT as (H1 & H2 & H3 & H4 & H5). destruct BSET as (B1 & B2 & B3 & B4 & B5 & B6 & B7).
  unfold play_open. rewrite HH, FZ.
  rewrite (u32_id (fsize fl)), (u32_id (h * 2)) by (unfold in_u32; lia).
  destruct (Z.leb_spec (fsize fl) (h * 2)) as [L|L]; [lia|].
  unfold sdiv32. rewrite NC, FQ. destruct (Z.eqb_spec (Z.of_nat nch) 0); [lia|].
  rewrite Z.quot_div_nonneg by lia. rewrite <- LEN. rewrite chk32_ok by (unfold in_s32; nia). cbn [bind].
  destruct (open_src_proj r len fl p garbage) as (S1 & _).
  assert (O1 : core (open_src r len fl p garbage) = core r) by (unfold open_src; destruct (r_loop r); reflexivity).
  assert (O3 : r_ls (open_src r len fl p garbage) = ls /\ r_lf (open_src r len fl p garbage) = lf).
  { unfold open_src. rewrite B3. split; assumption. }
  cbv zeta in S1. set (r1 := open_src r len fl p garbage) in *. clearbody r1. destruct O3 as [O3 O4].
  destruct (copy_loop_core r1) as (Q1 & Q2 & Q3 & Q4).
  destruct (copy_loop_src2 r1 _ S1) as (g & S2 & G5 & G1 & G2 & G4 & G3 & G6 & G7). cbn in G5, G1, G2, G4, G6, G7.
  set (r2 := copy_loop r1) in *. clearbody r2. unfold core in *.
  assert (LB : in_s32 ls /\ in_s32 lf) by (unfold in_s32; split; nia). destruct LB as [LB1 LB2].
  rewrite O3 in Q2, G6. rewrite O4 in Q3, G7. rewrite s32_id in Q2, G6 by auto. rewrite s32_id in Q3, G7 by auto.
  assert (LL : r_loop r1 = LRepeat) by congruence.
  assert (RR : r_rate r2 = r_rate r) by congruence.
  assert (SPG : forall rr n, r_hdr rr = h -> r_nch rr = Z.of_nat nch -> in_s32 (h + n * Z.of_nat nch) -> spos rr n = h + n * Z.of_nat nch).
  { intros rr n0 Y1 Y2 Hn. unfold spos, sts. rewrite Y1, Y2, s32_u32. apply s32_id. exact Hn. }
  assert (IN : forall n, 0 <= n <= len -> 0 <= h + n * Z.of_nat nch < 2 ^ 30) by (intros; nia).
  rewrite SPG in G6 by (try congruence; pose proof (IN ls ltac:(lia)); unfold in_s32; lia).
  rewrite SPG in G7 by (try congruence; pose proof (IN lf ltac:(lia)); unfold in_s32; lia).
  fold c in G1, G6, G7. fold lsb in G6. fold lfb in G7.
  set (q := h + p0 * Z.of_nat nch) in *.
  assert (QB : 0 <= q < 2 ^ 30) by (apply IN; lia).
  destruct (reset_forward r2 q) as (r3 & RE & X2); [rewrite RR; apply (dge0_true _ F P)| |].
  { replace (r_pstart r2) with ps by congruence. unfold q, p0, loop_start in *. rewrite Q2.
    replace (r_pbstart r2) with pb by congruence.
    destruct ps; rewrite SPG by (try congruence; unfold in_s32; lia); reflexivity. }
  destruct (reset_core _ _ RE) as (X3 & X1 & X4 & X5 & X6 & X7). unfold core in X3.
  destruct (preLoadBuffers_total g q true) as [[t g'] E]; [rewrite G1; exact C|exact G5|lia|].
  exists (started r3 g g').
  split.
  { apply (start_file_eq r2 r3 g t g' RE); [congruence|]. rewrite X2.
    replace (r_rate r3) with (r_rate r) by congruence. rewrite (dge0_true _ F P). exact E. }
  destruct (started_proj r3 g g') as (Y3 & Y1 & Y4 & Y5 & Y6 & Y7 & Y2 & Y8).
  set (r4 := started r3 g g') in *. clearbody r4. unfold core in Y3.
  split; [constructor; congruence|]. repeat (split; [congruence|]).
  destruct (first_lwin c fl g q t g' lsb lfb X C) as [W MK]; auto; try lia; [congruence|].
  exists g'. auto.
Qed.

(* ---- the orbit of a forward repeat loop ------------------------------------- *)

Section O.
Variables (ps : play_start) (ls lf num den s p0 : Z) (nch : nat).
Hypothesis HL : 0 <= ls < lf.
Hypothesis HP : 0 <= p0 < lf.
Hypothesis HD : 0 < den.
Hypothesis HN : 0 < num.
Hypothesis HS : num <= s * den.
Let l := loop_of LRepeat ps ls lf nch.
Let orb k := orbit l num den (mkHead p0 0 false) k.

Fixpoint turns (k : nat) : Z :=
  match k with
  | O => 0
  | S k' => turns k' + (if lf <=? hd_i (move num den (orb k')) then 1 else 0)
  end.

Lemma orb_fwd : forall k, hd_back (orb k) = false /\ 0 <= hd_f (orb k) < den.
Proof.
  assert (TF : forall hd, hd_back hd = false -> hd_back (turn l hd) = false /\ hd_f (turn l hd) = hd_f hd).
  { intros [i f b] E. cbn in E. subst b. unfold turn, l, loop_of. cbn. destruct (lf <=? i); auto. }
  induction k as [|k [I1 I2]].
  - unfold orb. cbn [orbit]. destruct (TF (mkHead p0 0 false) eq_refl) as [A B]. rewrite A, B. cbn. split; [auto|lia].
  - unfold orb in *. cbn [orbit]. destruct (TF (move num den (orbit l num den (mkHead p0 0 false) k))) as [A B].
    { unfold move. cbn. exact I1. }
    rewrite A, B. split; [auto|]. unfold move. cbn. rewrite I1.
    apply Z.rem_bound_pos; lia.
Qed.

Lemma orb_step : forall i f, 0 <= f < den -> i <= hd_i (move num den (mkHead i f false)) <= i + s.
Proof.
  intros i f F. unfold move. cbn. rewrite Z.quot_div_nonneg by lia.
  assert (0 <= (f + num) / den) by (apply Z.div_pos; lia).
  assert ((f + num) / den <= s); [|lia].
  apply Z.lt_succ_r. apply Z.div_lt_upper_bound; nia.
Qed.

Lemma orb_path : path ls lf s (fun k => hd_i (orb k)) turns.
Proof.
  split; [auto|]. split; [nia|]. split.
  { unfold orb. cbn [orbit]. unfold turn, l, loop_of. cbn. destruct (Z.leb_spec lf p0); cbn; lia. }
  split; [reflexivity|]. intros k. cbn [turns]. destruct (orb_fwd k) as [FB FF].
  assert (ES : orb (S k) = turn l (move num den (orb k))) by reflexivity. rewrite ES. clear ES.
  assert (EM : orb k = mkHead (hd_i (orb k)) (hd_f (orb k)) false) by (destruct (orb k); cbn in *; congruence).
  pose proof (orb_step (hd_i (orb k)) (hd_f (orb k)) FF) as ST. rewrite <- EM in ST.
  assert (MB : hd_back (move num den (orb k)) = false) by exact FB.
  unfold turn. rewrite MB. change (lp_hi l) with lf. change (lp_pp l) with false. change (lp_re l) with ls.
  destruct (Z.leb_spec lf (hd_i (move num den (orb k)))) as [L|L]; cbn [hd_i].
  - right. lia.
  - left. lia.
Qed.
End O.

(* ---- delivery ------------------------------------------------------------- *)

(* The bounds for backward motion do not matter *)
Lemma orbit_forward : forall ls lo lf top lo' top' num den k hd, hd_back hd = false ->
  orbit (mkLoop false ls lo lf top) num den hd k = orbit (mkLoop false ls lo' lf top') num den hd k /\
  hd_back (orbit (mkLoop false ls lo lf top) num den hd k) = false.
Proof.
  intros ls lo lf top lo' top' num den.
  assert (T : forall hd, hd_back hd = false -> turn (mkLoop false ls lo lf top) hd = turn (mkLoop false ls lo' lf top') hd /\
     hd_back (turn (mkLoop false ls lo lf top) hd) = false).
  { intros hd E. unfold turn. rewrite E. cbn [lp_hi lp_pp lp_re]. destruct (lf <=? hd_i hd); auto. }
  induction k as [|k IH]; intros hd E; cbn [orbit].
  - now apply T.
  - destruct (IH hd E) as [I1 I2]. rewrite <- I1.
    destruct (T (move num den (orbit (mkLoop false ls lo lf top) num den hd k))) as [T1 T2]; [exact I2|].
    auto.
Qed.

Lemma loop_file : forall r fl fsam nch h len p garbage ps pb ls lf num q, cfg_ok (r_cfg r) ->
  basic_settings r LRepeat ps pb -> r_ls r = ls -> r_lf r = lf ->
  r_nch r = Z.of_nat nch -> r_hdr r = h -> r_fsize r = fsize fl ->
  r_fsamples r = fsam -> 0 <= fsam -> len = fsam / Z.of_nat nch -> file_holds fl h len nch ->
  0 <= ls < lf -> lf <= len ->
  let p0 := loop_start ps ls pb in 0 <= p0 < lf ->
  fin64 (r_rate r) = true -> R64 (r_rate r) = (IZR num * bpow radix2 (- q))%R ->
  0 <= q <= 52 -> 0 < num <= 2 ^ 52 -> ((R64 (r_rate r) + 1) * INR nch <= IZR (2 ^ 30))%R ->
  let c := r_cfg r in
  let M := Z.of_nat (c_nbuf c) in
  let b0 := blk c (h + p0 * Z.of_nat nch) in
  let lsb := blk c (h + ls * Z.of_nat nch) in
  let lfb := blk c (h + lf * Z.of_nat nch) in
  2 * ((b0 + M - 1) * BS c) < fsize fl ->
  b0 <= lsb \/ b0 + M - 1 <= lfb ->
  exists r', play_open r fl p garbage = Ok (true, r') /\
    (lfb <= b0 + M - 1 -> b0 <= lsb -> forall B, file_delivers B r' (file_repeat fl h nch ls lf p0 num (2 ^ q))) /\
    (forall B s, num <= s * 2 ^ q -> loop_keeps_up c nch B s -> file_delivers B r' (file_repeat fl h nch ls lf p0 num (2 ^ q))).
Proof.
  intros r fl fsam nch h len p garbage ps pb ls lf num q C BSET EL EF NC HH FZ FQ FQ0 LEN FH HL HF p0 HP F V Hq Hn U c M b0 lsb lfb FULL REG.
  pose proof FH as (FT & FE & FX). pose proof FT as (A1 & A2 & A3 & A4 & A5).
  assert (P : (0 < R64 (r_rate r))%R).
  { rewrite V. apply Rmult_lt_0_compat; [apply (IZR_lt 0); lia|apply bpow_gt_0]. }
  pose proof (BS_pos _ C) as HB. fold c in HB.
  assert (MN : 1 <= M <= 64) by (unfold M; destruct C as [_ C]; fold c in C; lia).
  assert (BIN : forall n, 0 <= n <= len -> 0 <= blk c (h + n * Z.of_nat nch) /\ blk c (h + n * Z.of_nat nch) * BS c < 2 ^ 30).
  { intros n Hn0. assert (0 <= h + n * Z.of_nat nch < 2 ^ 30) by nia.
    pose proof (blk_mod c (h + n * Z.of_nat nch) C). pose proof (mod_BS c (h + n * Z.of_nat nch) C).
    pose proof (blk_nonneg c (h + n * Z.of_nat nch) C ltac:(lia)). lia. }
  pose proof (BIN ls ltac:(lia)) as BLS. pose proof (BIN lf ltac:(lia)) as BLF. pose proof (BIN p0 ltac:(lia)) as BP.
  fold lsb in BLS. fold lfb in BLF. fold b0 in BP.
  assert (LL : lsb <= lfb) by (apply (blk_mono c C); nia).
  set (X := Z.max lfb (b0 + M - 1)).
  assert (XB : (X + 1) * BS c < 2 ^ 31).
  { unfold X. destruct (Z.max_spec lfb (b0 + M - 1)) as [[_ -> ]|[_ -> ]]; lia. }
  assert (LOK : lwin_ok c lsb lfb X b0).
  { split; [lia|]. split; [lia|]. split; [lia|]. split; [exact XB|].
    destruct (Z.le_gt_cases (b0 + M - 1) lfb) as [Y|Y]; [left; unfold X; lia|right]. unfold X, M in *. lia. }
  assert (XM : b0 + M - 1 <= X) by (unfold X; lia).
  destruct (loop_open r fl fsam nch h len p garbage ps pb ls lf X C BSET EL EF NC HH FZ FQ FQ0 LEN FH HL HF HP F ltac:(lra) FULL XM LOK)
    as (r' & E & PL & RT & LP & RM & PS & PO & RLS & RLF & W).
  exists r'. split; [exact E|]. fold p0 in PO, W.
  set (L := loop_of LRepeat ps ls lf nch).
  assert (LK : loop_ok L len nch) by (apply loop_of_ok; auto).
  assert (HK : head_ok L len (mkHead p0 0 false)) by (unfold head_ok; cbn; lia).
  assert (HD : 0 < 2 ^ q) by (apply Z.pow_pos_nonneg; lia).
  pose proof (loop_walk h nch L (r_rate r) num q (mkHead p0 0 false) len FT LK HK F V Hq Hn U HD) as WK.
  set (I := fun k => loop_inv h nch L (r_rate r) q (pre L num (2 ^ q) (mkHead p0 0 false) k)) in *.
  set (ix := fun k => hd_i (orbit L num (2 ^ q) (mkHead p0 0 false) k)).
  assert (I0 : I O r').
  { unfold I. cbn [pre]. destruct BSET as (_ & _ & _ & _ & _ & B6 & B7). constructor; auto.
    - change (lp_lo L) with (match ps with PSample => 0 | _ => ls end). rewrite PS, RLS. reflexivity.
    - now rewrite RM.
    - rewrite RM. change (R64 (r_rem r) = (IZR 0 * bpow radix2 (- q))%R). rewrite B7. ring. }
  assert (FS2 : fsize fl <= 2 ^ 31) by lia.
  assert (XU : (R64 (r_rate r) <= IZR (2 ^ 30))%R).
  { assert (1 <= INR nch)%R by (change 1%R with (INR 1); now apply le_INR). nra. }
  assert (OB : forall k, hd_back (orbit L num (2 ^ q) (mkHead p0 0 false) k) = false).
  { intros k. refine (proj1 (orb_fwd ps ls lf num (2 ^ q) p0 nch HD _ k)). lia. }
  assert (FWD : forall k rr, I k rr -> fle f0 (f_of_d (r_rate rr)) = true).
  { intros k rr HI. rewrite (li_rate _ _ _ _ _ _ _ HI).
    assert (BK : hd_back (pre L num (2 ^ q) (mkHead p0 0 false) k) = false).
    { destruct k; [reflexivity|]. cbn [pre]. apply OB. }
    rewrite BK. apply rate_single_sign; auto. lra. }
  assert (PTH : forall s, num <= s * 2 ^ q -> path ls lf s ix (turns ps ls lf num (2 ^ q) p0 nch)).
  { intros s HS. apply orb_path; auto. lia. }
  assert (INF : forall k, frame_file fl nch (h + ix k * Z.of_nat nch)).
  { intros k. pose proof (path_range ls lf num ix _ (PTH num ltac:(nia)) k). unfold frame_file. nia. }
  assert (OUT : forall B, (forall ns, Forall (fun n => (n <= B)%nat) ns ->
      exists F0 r2, serviced F0 r' ns = Ok (blocks_spec (loop_out fl h nch ix) 0 ns, r2) /\ misses r2 = 0) ->
      file_delivers B r' (file_repeat fl h nch ls lf p0 num (2 ^ q))).
  { intros B HO ns FN. destruct (HO ns FN) as (F0 & r2 & S2 & M2). exists F0, r2. split.
    - rewrite S2. do 2 f_equal. apply blocks_ext. intros k. unfold loop_out, file_repeat, endless_stream, ix.
      do 3 f_equal. unfold L, loop_of. cbn [loop_eqb].
      apply (orbit_forward ls _ lf _ ls lf num (2 ^ q) k (mkHead p0 0 false) eq_refl).
    - rewrite M2. destruct W as (f & SF & W & _). unfold misses. rewrite SF. symmetry. apply W. }
  assert (IX0 : ix O = p0).
  { unfold ix. cbn [orbit]. unfold turn, L, loop_of. cbn. destruct (Z.leb_spec lf p0); [lia|reflexivity]. }
  split.
  - intros R1 R2 B. apply OUT. intros ns FN.
    pose proof (PTH num ltac:(nia)) as PT.
    destruct (loop_session c fl h nch lsb lfb X C FS2 I ix WK FWD INF (fun n => (n <= B)%nat) (complete ls ix c h nch X))
      with (ns := ns) (k := O) (a := b0) (r := r') as (F0 & r2 & S2 & M2); auto.
    + intros k a n GK _. apply (complete_pres ls lf num ix _ PT c h nch X C A4); [unfold X; lia|auto].
    + intros k a n o GK _. apply (complete_next ls lf num ix _ PT c h nch X C A4); [unfold X; lia|auto].
    + unfold complete. rewrite IX0. fold b0 lsb M. unfold X. lia.
    + eauto.
  - intros B s HS KU. apply OUT. intros ns FN.
    pose proof (PTH s HS) as PT. assert (S1 : 1 <= s) by nia.
    destruct (Z.le_gt_cases (b0 + M - 1) lfb) as [R1|R1].
    + assert (XL : X = lfb) by (unfold X; lia).
      destruct (loop_session c fl h nch lsb lfb X C FS2 I ix WK FWD INF (fun n => (n <= B)%nat)
         (tracking ls ix (turns ps ls lf num (2 ^ q) p0 nch) c h nch X B))
        with (ns := ns) (k := O) (a := b0) (r := r') as (F0 & r2 & S2 & M2); auto.
      * intros k a n GK NB. apply (track_pres ls lf s ix _ PT c h nch X C A4) with (B := B) (k := k); auto; [unfold X; lia].
      * intros k a n o GK NB. apply (track_next ls lf s ix _ PT c h nch X C A4); auto; [unfold X; lia].
      * unfold tracking. destruct (Z.le_gt_cases M (X - lsb + 1)) as [Y|Y].
        { left. exists O. rewrite IX0. split; [lia|]. split; [unfold line; cbn [turns]; fold b0; lia|]. left. exact Y. }
        destruct (Z.lt_ge_cases (b0 + M - 1) X) as [Y2|Y2].
        { left. exists O. rewrite IX0. split; [lia|]. split; [unfold line; cbn [turns]; fold b0; lia|]. right. split; [reflexivity|exact Y2]. }
        right. unfold complete. rewrite IX0. fold b0 lsb M. lia.
      * eauto.
    + assert (R2 : b0 <= lsb) by lia.
      destruct (loop_session c fl h nch lsb lfb X C FS2 I ix WK FWD INF (fun n => (n <= B)%nat) (complete ls ix c h nch X))
        with (ns := ns) (k := O) (a := b0) (r := r') as (F0 & r2 & S2 & M2); auto.
      * intros k a n GK _. apply (complete_pres ls lf s ix _ PT c h nch X C A4); [unfold X; lia|auto].
      * intros k a n o GK _. apply (complete_next ls lf s ix _ PT c h nch X C A4); [unfold X; lia|auto].
      * unfold complete. rewrite IX0. fold b0 lsb M. unfold X. lia.
      * eauto.
Qed.

(* ---- from the public entry points ----------------------------------------- *)

Lemma raw_loop : forall r fl nch stack garbage ps pb ls lf num q, cfg_ok (r_cfg r) -> r_kind r <> KArray ->
  basic_settings r LRepeat ps pb -> r_ls r = ls -> r_lf r = lf -> r_hdr r = 0 -> (1 <= nch)%nat -> Z.of_nat nch < 2 ^ 15 ->
  0 < fsize fl < 2 ^ 31 -> 0 <= ls < lf -> lf <= fsize fl / 2 / Z.of_nat nch ->
  let p0 := loop_start ps ls pb in 0 <= p0 < lf ->
  fin64 (r_rate r) = true -> R64 (r_rate r) = (IZR num * bpow radix2 (- q))%R ->
  0 <= q <= 52 -> 0 < num <= 2 ^ 52 -> ((R64 (r_rate r) + 1) * INR nch <= IZR (2 ^ 30))%R ->
  let pos i := i * Z.of_nat nch in
  buffers_fill (r_cfg r) fl (pos p0) -> loop_ahead (r_cfg r) (pos p0) (pos ls) (pos lf) ->
  exists r', r_play_file r (Some fl) false (Z.of_nat nch) stack garbage = Ok (true, r') /\
    (loop_buffered (r_cfg r) (pos p0) (pos ls) (pos lf) -> forall B, file_delivers B r' (file_repeat fl 0 nch ls lf p0 num (2 ^ q))) /\
    (forall B s, num <= s * 2 ^ q -> loop_keeps_up (r_cfg r) nch B s -> file_delivers B r' (file_repeat fl 0 nch ls lf p0 num (2 ^ q))).
Proof.
  intros r fl nch stack garbage ps pb ls lf num q C K BSET EL EF HH N1 NB S HL HF p0 HP F V Hq Hn U pos BF LA.
  destruct (play_raw_open r fl (Z.of_nat nch) stack garbage K ltac:(lia) ltac:(lia)) as (r1 & E & CC & NC & HC & SC & FC & RC & SS).
  rewrite E. rewrite <- RC in F, V, U. rewrite <- CC in C, BF, LA |- *.
  set (len := fsize fl / 2 / Z.of_nat nch) in *.
  assert (LN : 0 <= len) by (unfold len; apply Z.div_pos; [apply Z.div_pos|]; lia).
  assert (L2 : 2 * (len * Z.of_nat nch) <= fsize fl).
  { unfold len. pose proof (Z.mul_div_le (fsize fl) 2 ltac:(lia)).
    pose proof (Z.mul_div_le (fsize fl / 2) (Z.of_nat nch) ltac:(lia)). lia. }
  destruct (loop_file r1 fl (fsize fl / 2) nch 0 len 0 garbage ps pb ls lf num q) as (r' & E' & D1 & D2); auto; try congruence.
  - now apply (settings_same r).
  - apply Z.div_pos; lia.
  - unfold file_holds, fits. repeat split; auto; lia.
  - exists r'. split; [exact E'|]. split; [|exact D2]. intros [X1 X2]. apply D1; assumption.
Qed.

Lemma wav_loop : forall r fl nch tags n nraw stack garbage ps pb ls lf num q, cfg_ok (r_cfg r) -> r_kind r <> KArray ->
  basic_settings r LRepeat ps pb -> r_ls r = ls -> r_lf r = lf -> bytes_ok stack -> wav_file fl nch tags n -> Z.of_nat nch < 2 ^ 15 ->
  0 <= ls < lf -> lf <= n / 2 / Z.of_nat nch ->
  let p0 := loop_start ps ls pb in 0 <= p0 < lf ->
  fin64 (r_rate r) = true -> R64 (r_rate r) = (IZR num * bpow radix2 (- q))%R ->
  0 <= q <= 52 -> 0 < num <= 2 ^ 52 -> ((R64 (r_rate r) + 1) * INR nch <= IZR (2 ^ 30))%R ->
  let h := (44 + tags) / 2 in
  let pos i := h + i * Z.of_nat nch in
  buffers_fill (r_cfg r) fl (pos p0) -> loop_ahead (r_cfg r) (pos p0) (pos ls) (pos lf) ->
  exists r', r_play_file r (Some fl) true nraw stack garbage = Ok (true, r') /\
    (loop_buffered (r_cfg r) (pos p0) (pos ls) (pos lf) -> forall B, file_delivers B r' (file_repeat fl h nch ls lf p0 num (2 ^ q))) /\
    (forall B s, num <= s * 2 ^ q -> loop_keeps_up (r_cfg r) nch B s -> file_delivers B r' (file_repeat fl h nch ls lf p0 num (2 ^ q))).
Proof.
  intros r fl nch tags n nraw stack garbage ps pb ls lf num q C K BSET EL EF BST WF NB HL HF p0 HP F V Hq Hn U h pos BF LA.
  destruct (play_wav_open r fl nch tags n nraw stack garbage K BST WF NB) as (r1 & E & CC & NC & HC & SC & FC & RC & SS).
  destruct (wav_file_plays fl nch tags n WF) as (_ & _ & _ & E2 & N0).
  destruct WF as (_ & _ & _ & _ & N1 & _ & _ & T0 & SZ & SL).
  rewrite E. rewrite <- RC in F, V, U. rewrite <- CC in C, BF, LA |- *.
  set (len := n / 2 / Z.of_nat nch) in *.
  assert (LN : 0 <= len) by (unfold len; apply Z.div_pos; [apply Z.div_pos|]; lia).
  assert (L2 : 2 * (len * Z.of_nat nch) <= n).
  { unfold len. pose proof (Z.mul_div_le n 2 ltac:(lia)).
    pose proof (Z.mul_div_le (n / 2) (Z.of_nat nch) ltac:(lia)). lia. }
  destruct (loop_file r1 fl (n / 2) nch h len (44 + tags) garbage ps pb ls lf num q) as (r' & E' & D1 & D2); auto; try congruence.
  - now apply (settings_same r).
  - apply Z.div_pos; lia.
  - unfold file_holds, fits. unfold h. repeat split; auto; lia.
  - exists r'. split; [exact E'|]. split; [|exact D2]. intros [X1 X2]. apply D1; assumption.
Qed.

(* At rate 1.0 the frames are those of the closed form *)
Lemma file_repeat_unity : forall fl h nch ls lf p0 k, 0 <= ls < lf ->
  file_repeat fl h nch ls lf p0 1 1 k = Some (file_frame fl h nch (repeat_frame ls lf p0 k)).
Proof.
  intros fl h nch ls lf p0 k HL. unfold file_repeat, endless_stream.
  rewrite orbit_repeat by lia. reflexivity.
Qed.
