(* Reverse playback of files and arrays, from the public entry points. *)

From Coq Require Import ZArith Lia List Bool Reals Lra.
From RecordUpdate Require Import RecordUpdate.
From Flocq Require Import Core.Core IEEE754.BinarySingleNaN.
From Verif Require Import Machine Floats FloatFacts WavModel InterpModel CacheModel ReaderModel
  ReaderFacts ReaderSpec Sessions StreamFacts Walk ForwardProofs PlayProofs CacheFacts CacheSpec CacheProofs WavSpec WavProofs WavPlayProofs
  FileSpec WindowProofs FileProofs FilePlay FileForward TapeSpec TapeProofs LoopWindow PongWindow BackWindow BackFile BackSpec BackProofs.
Import ListNotations.
Local Open Scope Z_scope.

Lemma first_rwin : forall c fl g i n g', cfg_ok c -> fsize fl < 2 ^ 31 -> 0 <= i -> 2 * (blk c i * BS c) + BS c <= fsize fl ->
  i_cfg g = c -> i_file g = fl -> i_loop g = LNone -> i_fails g = 0 -> i_bufs g = [] ->
  preLoadBuffers g i false = Ok (n, g') ->
  exists s, rwin c fl (blk c i) s g' /\ marks None g' /\ rfull c (blk c i) s.
Proof.
  intros c fl g i n g' C FS I0 HF G1 G2 G3 G4 G5 E. unfold preLoadBuffers in E. rewrite G1 in E.
  pose proof (BS_pos _ C) as HB. pose proof (proj1 (blk_nonneg c i C I0)) as Q0.
  assert (NB : (1 <= c_nbuf c <= 64)%nat) by apply C.
  assert (W : rwin c fl (blk c i) 0 g).
  { constructor; auto; rewrite ?G5; auto; cbn [length]; try lia; intros t b H; destruct t; discriminate. }
  assert (MK : marks None g) by (intros t b H; rewrite G5 in H; destruct t; discriminate).
  apply (preload_rwin c fl (blk c i) C FS Q0 HF (c_nbuf c) 0%nat 0%nat g i 0 n g' W); auto; try lia.
  now rewrite G5.
Qed.

Lemma reset_back : forall r q, dle d0 (r_rate r) = false ->
  match r_pstart r with PSample => chk32 (Z.quot (r_fsize r) 2 - r_nch r) | PLoop => n <- chk32 (r_lf r - r_nch r) ;; Ok (spos r n)
  | PArbitrary => Ok (spos r (r_pbstart r)) end = Ok q ->
  exists r', r_reset r = Ok r' /\ r_pos1 r' = q.
Proof.
  intros r q D E. unfold r_reset. rewrite D, E. cbn [bind]. eexists. split; [reflexivity|reflexivity].
Qed.

Lemma back_state : forall r fl fsam nch h len p garbage ps pb p0, cfg_ok (r_cfg r) ->
  basic_settings r LNone ps pb -> r_nch r = Z.of_nat nch -> r_hdr r = h -> r_fsize r = fsize fl ->
  r_fsamples r = fsam -> 0 <= fsam -> len = fsam / Z.of_nat nch -> file_holds fl h len nch ->
  begins (fsize fl) h len nch ps pb p0 -> 0 <= p0 < len -> first_block (BS (r_cfg r)) (fsize fl) h nch p0 ->
  fin64 (r_rate r) = true -> (R64 (r_rate r) < 0)%R ->
  exists r', play_open r fl p garbage = Ok (true, r') /\
    plain h nch r' /\ r_rate r' = r_rate r /\ r_loop r' = LNone /\ r_rem r' = r_rem r /\ r_ls r' = 0 /\
    r_pos1 r' = h + p0 * Z.of_nat nch /\
    rwindowed (r_cfg r) fl (blk (r_cfg r) (h + p0 * Z.of_nat nch)) None r'.
Proof.
  intros r fl fsam nch h len p garbage ps pb p0 C BSET NC HH FZ FQ FQ0 LEN (FT & FE & FL) BG PB FB F P.
  pose proof FT as (H1 & H2 & H3 & H4 & H5). destruct BSET as (B1 & B2 & B3 & B4 & B5 & B6 & B7).
  unfold play_open. rewrite HH, FZ.
  rewrite (u32_id (fsize fl)), (u32_id (h * 2)) by (unfold in_u32; lia).
  destruct (Z.leb_spec (fsize fl) (h * 2)) as [L|L]; [lia|].
  unfold sdiv32. rewrite NC, FQ. destruct (Z.eqb_spec (Z.of_nat nch) 0); [lia|].
  rewrite Z.quot_div_nonneg by lia. rewrite <- LEN. rewrite chk32_ok by (unfold in_s32; nia). cbn [bind].
  destruct (open_src_proj r len fl p garbage) as (S1 & _).
  assert (O1 : core (open_src r len fl p garbage) = core r) by (unfold open_src; destruct (r_loop r); reflexivity).
  assert (O3 : r_ls (open_src r len fl p garbage) = 0 /\ r_lf (open_src r len fl p garbage) = len).
  { unfold open_src. rewrite B3. split; reflexivity. }
  cbv zeta in S1. set (r1 := open_src r len fl p garbage) in *. clearbody r1. destruct O3 as [LZ LF].
  destruct (copy_loop_core r1) as (Q1 & Q2 & Q3 & Q4).
  destruct (copy_loop_src r1 _ S1) as (g & S2 & G5 & G1 & G2 & G4 & G3). cbn in G5, G1, G2, G4.
  set (r2 := copy_loop r1) in *. clearbody r2. unfold core in *.
  assert (LL : r_loop r1 = LNone) by congruence.
  assert (RR : r_rate r2 = r_rate r) by congruence.
  assert (LF2 : r_lf r2 = len) by (rewrite Q3, LF; apply s32_id; unfold in_s32; nia).
  assert (SP : forall n, in_s32 (h + n * Z.of_nat nch) -> spos r2 n = h + n * Z.of_nat nch).
  { intros n0 Hn. unfold spos, sts. replace (r_hdr r2) with h by congruence. replace (r_nch r2) with (Z.of_nat nch) by congruence.
    rewrite s32_u32. apply s32_id. exact Hn. }
  set (q := h + p0 * Z.of_nat nch) in *.
  assert (QB : 0 <= q < 2 ^ 30) by (unfold q; nia).
  destruct (reset_back r2 q) as (r3 & RE & X2); [rewrite RR; apply (dge0_false _ F P)| |].
  { replace (r_pstart r2) with ps by congruence. unfold begins in BG. destruct ps.
    - replace (r_fsize r2) with (fsize fl) by congruence. replace (r_nch r2) with (Z.of_nat nch) by congruence.
      rewrite Z.quot_div_nonneg by lia. destruct BG as [-> ->]. unfold q.
      rewrite chk32_ok by (unfold in_s32; nia). f_equal. lia.
    - assert (N2 : r_nch r2 = Z.of_nat nch) by congruence. destruct BG as [NE ->]. rewrite N2, NE. change (Z.of_nat 1) with 1.
      rewrite LF2, chk32_ok by (unfold in_s32; nia). cbn [bind]. rewrite SP by (unfold in_s32; nia). unfold q. reflexivity.
    - subst p0. replace (r_pbstart r2) with pb by congruence. rewrite SP by (unfold in_s32; nia). reflexivity. }
  destruct (reset_core _ _ RE) as (X3 & X1 & X4 & X5 & X6 & X7). unfold core in X3.
  destruct (preLoadBuffers_total g q false) as [[t g'] E]; [rewrite G1; exact C|exact G5|lia|].
  exists (started r3 g g').
  split.
  { apply (start_file_eq r2 r3 g t g' RE); [congruence|]. rewrite X2.
    replace (r_rate r3) with (r_rate r) by congruence. rewrite (dge0_false _ F P). exact E. }
  destruct (started_proj r3 g g') as (Y3 & Y1 & Y4 & Y5 & Y6 & Y7 & Y2 & Y8).
  set (r4 := started r3 g g') in *. clearbody r4. unfold core in Y3.
  split; [constructor; congruence|]. repeat (split; [congruence|]).
  split; [rewrite Y5, X5, Q2, LZ; reflexivity|].
  split; [congruence|].
  destruct FB as [FB1 FB2].
  destruct (first_rwin (r_cfg r) fl g q t g' C) as (s & W & MK & RF); auto; try lia; [congruence|].
  exists g', s. auto.
Qed.

Section Q.
Variable q : Z.
Hypothesis Q : 0 <= q <= 52.

Lemma back_open : forall r fl fsam nch h len p garbage ps pb p0 B X, cfg_ok (r_cfg r) ->
  basic_settings r LNone ps pb -> r_nch r = Z.of_nat nch -> r_hdr r = h -> r_fsize r = fsize fl ->
  r_fsamples r = fsam -> 0 <= fsam -> len = fsam / Z.of_nat nch -> file_holds fl h len nch ->
  begins (fsize fl) h len nch ps pb p0 -> 0 <= p0 < len -> first_block (BS (r_cfg r)) (fsize fl) h nch p0 ->
  back_ok q X (r_rate r) -> ((X + 1) * INR nch <= IZR (2 ^ 30))%R ->
  ((INR (2 * B) * X + 2) * INR nch <= IZR ((Z.of_nat (c_nbuf (r_cfg r)) - 1) * BS (r_cfg r)))%R ->
  exists r', play_open r fl p garbage = Ok (true, r') /\
    forall l, Forall (rtape_ok q X B) l -> above (IZR p0) (R64 (r_rate r)) l -> exists fuel r2,
      spun fuel r' l = Ok (rtape (file_frame fl h nch) (IZR p0) (R64 (r_rate r)) l, r2) /\ misses r2 = misses r'.
Proof.
  intros r fl fsam nch h len p garbage ps pb p0 B X C BSET NC HH FZ FQ FQ0 LEN FH BG PB FB RX XB KU.
  destruct (back_num q Q X _ RX) as (FR & [PR0 PR] & num & NM & EX & NU).
  destruct (back_state r fl fsam nch h len p garbage ps pb p0 C BSET NC HH FZ FQ FQ0 LEN FH BG PB FB FR PR)
    as (r' & E & PL & RT & LP & RM & LS & PO & W).
  exists r'. split; [exact E|]. intros l OK AB.
  destruct BSET as (_ & _ & _ & _ & _ & B6 & B7).
  assert (I0 : back_inv q h nch (- p0 * 2 ^ q) (r_rate r) r') by (apply (back_start q Q); auto; rewrite RM; auto).
  assert (DD : 0 < 2 ^ q) by (apply Z.pow_pos_nonneg; lia).
  assert (PP : - p0 * 2 ^ q / 2 ^ q = - p0) by (apply Z.div_mul; lia).
  assert (BE : blk (r_cfg r) (h - - p0 * 2 ^ q / 2 ^ q * Z.of_nat nch + Z.of_nat nch - 1) = blk (r_cfg r) (h + p0 * Z.of_nat nch)).
  { rewrite PP. destruct FB as [FB _]. pose proof (BS_pos _ C) as HB. destruct FH as ((_ & _ & _ & N1 & _) & _).
    set (s := h + p0 * Z.of_nat nch) in *. replace (h - - p0 * Z.of_nat nch + Z.of_nat nch - 1) with (s + (Z.of_nat nch - 1)) by (unfold s; ring).
    unfold blk. pose proof (Z.div_mod s (BS (r_cfg r)) ltac:(lia)) as DM.
    pose proof (Z.mod_pos_bound s (BS (r_cfg r)) ltac:(lia)) as MB.
    symmetry. apply Z.div_unique with (s mod BS (r_cfg r) + (Z.of_nat nch - 1)); lia. }
  rewrite (back_whole q Q p0) in AB.
  destruct (back_session q Q (r_cfg r) fl h len nch B X C FH XB KU l (- p0 * 2 ^ q) (- p0 * 2 ^ q) (- p0 * 2 ^ q) (r_rate r) r' I0 RX)
    as (F & r2 & S & M); auto; try lia.
  - now rewrite BE.
  - rewrite Z.sub_diag. apply Rmult_le_pos; [apply pos_INR|]. apply Rmult_le_pos; [lra|apply (IZR_le 0); lia].
  - exists F, r2. rewrite <- (back_whole q Q) in S. split; [exact S|]. rewrite M. symmetry. eapply rwindowed_misses; eauto.
Qed.

Lemma back_raw : forall r fl nch stack garbage ps pb p0 B X, cfg_ok (r_cfg r) -> r_kind r <> KArray ->
  basic_settings r LNone ps pb -> r_hdr r = 0 -> (1 <= nch)%nat -> Z.of_nat nch < 2 ^ 15 -> 0 < fsize fl < 2 ^ 31 ->
  let len := fsize fl / 2 / Z.of_nat nch in
  begins (fsize fl) 0 len nch ps pb p0 -> 0 <= p0 < len -> first_block (BS (r_cfg r)) (fsize fl) 0 nch p0 ->
  back_ok q X (r_rate r) -> ((X + 1) * INR nch <= IZR (2 ^ 30))%R ->
  ((INR (2 * B) * X + 2) * INR nch <= IZR ((Z.of_nat (c_nbuf (r_cfg r)) - 1) * BS (r_cfg r)))%R ->
  exists r', r_play_file r (Some fl) false (Z.of_nat nch) stack garbage = Ok (true, r') /\
    forall l, Forall (rtape_ok q X B) l -> above (IZR p0) (R64 (r_rate r)) l -> exists fuel r2,
      spun fuel r' l = Ok (rtape (file_frame fl 0 nch) (IZR p0) (R64 (r_rate r)) l, r2) /\ misses r2 = misses r'.
Proof.
  intros r fl nch stack garbage ps pb p0 B X C K BSET HH N1 NB S len BG PB FB RX XB KU.
  destruct (play_raw_open r fl (Z.of_nat nch) stack garbage K ltac:(lia) ltac:(lia)) as (r1 & E & CC & NC & HC & SC & FC & RC & SS).
  rewrite E. rewrite <- RC in RX |- *. rewrite <- CC in C, KU, FB.
  assert (LN : 0 <= len) by (unfold len; apply Z.div_pos; [apply Z.div_pos|]; lia).
  assert (L2 : 2 * (len * Z.of_nat nch) <= fsize fl).
  { unfold len. pose proof (Z.mul_div_le (fsize fl) 2 ltac:(lia)).
    pose proof (Z.mul_div_le (fsize fl / 2) (Z.of_nat nch) ltac:(lia)). lia. }
  apply (back_open r1 fl (fsize fl / 2) nch 0 len 0 garbage ps pb p0 B X); auto; try congruence.
  - now apply (settings_same r).
  - apply Z.div_pos; lia.
  - unfold file_holds, fits. repeat split; auto; lia.
Qed.

Lemma back_wav : forall r fl nch tags n nraw stack garbage ps pb p0 B X, cfg_ok (r_cfg r) -> r_kind r <> KArray ->
  basic_settings r LNone ps pb -> bytes_ok stack -> wav_file fl nch tags n -> Z.of_nat nch < 2 ^ 15 ->
  let len := n / 2 / Z.of_nat nch in
  begins (fsize fl) ((44 + tags) / 2) len nch ps pb p0 -> 0 <= p0 < len -> first_block (BS (r_cfg r)) (fsize fl) ((44 + tags) / 2) nch p0 ->
  back_ok q X (r_rate r) -> ((X + 1) * INR nch <= IZR (2 ^ 30))%R ->
  ((INR (2 * B) * X + 2) * INR nch <= IZR ((Z.of_nat (c_nbuf (r_cfg r)) - 1) * BS (r_cfg r)))%R ->
  exists r', r_play_file r (Some fl) true nraw stack garbage = Ok (true, r') /\
    forall l, Forall (rtape_ok q X B) l -> above (IZR p0) (R64 (r_rate r)) l -> exists fuel r2,
      spun fuel r' l = Ok (rtape (file_frame fl ((44 + tags) / 2) nch) (IZR p0) (R64 (r_rate r)) l, r2) /\ misses r2 = misses r'.
Proof.
  intros r fl nch tags n nraw stack garbage ps pb p0 B X C K BSET BST WF NB len BG PB FB RX XB KU.
  destruct (play_wav_open r fl nch tags n nraw stack garbage K BST WF NB) as (r1 & E & CC & NC & HC & SC & FC & RC & SS).
  destruct (wav_file_plays fl nch tags n WF) as (_ & _ & _ & E2 & N0).
  destruct WF as (_ & _ & _ & _ & N1 & _ & _ & T0 & SZ & SL).
  rewrite E. rewrite <- RC in RX |- *. rewrite <- CC in C, KU, FB.
  assert (LN : 0 <= len) by (unfold len; apply Z.div_pos; [apply Z.div_pos|]; lia).
  assert (L2 : 2 * (len * Z.of_nat nch) <= n).
  { unfold len. pose proof (Z.mul_div_le n 2 ltac:(lia)).
    pose proof (Z.mul_div_le (n / 2) (Z.of_nat nch) ltac:(lia)). lia. }
  apply (back_open r1 fl (n / 2) nch ((44 + tags) / 2) len (44 + tags) garbage ps pb p0 B X); auto; try congruence.
  - now apply (settings_same r).
  - apply Z.div_pos; lia.
  - unfold file_holds, fits. repeat split; auto; lia.
Qed.

Lemma back_mem : forall r m off len nch ps pb p0 B X, array_holds m off len nch -> basic_settings r LNone ps pb ->
  0 <= p0 < len -> (match ps with
   | PSample => p0 * Z.of_nat nch = len - Z.of_nat nch
   | PLoop => nch = 1%nat /\ p0 = len - 1
   | PArbitrary => p0 = pb
   end) -> back_ok q X (r_rate r) -> ((X + 1) * INR nch <= IZR (2 ^ 30))%R ->
  exists r', playRaw_array r m off len (Z.of_nat nch) = Ok r' /\
    forall l, Forall (rtape_ok q X B) l -> above (IZR p0) (R64 (r_rate r)) l -> exists fuel r2,
      spun fuel r' l = Ok (rtape (src_frame m off nch) (IZR p0) (R64 (r_rate r)) l, r2).
Proof.
  intros r m off len nch ps pb p0 B X A BSET PB BG RX XB. destruct (back_num q Q X _ RX) as (FR & [PR0 PR] & num & NM & EX & NU).
  assert (PB' : ps = PArbitrary -> 0 <= pb <= len) by (intros ->; lia).
  destruct (playRaw_bwd m off len nch r LNone ps pb A BSET FR PR PB') as (r' & E & PL & SR & RT & FS & LP & RM & LS & LF & PS & PO).
  exists r'. split; [exact E|]. intros l OK AB.
  destruct (array_fits _ _ _ _ A) as (_ & H2 & H3 & H4 & H5).
  destruct BSET as (_ & _ & _ & _ & _ & B6 & B7).
  assert (I0 : back_inv q 0 nch (- p0 * 2 ^ q) (r_rate r) r').
  { apply (back_start q Q); auto; try (rewrite RM; auto). rewrite PO. destruct ps.
    - lia.
    - destruct BG as [-> ->]. rewrite s32_id by (unfold in_s32; lia). lia.
    - subst. lia. }
  assert (DD : 0 < 2 ^ q) by (apply Z.pow_pos_nonneg; lia).
  rewrite (back_whole q Q p0) in AB.
  destruct (back_array q Q m off len nch B X A XB l (- p0 * 2 ^ q) (- p0 * 2 ^ q) (r_rate r) r' I0 SR RX) as (F & r2 & S); auto.
  { rewrite Z.div_mul by lia. lia. }
  exists F, r2. rewrite <- (back_whole q Q) in S. exact S.
Qed.
End Q.
