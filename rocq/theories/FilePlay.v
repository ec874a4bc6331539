(* Forward playback of files: what play() leaves behind, and the streams. *)

From Coq Require Import ZArith Lia List Bool Reals Lra.
From RecordUpdate Require Import RecordUpdate.
From Flocq Require Import Core.Core IEEE754.BinarySingleNaN.
From Verif Require Import Machine Floats FloatFacts WavModel InterpModel CacheModel ReaderModel
  ReaderFacts ReaderSpec Sessions StreamFacts Walk ForwardProofs PlayProofs CacheFacts CacheSpec CacheProofs WavSpec WavProofs WavPlayProofs
  FileSpec WindowProofs FileProofs.
Import ListNotations.
Local Open Scope Z_scope.

(* ---- what play leaves behind ---------------------------------------------- *)

(* Settings that opening a file does not touch *)
Definition core (r : reader) :=
  (r_dual r, r_interp r, r_loop r, r_pstart r, r_pbstart r, r_rem r, r_rate r, r_nch r, r_hdr r, r_fsize r, r_cfg r).

Lemma core_loopType : forall r, core (setLoopType r (r_loop r)) = core r /\
  r_ls (setLoopType r (r_loop r)) = r_ls r /\ r_lf (setLoopType r (r_loop r)) = r_lf r /\
  r_fsamples (setLoopType r (r_loop r)) = r_fsamples r.
Proof. intros r. unfold setLoopType. destruct (r_src r); repeat split. Qed.
Lemma core_loopStart : forall r v, core (setLoopStart r v) = core r /\ r_ls (setLoopStart r v) = s32 v /\
  r_lf (setLoopStart r v) = r_lf r /\ r_fsamples (setLoopStart r v) = r_fsamples r.
Proof. intros r v. unfold setLoopStart. change (r_src (r <| r_ls := s32 v |>)) with (r_src r).
  destruct (r_src r); repeat split. Qed.
Lemma core_loopFinish : forall r v, core (setLoopFinish r v) = core r /\ r_lf (setLoopFinish r v) = s32 v /\
  r_ls (setLoopFinish r v) = r_ls r /\ r_fsamples (setLoopFinish r v) = r_fsamples r.
Proof. intros r v. unfold setLoopFinish. change (r_src (r <| r_lf := s32 v |>)) with (r_src r).
  destruct (r_src r); repeat split. Qed.

Lemma copy_loop_core : forall r, core (copy_loop r) = core r /\ r_ls (copy_loop r) = s32 (r_ls r) /\
  r_lf (copy_loop r) = s32 (r_lf r) /\ r_fsamples (copy_loop r) = r_fsamples r.
Proof.
  intros r. unfold copy_loop.
  destruct (core_loopType r) as (A1 & A2 & A3 & A4). set (r1 := setLoopType r (r_loop r)) in *. clearbody r1.
  destruct (core_loopStart r1 (r_ls r1)) as (B1 & B2 & B3 & B4). cbv zeta.
  set (r2 := setLoopStart r1 (r_ls r1)) in *. clearbody r2.
  destruct (core_loopFinish r2 (r_lf r2)) as (C1 & C2 & C3 & C4).
  set (r3 := setLoopFinish r2 (r_lf r2)) in *. clearbody r3.
  repeat split; congruence.
Qed.

(* The source object keeps a failure count of 0 *)
Lemma copy_loop_src : forall r g, r_src r = SFile g -> exists g', r_src (copy_loop r) = SFile g' /\
  i_bufs g' = i_bufs g /\ i_cfg g' = i_cfg g /\ i_file g' = i_file g /\ i_fails g' = i_fails g /\ i_loop g' = r_loop r.
Proof.
  intros r g H. unfold copy_loop.
  destruct (setLoopType_proj r (r_loop r) _ H) as (S2 & _). cbv zeta in *.
  set (r2 := setLoopType r (r_loop r)) in *. clearbody r2.
  destruct (setLoopStart_proj r2 (r_ls r2) _ S2) as (S3 & _).
  set (r3 := setLoopStart r2 (r_ls r2)) in *. clearbody r3.
  destruct (setLoopFinish_proj r3 (r_lf r3) _ S3) as (S4 & _).
  set (r4 := setLoopFinish r3 (r_lf r3)) in *. clearbody r4.
  eexists. split; [exact S4|]. repeat split.
Qed.

(* The frame where forward playback starts *)
Definition start_frame (ps : play_start) (pb : Z) : Z := match ps with PArbitrary => pb | _ => 0 end.

(* Audio of len frames of nch channels, starting at sample h of the file *)
Definition file_holds (fl : file) (h len : Z) (nch : nat) : Prop :=
  fits h len nch /\ 2 * (h + len * Z.of_nat nch) <= fsize fl < 2 ^ 31 /\ 2 * h < fsize fl.

Lemma first_win : forall c fl g i n g', cfg_ok c -> fsize fl <= 2 ^ 31 -> 0 <= i -> i < 2 ^ 30 ->
  i_cfg g = c -> i_file g = fl -> i_loop g = LNone -> i_fails g = 0 -> i_bufs g = [] ->
  preLoadBuffers g i true = Ok (n, g') ->
  exists m, win c fl (blk c i) m g' /\ win_ok c fl (blk c i) m /\ marks None g'.
Proof.
  intros c fl g i n g' C FS I0 I1 G1 G2 G3 G4 G5 E. unfold preLoadBuffers in E. rewrite G1 in E.
  pose proof (blk_mod c i C) as BM. pose proof (mod_BS c i C) as MB. pose proof (BS_pos _ C) as HB.
  pose proof (blk_nonneg c i C I0) as Q0.
  assert (NB : (1 <= c_nbuf c <= 64)%nat) by apply C.
  assert (W : win c fl (blk c i) 0 g).
  { constructor; auto; rewrite G5; auto. intros t b H. destruct t; discriminate. }
  assert (MK : marks None g) by (intros t b H; rewrite G5 in H; destruct t; discriminate).
  destruct (preload_win c fl (blk c i) C FS ltac:(lia) ltac:(lia) (c_nbuf c) 0%nat g i 0 n g' W MK) as (m & W' & MK' & L & L2 & CV); auto; try lia.
  exists m. split; [auto|]. split; [|auto]. unfold win_ok. repeat split; auto; try lia.
Qed.

Lemma reset_core : forall r r', r_reset r = Ok r' -> core r' = core r /\ r_src r' = r_src r /\
  r_fsamples r' = r_fsamples r /\ r_ls r' = r_ls r /\ r_lf r' = r_lf r /\ r_cfst r' = 0.
Proof.
  intros r r' H. destruct (reset_fields r r' H) as (p & ->). repeat split.
Qed.

Lemma reset_forward : forall r q, dle d0 (r_rate r) = true ->
  match r_pstart r with PSample => Ok (spos r 0) | PLoop => Ok (spos r (r_ls r)) | PArbitrary => Ok (spos r (r_pbstart r)) end = Ok q ->
  exists r', r_reset r = Ok r' /\ r_pos1 r' = q.
Proof.
  intros r q D E. unfold r_reset. rewrite D, E. cbn [bind]. eexists. split; [reflexivity|reflexivity].
Qed.

Definition started (r : reader) (g g' : ifile) : reader :=
  r <| r_src := SFile g' |>
    <| r_live := r_live r + 2 * (Z.of_nat (length (i_bufs g')) - Z.of_nat (length (i_bufs g))) |>
    <| r_playing := true |>.

Lemma start_file_eq : forall r r3 g t g', r_reset r = Ok r3 -> r_src r3 = SFile g ->
  preLoadBuffers g (r_pos1 r3) (dle d0 (r_rate r3)) = Ok (t, g') -> start_file r = Ok (true, started r3 g g').
Proof. intros r r3 g t g' R E P. unfold start_file. rewrite R. cbn [bind]. rewrite E, P. reflexivity. Qed.

Lemma started_proj : forall r g g', core (started r g g') = core r /\ r_src (started r g g') = SFile g' /\
  r_fsamples (started r g g') = r_fsamples r /\ r_ls (started r g g') = r_ls r /\ r_lf (started r g g') = r_lf r /\
  r_cfst (started r g g') = r_cfst r /\ r_pos1 (started r g g') = r_pos1 r /\ r_playing (started r g g') = true.
Proof. intros. repeat split. Qed.

(* The state after opening: ready to walk, window in place.  For the forward
   direction, any loop type. *)
Lemma open_state : forall r fl fsam nch h len p garbage l ps pb, cfg_ok (r_cfg r) ->
  basic_settings r l ps pb -> r_nch r = Z.of_nat nch -> r_hdr r = h -> r_fsize r = fsize fl ->
  r_fsamples r = fsam -> 0 <= fsam -> len = fsam / Z.of_nat nch -> file_holds fl h len nch ->
  (ps = PArbitrary -> 0 <= pb <= len) -> (ps = PLoop -> l = LNone) ->
  fin64 (r_rate r) = true -> (0 <= R64 (r_rate r))%R ->
  exists r' g, play_open r fl p garbage = Ok (true, r') /\
    plain h nch r' /\ r_rate r' = r_rate r /\ r_fsamples r' = len /\ r_loop r' = l /\ r_rem r' = r_rem r /\
    r_pstart r' = ps /\
    r_pos1 r' = h + start_frame ps pb * Z.of_nat nch /\
    (l = LNone -> r_ls r' = 0 /\ r_lf r' = len) /\
    (l <> LNone -> r_ls r' = s32 (r_ls r) /\ r_lf r' = s32 (r_lf r)) /\
    r_src r' = SFile g /\
    (l = LNone -> exists m, windowed (r_cfg r) fl (blk (r_cfg r) (h + start_frame ps pb * Z.of_nat nch)) m None r').
Proof.
  intros r fl fsam nch h len p garbage l ps pb C BSET NC HH FZ FQ FQ0 LEN (FT & FE & FL) PB PL F P.
  pose proof FT as (H1 & H2 & H3 & H4 & H5). destruct BSET as (B1 & B2 & B3 & B4 & B5 & B6 & B7).
  unfold play_open. rewrite HH, FZ.
  rewrite (u32_id (fsize fl)), (u32_id (h * 2)) by (unfold in_u32; lia).
  destruct (Z.leb_spec (fsize fl) (h * 2)) as [L|L]; [lia|].
  unfold sdiv32. rewrite NC, FQ. destruct (Z.eqb_spec (Z.of_nat nch) 0); [lia|].
  rewrite Z.quot_div_nonneg by lia. rewrite <- LEN. rewrite chk32_ok by (unfold in_s32; nia). cbn [bind].
  destruct (open_src_proj r len fl p garbage) as (S1 & _).
  assert (O1 : core (open_src r len fl p garbage) = core r) by (unfold open_src; destruct (r_loop r); reflexivity).
  assert (O2 : r_fsamples (open_src r len fl p garbage) = len) by (unfold open_src; destruct (r_loop r); reflexivity).
  assert (O3 : (l = LNone -> r_ls (open_src r len fl p garbage) = 0 /\ r_lf (open_src r len fl p garbage) = len) /\
               (l <> LNone -> r_ls (open_src r len fl p garbage) = r_ls r /\ r_lf (open_src r len fl p garbage) = r_lf r)).
  { unfold open_src. rewrite B3. destruct l; split; intro; try congruence; split; reflexivity. }
  cbv zeta in S1. set (r1 := open_src r len fl p garbage) in *. clearbody r1.
  destruct (copy_loop_core r1) as (Q1 & Q2 & Q3 & Q4).
  destruct (copy_loop_src r1 _ S1) as (g & S2 & G5 & G1 & G2 & G4 & G3). cbn in G5, G1, G2, G4.
  set (r2 := copy_loop r1) in *. clearbody r2. unfold core in *.
  assert (LL : r_loop r1 = l) by congruence.
  assert (RR : r_rate r2 = r_rate r) by congruence.
  assert (SP : forall n, in_s32 (h + n * Z.of_nat nch) -> spos r2 n = h + n * Z.of_nat nch).
  { intros n0 Hn. unfold spos, sts. replace (r_hdr r2) with h by congruence. replace (r_nch r2) with (Z.of_nat nch) by congruence.
    rewrite s32_u32. apply s32_id. exact Hn. }
  set (q := h + start_frame ps pb * Z.of_nat nch).
  assert (QB : 0 <= q < 2 ^ 30) by (unfold q, start_frame; destruct ps; try specialize (PB eq_refl); nia).
  destruct (reset_forward r2 q) as (r3 & RE & X2); [rewrite RR; apply (dge0_true _ F P)| |].
  { replace (r_pstart r2) with ps by congruence. unfold q, start_frame. destruct ps.
    - rewrite SP by (unfold in_s32; nia). reflexivity.
    - destruct (proj1 O3 (PL eq_refl)) as [LZ _].
      rewrite Q2, LZ. change (s32 0) with 0. rewrite SP by (unfold in_s32; nia). reflexivity.
    - replace (r_pbstart r2) with pb by congruence. rewrite SP by (specialize (PB eq_refl); unfold in_s32; nia). reflexivity. }
  destruct (reset_core _ _ RE) as (X3 & X1 & X4 & X5 & X6 & X7). unfold core in X3.
  destruct (preLoadBuffers_total g q true) as [[t g'] E]; [rewrite G1; exact C|exact G5|lia|].
  exists (started r3 g g'), g'.
  split.
  { apply (start_file_eq r2 r3 g t g' RE); [congruence|]. rewrite X2.
    replace (r_rate r3) with (r_rate r) by congruence. rewrite (dge0_true _ F P). exact E. }
  destruct (started_proj r3 g g') as (Y3 & Y1 & Y4 & Y5 & Y6 & Y7 & Y2 & Y8).
  set (r4 := started r3 g g') in *. clearbody r4. unfold core in Y3.
  split; [constructor; congruence|]. repeat (split; [congruence|]).
  split; [intros LN; destruct (proj1 O3 LN) as [K1 K2]; rewrite Y5, X5, Q2, Y6, X6, Q3, K1, K2; split; [reflexivity|apply s32_id; unfold in_s32; nia]|].
  split; [intros LN; destruct (proj2 O3 LN) as [K1 K2]; rewrite Y5, X5, Q2, Y6, X6, Q3, K1, K2; auto|].
  split; [exact Y1|]. intros LN.
  destruct (first_win (r_cfg r) fl g q t g' C) as (m & W & WO & MK); auto; try lia; [congruence|].
  exists m, g'. auto.
Qed.
