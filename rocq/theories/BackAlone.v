(* Files that fit into the buffers, played backwards without any reload (C142), and the
   backward reading test (C143). *)

From Coq Require Import ZArith Lia List Bool Reals Lra.
From RecordUpdate Require Import RecordUpdate.
From Flocq Require Import Core.Core IEEE754.BinarySingleNaN.
From Verif Require Import Machine Floats FloatFacts WavModel InterpModel CacheModel ReaderModel ReaderFacts ReaderSpec Sessions StreamFacts Walk ForwardProofs PlayProofs
  CacheFacts CacheSpec CacheProofs WavSpec WavProofs WavPlayProofs FileSpec WindowProofs FileProofs FilePlay FileForward TapeSpec LoopWindow PongWindow BackWindow BackFile BackSpec BackProofs BackOpen
  MirrorSpec MirrorProofs MirrorFinal HeldSpec HeldProofs HeldPlay HeldBackSpec HeldBack UnitModel UnitProofs BackAloneSpec.
Import ListNotations.
Local Open Scope Z_scope.

(* ---- any calls without reload ---------------------------------------------------- *)

Lemma last_inside : forall c fl p i v, cfg_ok c -> last_held c fl p -> 0 <= p -> mem_sample (file_mem fl) 0 i = Some v ->
  mem_sample (part_mem fl (held_low c fl p) (held_high c fl p)) (- (2 * held_low c fl p)) i = Some v.
Proof.
  intros c fl p i v C (SM & L & H) P M. pose proof (BS_pos _ C) as HB.
  destruct (Z.le_gt_cases (2 * (p / BS c * BS c) + BS c) (fsize fl)) as [HF|HF].
  - apply back_inside; auto. unfold small_file in SM. nia.
  - destruct H as [H|H]; [|unfold half_full in H; lia]. rewrite part_hit_eq. unfold mem_sample in M.
    destruct (Z.leb_spec 0 (0 + 2 * i)), (Z.leb_spec (0 + 2 * i + 2) (msize (file_mem fl))); try discriminate. cbn [andb] in M.
    cbn [file_mem msize mbyte] in *. injection M as <-. unfold held_low, held_high.
    rewrite (Z.div_small p) in * by lia. destruct (Z.leb_spec (2 * (0 * BS c) + BS c) (fsize fl)); [lia|].
    assert (i + 1 <= fsize fl / 2) by (apply Z.div_le_lower_bound; lia).
    destruct (Z.leb_spec (0 * BS c) i), (Z.ltb_spec i (Z.min (fsize fl / 2) ((0 + 1) * BS c))); cbn [andb]; try lia. reflexivity.
Qed.

Theorem held_last : forall r0 fl w n st g r fuel os bs a, cfg_ok (r_cfg r0) -> fsize fl < 2 ^ 31 ->
  r_play_file r0 (Some fl) w n st g = Ok (true, r) -> dle d0 (r_rate r) = false -> 0 <= r_pos1 r < 2 ^ 30 ->
  last_held (r_cfg r0) fl (r_pos1 r) -> Forall unserviced os ->
  session fuel (on_array (file_mem fl) 0 r) os = Ok (bs, a) ->
  exists r', session fuel r os = Ok (bs, r') /\ a = on_array (file_mem fl) 0 r' /\ misses r' = 0.
Proof.
  intros r0 fl w n st g r fuel os bs a C FS E D P LH U EA. assert (FS' : fsize fl <= 2 ^ 31) by lia.
  destruct (play_held_back r0 fl w n st g r C FS E D P) as (f & S & R & F & B).
  destruct (session_held (r_cfg r0) fl _ _ (file_mem fl) 0 C FS' (fun i v => last_inside _ fl _ i v C LH (proj1 P)) fuel os r f bs a 0 U S)
    as (r' & f' & E2 & E3 & S' & G'); auto.
  { split; [now apply creach_coherent|]. split; [exact B|exact F]. }
  exists r'. split; [exact E2|]. split; [exact E3|]. unfold misses. rewrite S'. apply G'.
Qed.

(* ---- the opened player ------------------------------------------------------------ *)

Lemma back_opened : forall r fl fsam nch h len p garbage ps pb p0, cfg_ok (r_cfg r) ->
  basic_settings r LNone ps pb -> r_nch r = Z.of_nat nch -> r_hdr r = h -> r_fsize r = fsize fl ->
  r_fsamples r = fsam -> 0 <= fsam -> len = fsam / Z.of_nat nch -> file_holds fl h len nch ->
  begins (fsize fl) h len nch ps pb p0 -> 0 <= p0 < len ->
  fin64 (r_rate r) = true -> (R64 (r_rate r) < 0)%R ->
  exists r', play_open r fl p garbage = Ok (true, r') /\
    plain h nch r' /\ r_rate r' = r_rate r /\ r_loop r' = LNone /\ r_rem r' = r_rem r /\ r_ls r' = 0 /\
    r_pos1 r' = h + p0 * Z.of_nat nch.
Proof.
  intros r fl fsam nch h len p garbage ps pb p0 C BSET NC HH FZ FQ FQ0 LEN (FT & FE & FL) BG PB F P.
  pose proof FT as (H1 & H2 & H3 & H4 & H5). destruct BSET as (B1 & B2 & B3 & B4 & B5 & B6 & B7).
  unfold play_open. rewrite HH, FZ.
  rewrite (u32_id (fsize fl)), (u32_id (h * 2)) by (unfold in_u32; lia).
  destruct (Z.leb_spec (fsize fl) (h * 2)) as [L|L]; [lia|].
  unfold sdiv32. rewrite NC, FQ. destruct (Z.eqb_spec (Z.of_nat nch) 0); [lia|].
  rewrite Z.quot_div_nonneg by lia. rewrite <- LEN. rewrite chk32_ok by (unfold in_s32; nia). cbn [bind].
  destruct (open_src_proj r len fl p garbage) as (S1 & _).
  assert (O1 : core (open_src r len fl p garbage) = core r) by (unfold open_src; destruct (r_loop r); reflexivity).
  assert (O3 : r_ls (open_src r len fl p garbage) = 0 /\ r_lf (open_src r len fl p garbage) = len).
  { unfold open_src. rewrite B3. split; reflexivity. }
  cbv zeta in S1. set (r1 := open_src r len fl p garbage) in *. clearbody r1. destruct O3 as [LZ LF].
  destruct (copy_loop_core r1) as (Q1 & Q2 & Q3 & Q4).
  destruct (copy_loop_src r1 _ S1) as (g & S2 & G5 & G1 & G2 & G4 & G3). cbn in G5, G1, G2, G4.
  set (r2 := copy_loop r1) in *. clearbody r2. unfold core in *.
  assert (LL : r_loop r1 = LNone) by congruence.
  assert (RR : r_rate r2 = r_rate r) by congruence.
  assert (LF2 : r_lf r2 = len) by (rewrite Q3, LF; apply s32_id; unfold in_s32; nia).
  assert (SP : forall n, in_s32 (h + n * Z.of_nat nch) -> spos r2 n = h + n * Z.of_nat nch).
  { intros n0 Hn. unfold spos, sts. replace (r_hdr r2) with h by congruence. replace (r_nch r2) with (Z.of_nat nch) by congruence.
    rewrite s32_u32. apply s32_id. exact Hn. }
  set (q := h + p0 * Z.of_nat nch) in *.
  assert (QB : 0 <= q < 2 ^ 30) by (unfold q; nia).
  destruct (reset_back r2 q) as (r3 & RE & X2); [rewrite RR; apply (dge0_false _ F P)| |].
  { replace (r_pstart r2) with ps by congruence. unfold begins in BG. destruct ps.
    - replace (r_fsize r2) with (fsize fl) by congruence. replace (r_nch r2) with (Z.of_nat nch) by congruence.
      rewrite Z.quot_div_nonneg by lia. destruct BG as [-> ->]. unfold q.
      rewrite chk32_ok by (unfold in_s32; nia). f_equal. lia.
    - assert (N2 : r_nch r2 = Z.of_nat nch) by congruence. destruct BG as [NE ->]. rewrite N2, NE. change (Z.of_nat 1) with 1.
      rewrite LF2, chk32_ok by (unfold in_s32; nia). cbn [bind]. rewrite SP by (unfold in_s32; nia). unfold q. reflexivity.
    - subst p0. replace (r_pbstart r2) with pb by congruence. rewrite SP by (unfold in_s32; nia). reflexivity. }
  destruct (reset_core _ _ RE) as (X3 & X1 & X4 & X5 & X6 & X7). unfold core in X3.
  destruct (preLoadBuffers_total g q false) as [[t g'] E]; [rewrite G1; exact C|exact G5|lia|].
  exists (started r3 g g').
  split.
  { apply (start_file_eq r2 r3 g t g' RE); [congruence|]. rewrite X2.
    replace (r_rate r3) with (r_rate r) by congruence. rewrite (dge0_false _ F P). exact E. }
  destruct (started_proj r3 g g') as (Y3 & Y1 & Y4 & Y5 & Y6 & Y7 & Y2 & Y8).
  set (r4 := started r3 g g') in *. clearbody r4. unfold core in Y3.
  split; [constructor; congruence|]. repeat (split; [congruence|]).
  split; [rewrite Y5, X5, Q2, LZ; reflexivity|].
  congruence.
Qed.

(* ---- reading ------------------------------------------------------------------------ *)

Lemma array_back_reads : forall fl h len nch p0 x r, file_holds fl h len nch -> grid_rate x -> (R64 x < 0)%R -> 0 <= p0 < len -> ((- R64 x + 1) * INR nch <= IZR (2 ^ 30))%R ->
  bwd_inv h nch p0 x 0 r -> r_playing r = true -> r_src r = SArr (file_mem fl) 0 -> delivers r (file_back fl h nch p0 (- R64 x)).
Proof.
  intros fl h len nch p0 x r FH G P P0 U I0 PL S. pose proof FH as (FT & FE & FL). pose proof FT as (H1 & H2 & H3 & H4 & H5).
  apply (delivers_ext r (fun k => option_map (src_frame (file_mem fl) (0 + 2 * h) nch) (bwd_idx p0 (- R64 x) k))).
  { intro k. unfold bwd_idx, file_back. cbv zeta. destruct (_ <? _); cbn [option_map]; [reflexivity|now rewrite file_mem_frame]. }
  eapply follows_delivers; [apply walk_follows; [apply (bwd_walk h len nch p0 x FT G P ltac:(lia) U)|]|cbn; auto].
  intros k i E. unfold bwd_idx in E. cbv zeta in E. destruct (Z.ltb_spec (p0 - Zfloor (INR k * - R64 x)) 0); inversion E; subst.
  assert (0 <= Zfloor (INR k * - R64 x)) by (apply Zfloor_lub; apply Rmult_le_pos; [apply pos_INR|lra]).
  unfold frame_in. cbn [file_mem msize]. repeat split; nia.
Qed.

Lemma back_reads : forall r0 fl w n st g r h len nch p0 calls, cfg_ok (r_cfg r0) ->
  r_play_file r0 (Some fl) w n st g = Ok (true, r) -> file_holds fl h len nch -> bwd_inv h nch p0 (r_rate r) 0 r -> r_playing r = true ->
  grid_rate (r_rate r) -> (R64 (r_rate r) < 0)%R -> 0 <= p0 < len -> ((- R64 (r_rate r) + 1) * INR nch <= IZR (2 ^ 30))%R ->
  last_held (r_cfg r0) fl (h + p0 * Z.of_nat nch) -> calls = [] \/ calls = [SLoopType LNone] ->
  forall ns, exists fuel r', session fuel r (calls ++ reads ns) = Ok (map (fun _ => []) calls ++ blocks_spec (file_back fl h nch p0 (- R64 (r_rate r))) 0 ns, r') /\ misses r' = 0.
Proof.
  intros r0 fl w n st g r h len nch p0 calls C E FH I0 PL G P P0 U LH PRE ns.
  set (a := on_array (file_mem fl) 0 r).
  assert (FS : fsize fl < 2 ^ 31) by (destruct FH as (_ & Q & _); lia).
  assert (Z00 : Zfloor (INR 0 * - R64 (r_rate r)) = 0) by (cbn [INR]; rewrite Rmult_0_l; change 0%R with (IZR 0); apply Zfloor_IZR).
  assert (PO : r_pos1 r = h + p0 * Z.of_nat nch) by (rewrite (bw_pos _ _ _ _ _ _ I0), Z00, Z.sub_0_r; reflexivity).
  assert (PS : 0 <= r_pos1 r < 2 ^ 30) by (rewrite PO; destruct FH as ((H1 & H2 & H3 & H4 & H5) & _); nia).
  assert (Ia : bwd_inv h nch p0 (r_rate r) 0 a) by (destruct I0 as [[Q1 Q2 Q3 Q4 Q5 Q6] F2 F3 F4 F5 F6 F7]; constructor; auto; constructor; auto).
  assert (Ib : bwd_inv h nch p0 (r_rate r) 0 (setLoopType a LNone)).
  { destruct Ia as [[Q1 Q2 Q3 Q4 Q5 Q6] F2 F3 F4 F5 F6 F7]; constructor; auto; constructor; auto. }
  assert (X : exists fuel a', session fuel a (calls ++ reads ns) = Ok (map (fun _ => []) calls ++ blocks_spec (file_back fl h nch p0 (- R64 (r_rate r))) 0 ns, a')).
  { destruct PRE as [-> | ->].
    - destruct (array_back_reads fl h len nch p0 (r_rate r) a FH G P P0 U Ia PL eq_refl ns) as (F & a' & R).
      exists F, a'. cbn [app map]. now rewrite reads_session.
    - destruct (array_back_reads fl h len nch p0 (r_rate r) (setLoopType a LNone) FH G P P0 U Ib PL eq_refl ns) as (F & a' & R).
      exists F, a'. cbn [app map session sop_run bind]. rewrite reads_session, R. reflexivity. }
  destruct X as (F & a' & X).
  assert (UU : Forall unserviced (calls ++ reads ns)).
  { apply Forall_app. split; [|apply reads_unserviced]. destruct PRE as [-> | ->]; repeat constructor; discriminate. }
  rewrite <- PO in LH.
  destruct (held_last r0 fl w n st g r F _ _ a' C FS E (dge0_false _ (proj1 G) P) PS LH UU X) as (r' & S' & _ & M).
  exists F, r'. auto.
Qed.

Lemma back_held_open : forall r0 r fl w n st g fsam nch h len p garbage ps pb p0, cfg_ok (r_cfg r) -> r_cfg r = r_cfg r0 ->
  r_play_file r0 (Some fl) w n st g = play_open r fl p garbage ->
  basic_settings r LNone ps pb -> r_nch r = Z.of_nat nch -> r_hdr r = h -> r_fsize r = fsize fl ->
  r_fsamples r = fsam -> 0 <= fsam -> len = fsam / Z.of_nat nch -> file_holds fl h len nch ->
  begins (fsize fl) h len nch ps pb p0 -> 0 <= p0 < len ->
  grid_rate (r_rate r) -> (R64 (r_rate r) < 0)%R -> ((- R64 (r_rate r) + 1) * INR nch <= IZR (2 ^ 30))%R ->
  last_held (r_cfg r) fl (h + p0 * Z.of_nat nch) ->
  exists r', r_play_file r0 (Some fl) w n st g = Ok (true, r') /\ r_playing r' = true /\ forall calls, calls = [] \/ calls = [SLoopType LNone] ->
    forall ns, exists fuel r2, session fuel r' (calls ++ reads ns) =
      Ok (map (fun _ => []) calls ++ blocks_spec (file_back fl h nch p0 (- R64 (r_rate r))) 0 ns, r2) /\ misses r2 = 0.
Proof.
  intros r0 r fl w n st g fsam nch h len p garbage ps pb p0 C CC EP BSET NC HH FZ FQ FQ0 LEN FH BG PB G P U LH.
  destruct (back_opened r fl fsam nch h len p garbage ps pb p0 C BSET NC HH FZ FQ FQ0 LEN FH BG PB (proj1 G) P)
    as (r' & E & PL & RT & LP & RM & LS & PO).
  exists r'. split; [congruence|].
  assert (PY : r_playing r' = true) by apply PL. split; [exact PY|]. intros calls PRE ns.
  assert (Z00 : Zfloor (INR 0 * - R64 (r_rate r)) = 0) by (cbn [INR]; rewrite Rmult_0_l; change 0%R with (IZR 0); apply Zfloor_IZR).
  assert (I0 : bwd_inv h nch p0 (r_rate r') 0 r').
  { rewrite RT. destruct BSET as (_ & _ & _ & _ & _ & B6 & B7). constructor; auto.
    - now rewrite RM.
    - rewrite RM, B7, Z00. cbn [INR]. lra.
    - rewrite PO, Z00, Z.sub_0_r. reflexivity. }
  rewrite <- RT. rewrite CC in *. rewrite <- RT in G, P, U. rewrite <- EP in E.
  apply (back_reads r0 fl w n st g r' h len nch p0 calls); auto.
Qed.

(* ---- RAW and WAV files --------------------------------------------------------------- *)

Lemma raw_back_held : forall r fl nch stack garbage ps pb p0, cfg_ok (r_cfg r) -> r_kind r <> KArray ->
  basic_settings r LNone ps pb -> r_hdr r = 0 -> (1 <= nch)%nat -> Z.of_nat nch < 2 ^ 15 -> 0 < fsize fl < 2 ^ 31 ->
  let len := fsize fl / 2 / Z.of_nat nch in
  begins (fsize fl) 0 len nch ps pb p0 -> 0 <= p0 < len -> last_held (r_cfg r) fl (p0 * Z.of_nat nch) ->
  grid_rate (r_rate r) -> (R64 (r_rate r) < 0)%R -> ((- R64 (r_rate r) + 1) * INR nch <= IZR (2 ^ 30))%R ->
  exists r', r_play_file r (Some fl) false (Z.of_nat nch) stack garbage = Ok (true, r') /\ r_playing r' = true /\ forall calls, calls = [] \/ calls = [SLoopType LNone] ->
    forall ns, exists fuel r2, session fuel r' (calls ++ reads ns) =
      Ok (map (fun _ => []) calls ++ blocks_spec (file_back fl 0 nch p0 (- R64 (r_rate r))) 0 ns, r2) /\ misses r2 = 0.
Proof.
  intros r fl nch stack garbage ps pb p0 C K BSET HH N1 NB S len BG PB LH G P U.
  destruct (play_raw_open r fl (Z.of_nat nch) stack garbage K ltac:(lia) ltac:(lia)) as (r1 & E & CC & NC & HC & SC & FC & RC & SS).
  rewrite <- RC in G, P, U |- *. rewrite <- CC in C, LH.
  assert (LN : 0 <= len) by (unfold len; apply Z.div_pos; [apply Z.div_pos|]; lia).
  assert (L2 : 2 * (len * Z.of_nat nch) <= fsize fl).
  { unfold len. pose proof (Z.mul_div_le (fsize fl) 2 ltac:(lia)).
    pose proof (Z.mul_div_le (fsize fl / 2) (Z.of_nat nch) ltac:(lia)). lia. }
  apply (back_held_open r r1 fl false (Z.of_nat nch) stack garbage (fsize fl / 2) nch 0 len 0 garbage ps pb p0); auto; try congruence.
  - now apply (settings_same r).
  - apply Z.div_pos; lia.
  - unfold file_holds, fits. repeat split; auto; lia.
Qed.

Lemma wav_back_held : forall r fl nch tags n nraw stack garbage ps pb p0, cfg_ok (r_cfg r) -> r_kind r <> KArray ->
  basic_settings r LNone ps pb -> bytes_ok stack -> wav_file fl nch tags n -> Z.of_nat nch < 2 ^ 15 ->
  let len := n / 2 / Z.of_nat nch in
  begins (fsize fl) ((44 + tags) / 2) len nch ps pb p0 -> 0 <= p0 < len -> last_held (r_cfg r) fl ((44 + tags) / 2 + p0 * Z.of_nat nch) ->
  grid_rate (r_rate r) -> (R64 (r_rate r) < 0)%R -> ((- R64 (r_rate r) + 1) * INR nch <= IZR (2 ^ 30))%R ->
  exists r', r_play_file r (Some fl) true nraw stack garbage = Ok (true, r') /\ r_playing r' = true /\ forall calls, calls = [] \/ calls = [SLoopType LNone] ->
    forall ns, exists fuel r2, session fuel r' (calls ++ reads ns) =
      Ok (map (fun _ => []) calls ++ blocks_spec (file_back fl ((44 + tags) / 2) nch p0 (- R64 (r_rate r))) 0 ns, r2) /\ misses r2 = 0.
Proof.
  intros r fl nch tags n nraw stack garbage ps pb p0 C K BSET BST WF NB len BG PB LH G P U.
  destruct (play_wav_open r fl nch tags n nraw stack garbage K BST WF NB) as (r1 & E & CC & NC & HC & SC & FC & RC & SS).
  destruct (wav_file_plays fl nch tags n WF) as (_ & _ & _ & E2 & N0).
  destruct WF as (_ & _ & _ & _ & N1 & _ & _ & T0 & SZ & SL).
  rewrite <- RC in G, P, U |- *. rewrite <- CC in C, LH.
  assert (LN : 0 <= len) by (unfold len; apply Z.div_pos; [apply Z.div_pos|]; lia).
  assert (L2 : 2 * (len * Z.of_nat nch) <= n).
  { unfold len. pose proof (Z.mul_div_le n 2 ltac:(lia)).
    pose proof (Z.mul_div_le (n / 2) (Z.of_nat nch) ltac:(lia)). lia. }
  apply (back_held_open r r1 fl true nraw stack garbage (n / 2) nch ((44 + tags) / 2) len (44 + tags) garbage ps pb p0); auto; try congruence.
  - now apply (settings_same r).
  - apply Z.div_pos; lia.
  - unfold file_holds, fits. repeat split; auto; lia.
Qed.

Theorem raw_back_alone : forall r fl nch stack garbage ps pb p0, cfg_ok (r_cfg r) -> r_kind r <> KArray ->
  basic_settings r LNone ps pb -> r_hdr r = 0 -> (1 <= nch)%nat -> Z.of_nat nch < 2 ^ 15 -> 0 < fsize fl < 2 ^ 31 ->
  let len := fsize fl / 2 / Z.of_nat nch in
  begins (fsize fl) 0 len nch ps pb p0 -> 0 <= p0 < len -> last_held (r_cfg r) fl (p0 * Z.of_nat nch) ->
  grid_rate (r_rate r) -> (R64 (r_rate r) < 0)%R -> ((- R64 (r_rate r) + 1) * INR nch <= IZR (2 ^ 30))%R ->
  exists r', r_play_file r (Some fl) false (Z.of_nat nch) stack garbage = Ok (true, r') /\ plays_alone r' (file_back fl 0 nch p0 (- R64 (r_rate r))).
Proof.
  intros r fl nch stack garbage ps pb p0 C K BSET HH N1 NB S len BG PB LH G P U.
  destruct (raw_back_held r fl nch stack garbage ps pb p0 C K BSET HH N1 NB S BG PB LH G P U) as (r' & E & _ & H).
  exists r'. split; [exact E|]. intro ns. destruct (H [] (or_introl eq_refl) ns) as (F & r2 & Q & M). exists F, r2.
  cbn [app map] in Q. rewrite reads_session in Q. auto.
Qed.

Theorem wav_back_alone : forall r fl nch tags n nraw stack garbage ps pb p0, cfg_ok (r_cfg r) -> r_kind r <> KArray ->
  basic_settings r LNone ps pb -> bytes_ok stack -> wav_file fl nch tags n -> Z.of_nat nch < 2 ^ 15 ->
  let len := n / 2 / Z.of_nat nch in
  begins (fsize fl) ((44 + tags) / 2) len nch ps pb p0 -> 0 <= p0 < len -> last_held (r_cfg r) fl ((44 + tags) / 2 + p0 * Z.of_nat nch) ->
  grid_rate (r_rate r) -> (R64 (r_rate r) < 0)%R -> ((- R64 (r_rate r) + 1) * INR nch <= IZR (2 ^ 30))%R ->
  exists r', r_play_file r (Some fl) true nraw stack garbage = Ok (true, r') /\ plays_alone r' (file_back fl ((44 + tags) / 2) nch p0 (- R64 (r_rate r))).
Proof.
  intros r fl nch tags n nraw stack garbage ps pb p0 C K BSET BST WF NB len BG PB LH G P U.
  destruct (wav_back_held r fl nch tags n nraw stack garbage ps pb p0 C K BSET BST WF NB BG PB LH G P U) as (r' & E & _ & H).
  exists r'. split; [exact E|]. intro ns. destruct (H [] (or_introl eq_refl) ns) as (F & r2 & Q & M). exists F, r2.
  cbn [app map] in Q. rewrite reads_session in Q. auto.
Qed.
