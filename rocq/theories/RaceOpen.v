(* Interrupted reloads, from the public entry points *)

From Coq Require Import ZArith Lia List Bool Reals Lra.
From RecordUpdate Require Import RecordUpdate.
From Flocq Require Import Core.Core IEEE754.BinarySingleNaN.
From Verif Require Import Machine Floats FloatFacts WavModel InterpModel CacheModel ReaderModel
  ReaderFacts ReaderSpec Sessions StreamFacts Walk ForwardProofs PlayProofs CacheFacts CacheSpec CacheProofs WavSpec WavProofs WavPlayProofs
  FileSpec WindowProofs FileProofs FilePlay FileForward RaceModel RaceProofs RaceSpec RaceCache RacePlay RaceFile.
Import ListNotations.
Local Open Scope Z_scope.

Lemma windowed_racing : forall c fl J m r, windowed c fl J m None r -> racing c fl in_use J AtEnd r.
Proof.
  intros c fl J m r (f & SF & W & (M & J0 & J1 & CV) & MK & _). exists f. split; [exact SF|].
  destruct W as [W1 W2 W3 W4 W5 W6 W7].
  split; [repeat split; auto|]. split; [exact W3|]. split; [lia|]. split; [exact J1|]. exists J. split; [lia|].
  split; [exact W7|]. apply Forall_forall. intros b I _. apply In_nth_error in I. destruct I as (t & N).
  pose proof (MK t b N) as S. cbn in S. rewrite S. discriminate.
Qed.

Lemma race_open : forall r fl fsam nch h len p garbage ps pb, cfg_ok (r_cfg r) ->
  basic_settings r LNone ps pb -> r_nch r = Z.of_nat nch -> r_hdr r = h -> r_fsize r = fsize fl ->
  r_fsamples r = fsam -> 0 <= fsam -> len = fsam / Z.of_nat nch -> file_holds fl h len nch ->
  (ps = PArbitrary -> 0 <= pb <= len) ->
  grid_rate (r_rate r) -> (0 <= R64 (r_rate r))%R -> ((R64 (r_rate r) + 1) * INR nch <= IZR (2 ^ 30))%R ->
  exists r', play_open r fl p garbage = Ok (true, r') /\
    only_gaps r' (file_pitch fl h len nch (start_frame ps pb) (R64 (r_rate r))).
Proof.
  intros r fl fsam nch h len p garbage ps pb C BSET NC HH FZ FQ FQ0 LEN FH PB G P U.
  set (p0 := start_frame ps pb). set (x := R64 (r_rate r)).
  destruct (open_state r fl fsam nch h len p garbage LNone ps pb C BSET NC HH FZ FQ FQ0 LEN FH PB (fun _ => eq_refl) (proj1 G) P)
    as (r' & g & E & PL & RT & FS & LP & RM & PS & PO & _ & _ & SR & W).
  specialize (W eq_refl). destruct W as (m & W).
  exists r'. split; [exact E|]. intros ns outs r2 p2 RUN. fold p0 in PO, W.
  assert (P0 : 0 <= p0) by (unfold p0, start_frame; destruct ps; [lia|lia|apply (PB eq_refl)]).
  assert (FS2 : fsize fl <= 2 ^ 31) by (destruct FH as (_ & Q & _); lia).
  assert (Z00 : Zfloor (INR 0 * x) = 0) by (cbn [INR]; rewrite Rmult_0_l; change 0%R with (IZR 0); apply Zfloor_IZR).
  assert (ZP : forall k, 0 <= Zfloor (INR k * x)).
  { intros k. apply Zfloor_lub. apply Rmult_le_pos; [apply pos_INR|auto]. }
  assert (I0 : fwd_inv h len nch p0 (r_rate r) 0 r').
  { destruct BSET as (_ & _ & _ & _ & _ & B6 & B7). constructor; auto.
    - now rewrite RM.
    - rewrite RM, B7. fold x. rewrite Z00. cbn [INR]. lra.
    - rewrite PO. fold x. rewrite Z00, Z.add_0_r. reflexivity. }
  assert (XU : (x <= IZR (2 ^ 30))%R).
  { destruct FH as ((_ & _ & _ & N1 & _) & _). assert (1 <= INR nch)%R by (change 1%R with (INR 1); now apply le_INR).
    unfold x in *. nra. }
  pose proof FH as ((F1 & F2 & F3 & F4 & F5) & FE & FL).
  assert (IXB : forall k i, fwd_idx len p0 x k = Some i -> i = p0 + Zfloor (INR k * x) /\ i < len).
  { intros k i E'. unfold fwd_idx in E'. destruct (Z.ltb_spec (p0 + Zfloor (INR k * x)) len); [|discriminate].
    apply Some_inj in E'. subst i. auto. }
  assert (INF : forall k i, fwd_idx len p0 x k = Some i -> frame_file fl nch (h + i * Z.of_nat nch)).
  { intros k i E'. apply IXB in E'. destruct E' as [-> L]. pose proof (ZP k). unfold frame_file. nia. }
  assert (MONO : forall k k' i i', (k <= k')%nat -> fwd_idx len p0 x k = Some i -> fwd_idx len p0 x k' = Some i' -> i <= i').
  { intros k k' i i' K E1 E2. apply IXB in E1, E2. destruct E1 as [-> _], E2 as [-> _].
    pose proof (floor_mono x k k' P K). lia. }
  pose proof (fwd_walk h len nch p0 (r_rate r) (proj1 FH) G P P0 U) as WK.
  assert (FWD : forall k q, fwd_inv h len nch p0 (r_rate r) k q -> fle f0 (f_of_d (r_rate q)) = true).
  { intros k q HI. rewrite (fw_rate _ _ _ _ _ _ _ HI). apply rate_single_sign; [apply G|]. split; auto. }
  assert (PO0 : playing_on (r_cfg r) fl h nch (fwd_inv h len nch p0 (r_rate r)) (fwd_idx len p0 x) 0 (r', None)).
  { split; [exact I0|]. split; [|exact Logic.I]. exists (blk (r_cfg r) (h + p0 * Z.of_nat nch)).
    split; [eapply windowed_racing; eauto|]. intros k' i _ E'. apply IXB in E'. destruct E' as [-> _].
    apply blk_mono; [exact C|]. pose proof (ZP k'). nia. }
  destruct (race_session (r_cfg r) fl h nch C FS2 _ _ WK FWD INF MONO _ _ _ _ RUN 0%nat PO0) as [SG PO'].
  destruct (race_live (r_cfg r) fl h nch C FS2 _ _ WK INF MONO _ _ PO') as [L1 L2].
  split; [|split; [exact L1|exact L2]].
  cbn [fst] in SG. erewrite blocks_ext; [exact SG|]. intro k. unfold fwd_idx, file_pitch. destruct (_ <? _); reflexivity.
Qed.

Lemma raw_race : forall r fl nch stack garbage ps pb, cfg_ok (r_cfg r) -> r_kind r <> KArray ->
  basic_settings r LNone ps pb -> r_hdr r = 0 -> (1 <= nch)%nat -> Z.of_nat nch < 2 ^ 15 -> 0 < fsize fl < 2 ^ 31 ->
  let len := fsize fl / 2 / Z.of_nat nch in
  (ps = PArbitrary -> 0 <= pb <= len) ->
  grid_rate (r_rate r) -> (0 <= R64 (r_rate r))%R -> ((R64 (r_rate r) + 1) * INR nch <= IZR (2 ^ 30))%R ->
  exists r', r_play_file r (Some fl) false (Z.of_nat nch) stack garbage = Ok (true, r') /\
    only_gaps r' (file_pitch fl 0 len nch (start_frame ps pb) (R64 (r_rate r))).
Proof.
  intros r fl nch stack garbage ps pb C K BSET HH N1 NB S len PB G P U.
  destruct (play_raw_open r fl (Z.of_nat nch) stack garbage K ltac:(lia) ltac:(lia)) as (r1 & E & CC & NC & HC & SC & FC & RC & SS).
  rewrite E. rewrite <- RC in G, P, U |- *. rewrite <- CC in C.
  assert (LN : 0 <= len) by (unfold len; apply Z.div_pos; [apply Z.div_pos|]; lia).
  assert (L2 : 2 * (len * Z.of_nat nch) <= fsize fl).
  { unfold len. pose proof (Z.mul_div_le (fsize fl) 2 ltac:(lia)).
    pose proof (Z.mul_div_le (fsize fl / 2) (Z.of_nat nch) ltac:(lia)). lia. }
  apply (race_open r1 fl (fsize fl / 2) nch 0 len 0 garbage ps pb); auto; try congruence.
  - now apply (settings_same r).
  - apply Z.div_pos; lia.
  - unfold file_holds, fits. repeat split; auto; lia.
Qed.

Lemma wav_race : forall r fl nch tags n nraw stack garbage ps pb, cfg_ok (r_cfg r) -> r_kind r <> KArray ->
  basic_settings r LNone ps pb -> bytes_ok stack -> wav_file fl nch tags n -> Z.of_nat nch < 2 ^ 15 ->
  let len := n / 2 / Z.of_nat nch in
  (ps = PArbitrary -> 0 <= pb <= len) ->
  grid_rate (r_rate r) -> (0 <= R64 (r_rate r))%R -> ((R64 (r_rate r) + 1) * INR nch <= IZR (2 ^ 30))%R ->
  exists r', r_play_file r (Some fl) true nraw stack garbage = Ok (true, r') /\
    only_gaps r' (file_pitch fl ((44 + tags) / 2) len nch (start_frame ps pb) (R64 (r_rate r))).
Proof.
  intros r fl nch tags n nraw stack garbage ps pb C K BSET BST WF NB len PB G P U.
  destruct (play_wav_open r fl nch tags n nraw stack garbage K BST WF NB) as (r1 & E & CC & NC & HC & SC & FC & RC & SS).
  destruct (wav_file_plays fl nch tags n WF) as (_ & _ & _ & E2 & N0).
  destruct WF as (_ & _ & _ & _ & N1 & _ & _ & T0 & SZ & SL).
  rewrite E. rewrite <- RC in G, P, U |- *. rewrite <- CC in C.
  assert (LN : 0 <= len) by (unfold len; apply Z.div_pos; [apply Z.div_pos|]; lia).
  assert (L2 : 2 * (len * Z.of_nat nch) <= n).
  { unfold len. pose proof (Z.mul_div_le n 2 ltac:(lia)).
    pose proof (Z.mul_div_le (n / 2) (Z.of_nat nch) ltac:(lia)). lia. }
  apply (race_open r1 fl (n / 2) nch ((44 + tags) / 2) len (44 + tags) garbage ps pb); auto; try congruence.
  - now apply (settings_same r).
  - apply Z.div_pos; lia.
  - unfold file_holds, fits. repeat split; auto; lia.
Qed.
