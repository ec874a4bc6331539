(* Playback that has got ahead of the buffers, from the public entry points *)

From Coq Require Import ZArith Lia List Bool Reals Lra.
From RecordUpdate Require Import RecordUpdate.
From Flocq Require Import Core.Core IEEE754.BinarySingleNaN.
From Verif Require Import Machine Floats FloatFacts WavModel InterpModel CacheModel ReaderModel
  ReaderFacts ReaderSpec Sessions StreamFacts Walk ForwardProofs PlayProofs CacheFacts CacheSpec CacheProofs WavSpec WavProofs WavPlayProofs
  FileSpec WindowProofs FileProofs FilePlay FileForward RaceModel RaceProofs RaceSpec RaceCache RacePlay RaceFile RaceOpen
  BumpProofs LateCache MirrorProofs LateFile LateSpec.
Import ListNotations.
Local Open Scope Z_scope.

(* ---- lengths -------------------------------------------------------------------------- *)

Lemma summed_length : forall A B (R : Z -> A -> B -> Prop) k l l', summed R k l l' -> length l = length l'.
Proof. intros A B R k l l' H. induction H; cbn; congruence. Qed.

Lemma session_length : forall k bs outs, session_gaps k bs outs -> length (concat bs) = length (concat outs).
Proof.
  intros k bs outs H. induction H as [|k n a b l l' HB H IH]; [reflexivity|]. cbn [concat]. rewrite !app_length, IH.
  now rewrite (summed_length _ _ _ _ _ _ HB).
Qed.

(* ---- the buffers during interrupted reloads ------------------------------------------- *)

Definition reaching_src (c : ccfg) (fl : file) (r : reader) : Prop := exists f, r_src r = SFile f /\ reaching c fl f.

Lemma gets_reaching : forall c fl f g, gets f g -> reaching c fl f -> reaching c fl g.
Proof. intros c fl f g H. induction H; auto. intro R. apply IHgets. now apply reaching_get. Qed.

Section S.
Variables (c : ccfg) (fl : file) (h : Z) (nch : nat).
Hypothesis C : cfg_ok c.
Hypothesis FS : fsize fl <= 2 ^ 31.

Let N := Z.of_nat (c_nbuf c).
Let first i := h + i * Z.of_nat nch.
Let fblk i := blk c (first i).

Variables (I : nat -> reader -> Prop) (idx : nat -> option Z).
Hypothesis WK : walk h nch I idx.
Hypothesis FWD : forall k r, I k r -> fle f0 (f_of_d (r_rate r)) = true.
Hypothesis INF : forall k i, idx k = Some i -> frame_file fl nch (first i).
Hypothesis MONO : forall k k' i i', (k <= k')%nat -> idx k = Some i -> idx k' = Some i' -> i <= i'.

Let out : stream := fun k => option_map (file_frame fl h nch) (idx k).

Lemma race_reaching : forall s ns outs t, crun s ns outs t -> forall k, playing_on c fl h nch I idx k s ->
  reaching_src c fl (fst s) -> reaching_src c fl (fst t).
Proof.
  intros s ns outs t H. induction H as [s|s t u ns outs H H' IH|s t u n fs ns outs H H' IH]; intros k PO RS; auto.
  - destruct (race_sketch c fl h nch C FS I idx WK FWD s t k H PO) as [PO' _]. apply (IH k PO'). clear IH H' PO'.
    remember (@None (nat * list (list Z))) as e. destruct H; try discriminate; cbn [fst snd] in *; auto.
    destruct RS as (g & SF & R). rewrite H in SF. injection SF as <-.
    destruct PO as (_ & (Q & (g & SF & W) & _) & _). cbn [fst snd at_phase] in *. rewrite H in SF. injection SF as <-.
    exists f'. split; [reflexivity|]. exact (reaching_step c fl C x pbr _ _ Q H0 W R).
  - remember (Some (n, fs)) as e. destruct H as [| | |fuel n' r p fs' r' R]; try discriminate. injection Heqe as -> ->.
    destruct (race_read c fl h nch C FS I idx WK INF MONO n k _ PO) as (F & fs2 & r2 & E & PO' & G). cbn [fst snd] in *.
    assert (EQ : (fs2, r2) = (fs, r')).
    { apply Ok_inj. rewrite <- (r_read_fuel F (F + fuel) _ _ _ ltac:(lia) E). apply (r_read_fuel fuel (F + fuel)); [lia|exact R]. }
    injection EQ as -> ->. apply (IH _ PO'). destruct RS as (f & SF & RF).
    unfold r_read in R. destruct (negb (r_playing r)); [apply Ok_inj in R; assert (r' = r) by congruence; subst; exists f; auto|].
    destruct (r_nch r <? 0); [discriminate|]. apply loop_gets in R. rewrite SF in R. inversion R as [| |f1 g HG]; subst. exists g. split; [auto|].
    eapply gets_reaching; eauto.
Qed.

(* One complete reload *)
Lemma settle_reload : forall k r, playing_on c fl h nch I idx k (r, None) -> reaching_src c fl r ->
  exists F r' J m, (forall extra, r_triggerReload (F + extra) r = Ok r') /\ misses r' = misses r /\ I k r' /\
    late c fl J m r' /\ behind c h nch idx J k.
Proof.
  intros k r (HI & (Q & (f & SF & A) & BH) & _) (g & SG & RC). cbn [fst snd at_phase] in *.
  rewrite SF in SG. injection SG as <-.
  destruct A as ([[HC HF] HH] & LP & NB & BQ & j & JQ & CO & KP).
  set (g := f <| i_fails := 0 |>).
  assert (FB : f = bump_file (i_fails f) g) by (unfold bump_file, g; destruct f; reflexivity).
  assert (W : win c fl j (length (i_bufs f)) g).
  { constructor; auto. }
  pose proof (BS_pos _ C) as HB.
  assert (WO : win_ok c fl j (length (i_bufs f))).
  { split; [exact NB|]. split; [lia|]. split; [nia|]. destruct RC as [RC|(b & IB & RC)]; [auto|right].
    pose proof (consec_ge _ _ _ _ _ CO IB). nia. }
  destruct (split_used (i_bufs f)) as (l1 & l2 & EL & U & FR).
  assert (JL : j + Z.of_nat (length l1) <= Q).
  { destruct (Z.le_gt_cases (j + Z.of_nat (length l1)) Q); [auto|exfalso].
    set (t := Z.to_nat (Q - j)). assert (TL : (t < length l1)%nat) by (unfold t; lia).
    destruct (nth_error l1 t) as [b|] eqn:NE; [|apply nth_error_None in NE; lia].
    assert (NE' : nth_error (i_bufs f) t = Some b) by (rewrite EL, nth_error_app1; auto).
    destruct (CO t b NE') as [X _].
    unfold kept in KP. rewrite Forall_forall in KP, U.
    apply (KP b (nth_error_In _ _ NE')); [unfold t in X; lia|]. apply U. eapply nth_error_In; eauto. }
  assert (SF' : r_src r = SFile (bump_file (i_fails f) g)) by (rewrite <- FB; exact SF).
  destruct (late_reload c fl h nch C FS I idx WK FWD k r (i_fails f) g j (length (i_bufs f)) l1 l2 HI SF' W WO EL U FR ltac:(nia))
    as (F & r' & E & HI' & LT & MS).
  exists F, r', (j + Z.of_nat (length l1)), (length (i_bufs f)). repeat (split; [assumption|]).
  intros k' i K E'. eapply Z.le_trans; [exact JL|exact (BH k' i K E')].
Qed.
End S.

Lemma late_open : forall r fl fsam nch h len p garbage ps pb B, cfg_ok (r_cfg r) ->
  basic_settings r LNone ps pb -> r_nch r = Z.of_nat nch -> r_hdr r = h -> r_fsize r = fsize fl ->
  r_fsamples r = fsam -> 0 <= fsam -> len = fsam / Z.of_nat nch -> file_holds fl h len nch ->
  (ps = PArbitrary -> 0 <= pb <= len) ->
  grid_rate (r_rate r) -> (0 <= R64 (r_rate r))%R -> ((R64 (r_rate r) + 1) * INR nch <= IZR (2 ^ 30))%R ->
  keeps_up (r_cfg r) nch B (R64 (r_rate r)) ->
  exists r', play_open r fl p garbage = Ok (true, r') /\
    recovers B r' (fun k => h + (start_frame ps pb + Zfloor (INR k * R64 (r_rate r))) * Z.of_nat nch)
      (file_pitch fl h len nch (start_frame ps pb) (R64 (r_rate r))).
Proof.
  intros r fl fsam nch h len p garbage ps pb B C BSET NC HH FZ FQ FQ0 LEN FH PB G P U KU.
  set (p0 := start_frame ps pb). set (x := R64 (r_rate r)).
  destruct (open_state r fl fsam nch h len p garbage LNone ps pb C BSET NC HH FZ FQ FQ0 LEN FH PB (fun _ => eq_refl) (proj1 G) P)
    as (r' & g & E & PL & RT & FS & LP & RM & PS & PO & _ & _ & SR & W).
  specialize (W eq_refl). destruct W as (m & W).
  exists r'. split; [exact E|]. intros ns outs r2 RUN kk. fold p0 in PO, W.
  assert (P0 : 0 <= p0) by (unfold p0, start_frame; destruct ps; [lia|lia|apply (PB eq_refl)]).
  assert (FS2 : fsize fl <= 2 ^ 31) by (destruct FH as (_ & Q & _); lia).
  assert (Z00 : Zfloor (INR 0 * x) = 0) by (cbn [INR]; rewrite Rmult_0_l; change 0%R with (IZR 0); apply Zfloor_IZR).
  assert (ZP : forall k, 0 <= Zfloor (INR k * x)).
  { intros k. apply Zfloor_lub. apply Rmult_le_pos; [apply pos_INR|auto]. }
  assert (I0 : fwd_inv h len nch p0 (r_rate r) 0 r').
  { destruct BSET as (_ & _ & _ & _ & _ & B6 & B7). constructor; auto.
    - now rewrite RM.
    - rewrite RM, B7. fold x. rewrite Z00. cbn [INR]. lra.
    - rewrite PO. fold x. rewrite Z00, Z.add_0_r. reflexivity. }
  pose proof FH as ((F1 & F2 & F3 & F4 & F5) & FE & FL).
  assert (IXB : forall k i, fwd_idx len p0 x k = Some i -> i = p0 + Zfloor (INR k * x) /\ i < len).
  { intros k i E'. unfold fwd_idx in E'. destruct (Z.ltb_spec (p0 + Zfloor (INR k * x)) len); [|discriminate].
    apply Some_inj in E'. subst i. auto. }
  assert (INF : forall k i, fwd_idx len p0 x k = Some i -> frame_file fl nch (h + i * Z.of_nat nch)).
  { intros k i E'. apply IXB in E'. destruct E' as [-> L]. pose proof (ZP k). unfold frame_file. nia. }
  assert (MONO : forall k k' i i', (k <= k')%nat -> fwd_idx len p0 x k = Some i -> fwd_idx len p0 x k' = Some i' -> i <= i').
  { intros k k' i i' K E1 E2. apply IXB in E1, E2. destruct E1 as [-> _], E2 as [-> _].
    pose proof (floor_mono x k k' P K). lia. }
  assert (DONE : forall k k', (k <= k')%nat -> fwd_idx len p0 x k = None -> fwd_idx len p0 x k' = None).
  { intros k k' K E'. unfold fwd_idx in *. pose proof (floor_mono x k k' P K).
    destruct (Z.ltb_spec (p0 + Zfloor (INR k * x)) len); [discriminate|]. destruct (Z.ltb_spec (p0 + Zfloor (INR k' * x)) len); [lia|reflexivity]. }
  pose proof (BS_pos _ C) as HB. assert (NB1 : (1 <= c_nbuf (r_cfg r))%nat) by apply C.
  assert (ADV : forall k n i i', (n <= B)%nat -> fwd_idx len p0 x k = Some i -> fwd_idx len p0 x (k + n) = Some i' ->
    blk (r_cfg r) (h + i' * Z.of_nat nch) <= blk (r_cfg r) (h + i * Z.of_nat nch) + Z.of_nat (c_nbuf (r_cfg r)) - 1).
  { intros k n i i' NB E1 E2. destruct (Nat.eq_dec n 0) as [->|N0].
    - rewrite Nat.add_0_r in E2. assert (i' = i) by congruence. subst. lia.
    - pose proof (KU k (k + n)%nat ltac:(lia)) as KU'. fold x in KU'. apply IXB in E1, E2. destruct E1 as [-> _], E2 as [-> _].
      replace (h + (p0 + Zfloor (INR (k + n) * x)) * Z.of_nat nch)
        with (h + (p0 + Zfloor (INR k * x)) * Z.of_nat nch + (Zfloor (INR (k + n) * x) - Zfloor (INR k * x)) * Z.of_nat nch) by lia.
      set (a := h + (p0 + Zfloor (INR k * x)) * Z.of_nat nch). set (d := (Zfloor (INR (k + n) * x) - Zfloor (INR k * x)) * Z.of_nat nch).
      assert (D : d <= (Z.of_nat (c_nbuf (r_cfg r)) - 1) * BS (r_cfg r)) by (unfold d; nia).
      unfold blk. replace (a / BS (r_cfg r) + Z.of_nat (c_nbuf (r_cfg r)) - 1)
        with ((a + (Z.of_nat (c_nbuf (r_cfg r)) - 1) * BS (r_cfg r)) / BS (r_cfg r)) by (rewrite Z.div_add by lia; lia).
      apply Z.div_le_mono; lia. }
  pose proof (fwd_walk h len nch p0 (r_rate r) (proj1 FH) G P P0 U) as WK. fold x in WK.
  assert (FWD : forall k q, fwd_inv h len nch p0 (r_rate r) k q -> fle f0 (f_of_d (r_rate q)) = true).
  { intros k q HI. rewrite (fw_rate _ _ _ _ _ _ _ HI). apply rate_single_sign; [apply G|]. split; auto.
    assert (1 <= INR nch)%R by (change 1%R with (INR 1); now apply le_INR). fold x. fold x in U, P. nra. }
  assert (PO0 : playing_on (r_cfg r) fl h nch (fwd_inv h len nch p0 (r_rate r)) (fwd_idx len p0 x) 0 (r', None)).
  { split; [exact I0|]. split; [|exact Logic.I]. exists (blk (r_cfg r) (h + p0 * Z.of_nat nch)).
    split; [eapply windowed_racing; eauto|]. intros k' i _ E'. apply IXB in E'. destruct E' as [-> _].
    apply blk_mono; [exact C|]. pose proof (ZP k'). nia. }
  assert (RS0 : reaching_src (r_cfg r) fl r').
  { destruct W as (f & SF & W & (M & J0 & J1 & CV) & _). exists f. split; [exact SF|]. destruct CV as [CV|CV].
    - left. rewrite (wi_len _ _ _ _ _ W). exact CV.
    - right. destruct (nth_error (i_bufs f) (Nat.pred m)) as [b|] eqn:NE.
      + exists b. split; [eapply nth_error_In; eauto|]. rewrite (proj1 (wi_idx _ _ _ _ _ W _ _ NE)). nia.
      + apply nth_error_None in NE. rewrite (wi_len _ _ _ _ _ W) in NE. lia. }
  set (out := fun k => option_map (file_frame fl h nch) (fwd_idx len p0 x k)).
  assert (OX : forall k, out k = file_pitch fl h len nch p0 x k) by (intro k; unfold out, fwd_idx, file_pitch; destruct (_ <? _); reflexivity).
  destruct (race_session (r_cfg r) fl h nch C FS2 _ _ WK FWD INF MONO _ _ _ _ RUN 0%nat PO0) as [SG PO'].
  pose proof (race_reaching (r_cfg r) fl h nch C FS2 _ _ WK FWD INF MONO _ _ _ _ RUN 0%nat PO0 RS0) as RS. cbn [fst] in RS.
  apply session_length in SG. rewrite SG in PO'. fold kk in PO'. cbn [Nat.add] in PO'.
  destruct (settle_reload (r_cfg r) fl h nch C FS2 _ _ WK FWD kk r2 PO' RS) as (F & r3 & J & m3 & ER & MS & HI & LT & BH).
  exists (F + 0)%nat, r3. split; [apply ER|]. split; [exact MS|].
  intros L ns' WI LN FN.
  assert (LG : lags (r_cfg r) h nch (fwd_idx len p0 x) L J m3 kk).
  { intros i E'. assert (OK : file_pitch fl h len nch p0 x kk <> None) by (rewrite <- OX; unfold out; rewrite E'; discriminate).
    destruct (WI OK) as (f & b & SF & IB & LE). destruct LT as (v & f' & SF' & W' & _). rewrite SF in SF'. injection SF' as ->.
    destruct (In_nth_error _ _ IB) as (t & NT).
    assert (T : (t < length (i_bufs f'))%nat) by (apply nth_error_Some; cbn in NT; congruence).
    rewrite (wi_len _ _ _ _ _ W') in T. rewrite (proj1 (wi_idx _ _ _ _ _ W' t b NT)) in LE.
    cbn in LE. rewrite (wi_cfg _ _ _ _ _ W') in LE. apply IXB in E'. destruct E' as [-> _]. lia. }
  destruct (catch_up (r_cfg r) fl h nch C FS2 _ _ WK FWD INF MONO B ADV L J m3 kk r3 ns' HI LT BH LG LN FN)
    as (F' & bs & r4 & J' & k0 & ES & SG4 & HI4 & LT4 & T).
  exists F', bs, r4. split; [exact ES|].
  assert (SG5 : session_gaps (misses r4 - misses r3) (blocks_spec (fun j => file_pitch fl h len nch p0 x (kk + j)%nat) 0 ns') bs).
  { rewrite <- blocks_shift, Nat.add_0_r. erewrite blocks_ext; [exact SG4|]. intro k. symmetry. apply OX. }
  split; [exact SG5|].
  apply session_length in SG4. rewrite SG4 in HI4, T.
  assert (FD : file_delivers B r4 (fun t => out (kk + length (concat bs) + t)%nat)).
  { eapply (caught_up (r_cfg r) fl h nch C FS2 _ _ WK FWD B J' m3); eauto. intros ns2 FN2.
    destruct T as [T|(i0 & T1 & -> & T3)].
    - eapply done_sched; eauto.
    - apply IXB in T1. destruct T1 as [-> _]. apply (fwd_sched (r_cfg r) fl h len nch p0 x B C FH P0 P KU); auto. }
  intros ns2 FN2. destruct (FD ns2 FN2) as (F5' & r5 & E5 & M5). exists F5', r5. split; [|exact M5].
  rewrite E5. do 2 f_equal. apply blocks_ext. intro k. apply OX.
Qed.

Lemma raw_late : forall r fl nch stack garbage ps pb B, cfg_ok (r_cfg r) -> r_kind r <> KArray ->
  basic_settings r LNone ps pb -> r_hdr r = 0 -> (1 <= nch)%nat -> Z.of_nat nch < 2 ^ 15 -> 0 < fsize fl < 2 ^ 31 ->
  let len := fsize fl / 2 / Z.of_nat nch in
  (ps = PArbitrary -> 0 <= pb <= len) ->
  grid_rate (r_rate r) -> (0 <= R64 (r_rate r))%R -> ((R64 (r_rate r) + 1) * INR nch <= IZR (2 ^ 30))%R ->
  keeps_up (r_cfg r) nch B (R64 (r_rate r)) ->
  exists r', r_play_file r (Some fl) false (Z.of_nat nch) stack garbage = Ok (true, r') /\
    recovers B r' (fun k => 0 + (start_frame ps pb + Zfloor (INR k * R64 (r_rate r))) * Z.of_nat nch)
      (file_pitch fl 0 len nch (start_frame ps pb) (R64 (r_rate r))).
Proof.
  intros r fl nch stack garbage ps pb B C K BSET HH N1 NB S len PB G P U KU.
  destruct (play_raw_open r fl (Z.of_nat nch) stack garbage K ltac:(lia) ltac:(lia)) as (r1 & E & CC & NC & HC & SC & FC & RC & SS).
  rewrite E. rewrite <- RC in G, P, U, KU |- *. rewrite <- CC in C, KU.
  assert (LN : 0 <= len) by (unfold len; apply Z.div_pos; [apply Z.div_pos|]; lia).
  assert (L2 : 2 * (len * Z.of_nat nch) <= fsize fl).
  { unfold len. pose proof (Z.mul_div_le (fsize fl) 2 ltac:(lia)).
    pose proof (Z.mul_div_le (fsize fl / 2) (Z.of_nat nch) ltac:(lia)). lia. }
  apply (late_open r1 fl (fsize fl / 2) nch 0 len 0 garbage ps pb); auto; try congruence.
  - now apply (settings_same r).
  - apply Z.div_pos; lia.
  - unfold file_holds, fits. repeat split; auto; lia.
Qed.

Lemma wav_late : forall r fl nch tags n nraw stack garbage ps pb B, cfg_ok (r_cfg r) -> r_kind r <> KArray ->
  basic_settings r LNone ps pb -> bytes_ok stack -> wav_file fl nch tags n -> Z.of_nat nch < 2 ^ 15 ->
  let len := n / 2 / Z.of_nat nch in
  (ps = PArbitrary -> 0 <= pb <= len) ->
  grid_rate (r_rate r) -> (0 <= R64 (r_rate r))%R -> ((R64 (r_rate r) + 1) * INR nch <= IZR (2 ^ 30))%R ->
  keeps_up (r_cfg r) nch B (R64 (r_rate r)) ->
  exists r', r_play_file r (Some fl) true nraw stack garbage = Ok (true, r') /\
    recovers B r' (fun k => (44 + tags) / 2 + (start_frame ps pb + Zfloor (INR k * R64 (r_rate r))) * Z.of_nat nch)
      (file_pitch fl ((44 + tags) / 2) len nch (start_frame ps pb) (R64 (r_rate r))).
Proof.
  intros r fl nch tags n nraw stack garbage ps pb B C K BSET BST WF NB len PB G P U KU.
  destruct (play_wav_open r fl nch tags n nraw stack garbage K BST WF NB) as (r1 & E & CC & NC & HC & SC & FC & RC & SS).
  destruct (wav_file_plays fl nch tags n WF) as (_ & _ & _ & E2 & N0).
  destruct WF as (_ & _ & _ & _ & N1 & _ & _ & T0 & SZ & SL).
  rewrite E. rewrite <- RC in G, P, U, KU |- *. rewrite <- CC in C, KU.
  assert (LN : 0 <= len) by (unfold len; apply Z.div_pos; [apply Z.div_pos|]; lia).
  assert (L2 : 2 * (len * Z.of_nat nch) <= n).
  { unfold len. pose proof (Z.mul_div_le n 2 ltac:(lia)).
    pose proof (Z.mul_div_le (n / 2) (Z.of_nat nch) ltac:(lia)). lia. }
  apply (late_open r1 fl (n / 2) nch ((44 + tags) / 2) len (44 + tags) garbage ps pb); auto; try congruence.
  - now apply (settings_same r).
  - apply Z.div_pos; lia.
  - unfold file_holds, fits. repeat split; auto; lia.
Qed.
