(* Any number of file players used forwards (C117). *)

From Coq Require Import ZArith Lia List Bool Reals Lra.
From RecordUpdate Require Import RecordUpdate.
From Flocq Require Import Core.Core IEEE754.BinarySingleNaN.
From Verif Require Import Machine Floats FloatFacts WavModel WavSpec WavProofs WavPlayProofs InterpModel CacheModel CacheFacts CacheSpec CacheProofs CacheFinal
  ReaderModel ReaderFacts ReaderSpec Walk ForwardProofs LifeProofs FileSpec WindowProofs FileProofs FilePlay FileForward FadeSpec FadeProofs FadeLoop CubicProofs QuadProofs
  InterpSafe TrackPlay ReelProofs ReelOpen FileSafe ResponderModel ResponderSpec QueueProofs PlayerModel LifeSpec WorldProofs ScheduleProofs StageProofs
  SketchProofs SketchArray SketchFile ManySpec.
Import ListNotations.
Local Open Scope Z_scope.

(* ---- reloading ---- *)

Lemma onwards_reload : forall k fl g x, creach (cfg_of k) fl g -> i_loop g = LNone -> onwards x ->
  exists g', total (fun f => triggerReload f g (f_of_d x)) g' /\ i_loop g' = LNone.
Proof.
  intros k fl g x C L [F X].
  assert (S : fle f0 (f_of_d x) = true). { apply rate_single_sign; [exact F|]. split; [lra|]. apply Rle_trans with (IZR (2 ^ 26)); [lra|]. apply IZR_le. lia. }
  destruct (reload_returns_forward (cfg_of k) fl g (f_of_d x) (cfg_of_ok k) C (or_introl S)) as [n NF].
  destruct (triggerReload n g (f_of_d x)) as [g'|u|] eqn:E; [|now destruct (reload_none_safe n g (f_of_d x) u L)|congruence].
  exists g'. split.
  - exists n. intros f LE. unfold triggerReload in E |- *. apply bind_ok in E. destruct E as (h & E1 & E2).
    replace f with (n + (f - n))%nat by lia. rewrite (reload_loop_fuel _ _ _ _ (f - n) E1). exact E2.
  - unfold triggerReload in E. apply bind_ok in E. destruct E as (h & E1 & E2). apply Ok_inj in E2. subst g'.
    assert (LH : i_loop h = LNone).
    { revert E1. generalize (reload_rate g (f_of_d x)) as y. clear - L. revert g L. induction n as [|n IH]; intros g L y E; [discriminate|]. cbn [reload_loop] in E.
      destruct (reload_step g y) as [[[go g1]|]| |] eqn:S1; cbn [bind] in E; try discriminate.
      - destruct (reload_step_move _ _ _ _ S1) as (_ & _ & _ & _ & LE & _). destruct go; [apply (IH g1 ltac:(congruence) y E)|]. apply Ok_inj in E. congruence.
      - apply Ok_inj in E. congruence. }
    cbv zeta. destruct (feq _ _); exact LH.
Qed.

(* ---- one player ---- *)

Record mset (r : reader) : Prop := mkMset {
  ms_dual : r_dual r = false; ms_loop : r_loop r = LNone; ms_ps : r_pstart r = PSample;
  ms_remf : fin64 (r_rem r) = true; ms_rem : (0 <= R64 (r_rem r) <= 1)%R; ms_pts : pts_ok (r_pts r);
  ms_rate : onwards (r_rate r); ms_hdr : 0 <= r_hdr r < 2 ^ 31; ms_nch : r_nch r = -1 \/ 0 <= r_nch r }.
Definition msrc (r : reader) : Prop := r_src r = SNull \/ exists g, r_src r = SFile g /\ i_loop g = LNone.
Definition mplay (r : reader) : Prop := exists h len nch, fits h len nch /\ (nch <= 8)%nat /\ fplay h len nch r.
Definition minv (k : rkind) (r : reader) : Prop := life k r /\ mset r /\ msrc r /\ (r_playing r = true -> mplay r).

Lemma mset_same : forall r r', mset r -> (r_dual r', r_loop r', r_pstart r', r_rem r', r_pts r', r_rate r', r_hdr r', r_nch r') =
  (r_dual r, r_loop r, r_pstart r, r_rem r, r_pts r, r_rate r, r_hdr r, r_nch r) -> mset r'.
Proof.
  intros r r' S E. rewrite !pair_equal_spec in E. destruct E as (((((((E1 & E2) & E3) & E4) & E5) & E6) & E7) & E8).
  destruct S. constructor; rewrite ?E1, ?E2, ?E3, ?E4, ?E5, ?E6, ?E7, ?E8; assumption.
Qed.
Lemma mplay_src : forall r, mplay r -> msrc r.
Proof. intros r (h & len & nch & _ & _ & p & F & _). right. apply (f_src _ _ _ _ _ F). Qed.

Lemma m_new : forall k, minv k (new_reader k).
Proof.
  intros k. split; [apply life_new|]. split; [|split; [left; reflexivity|discriminate]].
  constructor; try reflexivity; try (cbn; auto; fail).
  - change (0 <= R64 d0 <= 1)%R. rewrite R64_d0. lra.
  - intros c. repeat split; discriminate.
  - split; [reflexivity|]. change (0 <= R64 d1 <= IZR (2 ^ 26))%R. rewrite R64_d1. split; [lra|apply IZR_le; lia].
  - cbn. lia.
Qed.

Lemma m_read : forall k r, minv k r -> r_playing r = true -> exists fr r', total (fun f => r_read f r ABS) (fr, r') /\ minv k r'.
Proof.
  intros k r (L & S & _ & H) PL. destruct (H PL) as (h & len & nch & FT & N8 & F).
  destruct (safe_read _ _ (fplay_safe h len nch FT N8) r F) as (fr & r' & T & F'). exists fr, r'. split; [exact T|].
  destruct T as [n T]. specialize (T n (le_n n)). split; [eapply life_read; eauto|].
  assert (MP : mplay r') by (exists h, len, nch; auto).
  destruct (r_read_statics _ _ _ _ _ T) as [ST _]. split; [|split; [now apply mplay_src|auto]].
  pose proof F' as (p & FF & _). destruct FF. destruct F as (p1 & FF1 & _). destruct FF1. destruct S.
  assert (Q2 : r_pstart r' = r_pstart r) by (symmetry; now apply (f_equal r_pstart) in ST).
  assert (Q5 : r_rate r' = r_rate r).
  { eapply read_rate; [|exact T]. split; assumption. }
  constructor; try assumption; rewrite ?Q2, ?Q5; try assumption; try (right; lia).
  lra || (replace (r_hdr r') with (r_hdr r) by congruence; assumption).
Qed.

Lemma m_stop : forall k r, minv k r -> minv k (r_stop r).
Proof.
  intros k r (L & S & R & H). split; [now apply life_stop|]. split; [eapply mset_same; [exact S|reflexivity]|]. split; [exact R|discriminate].
Qed.
Lemma m_close : forall k r, k <> KArray -> minv k r -> minv k (r_close r).
Proof.
  intros k r K (L & S & R & H). destruct (life_close k r L) as (L' & P & SN & _). split; [exact L'|].
  split; [eapply mset_same; [exact S|unfold r_close; destruct (r_kind r); reflexivity]|]. split; [left; now apply SN|congruence].
Qed.

(* A change of the source object only *)
Lemma m_src : forall r g g', mset r -> r_src r = SFile g -> i_loop g' = LNone -> mplay r -> mplay (r <| r_src := SFile g' |>).
Proof.
  intros r g g' S SG LG (h & len & nch & FT & N8 & p & FF & B). exists h, len, nch. split; [exact FT|]. split; [exact N8|]. exists p. split; [|exact B].
  destruct FF. constructor; try assumption. exists g'. split; [reflexivity|exact LG].
Qed.

Lemma m_reload : forall k r, minv k r -> exists r', total (fun f => r_triggerReload f r) r' /\ minv k r'.
Proof.
  intros k r (L & S & R & H). destruct R as [Z|(g & SG & LG)].
  - exists r. split; [exists O; intros f _; unfold r_triggerReload; now rewrite Z|]. split; [exact L|]. split; [exact S|]. split; [left; exact Z|exact H].
  - destruct (li_open _ _ L g SG) as (_ & fl & C). destruct (onwards_reload k fl g (r_rate r) C LG (ms_rate r S)) as (g' & [n T] & LG').
    assert (E : forall f, (n <= f)%nat -> r_triggerReload f r = Ok (r <| r_src := SFile g' |>)).
    { intros f LE. unfold r_triggerReload. rewrite SG, T by exact LE. reflexivity. }
    exists (r <| r_src := SFile g' |>). split; [exists n; exact E|]. split; [eapply life_reload; [exact L|apply (E n); lia]|].
    split; [eapply mset_same; [exact S|reflexivity]|]. split; [right; exists g'; split; [reflexivity|exact LG']|]. intros PL. apply (m_src r g g'); auto.
Qed.

Lemma m_response : forall k st r, k <> KArray -> minv k r -> exists r', total (fun f => response f st r) r' /\ minv k r'.
Proof.
  intros k st r K H. unfold response. destruct (st =? evReload); [now apply m_reload|]. destruct (st =? evClose).
  - exists (r_close r). split; [apply total_ok|]. now apply m_close.
  - exists r. split; [apply total_ok|exact H].
Qed.

Lemma m_rate : forall k x r, onwards x -> minv k r -> exists r', setPlaybackRate r x = Ok r' /\ minv k r'.
Proof.
  intros k x r [F X] (L & S & R & H).
  assert (E : exists r', setPlaybackRate r x = Ok r' /\ (r' = r <| r_rate := x |> \/ r_pos1 r < r_hdr r /\ exists q, r' = r <| r_rate := x |> <| r_pos1 := q |>)).
  { unfold setPlaybackRate. cbv zeta. change (r_dual (r <| r_rate := x |>)) with (r_dual r). rewrite (ms_dual r S). cbn [negb].
    rewrite dlt_R by auto using fin_d0. rewrite R64_d0, Rlt_bool_false by apply X.
    change (r_pos1 (r <| r_rate := x |>)) with (r_pos1 r). change (r_hdr (r <| r_rate := x |>)) with (r_hdr r).
    destruct (dle d0 x); cbn [andb]; [|eauto]. destruct (Z.ltb_spec (r_pos1 r) (r_hdr r)); eauto 6. }
  destruct E as (r' & E & V). exists r'. split; [exact E|]. split; [eapply (life_call k 0 (CRate x)); [exact L|exact E]|].
  destruct V as [->|(LT & q & ->)]; (split; [destruct S; constructor; try assumption; split; assumption|]).
  - split; [exact R|]. intros PL. destruct (H PL) as (h & len & nch & FT & N8 & q & FF & B). exists h, len, nch. split; [exact FT|]. split; [exact N8|].
    exists q. split; [|exact B]. destruct FF. constructor; assumption.
  - split; [exact R|]. intros PL. destruct (H PL) as (h & len & nch & FT & N8 & p1 & FF & B). exfalso. rewrite (f_pos _ _ _ _ _ FF), (f_hdr _ _ _ _ _ FF) in LT. lia.
Qed.

Lemma mplay_same : forall r r', mplay r -> (r_dual r', r_nch r', r_hdr r', r_playing r', r_src r', r_cfst r', r_fsamples r', r_loop r', r_pos1 r', r_pts r', r_rem r', r_rate r') =
  (r_dual r, r_nch r, r_hdr r, r_playing r, r_src r, r_cfst r, r_fsamples r, r_loop r, r_pos1 r, r_pts r, r_rem r, r_rate r) -> mplay r'.
Proof.
  intros r r' (h & len & nch & FT & N8 & p & FF & B) E. rewrite !pair_equal_spec in E.
  destruct E as (((((((((((E1 & E2) & E3) & E4) & E5) & E6) & E7) & E8) & E9) & E10) & E11) & E12).
  exists h, len, nch. split; [exact FT|]. split; [exact N8|]. exists p. split; [|exact B].
  destruct FF. constructor; rewrite ?E1, ?E2, ?E3, ?E4, ?E5, ?E6, ?E7, ?E8, ?E9, ?E10, ?E11, ?E12; assumption.
Qed.

Lemma m_call : forall k c r, mild c -> minv k r -> exists r', total (fun f => call_run f c r) r' /\ minv k r'.
Proof.
  intros k c r M I. pose proof I as (L & S & R & H).
  assert (LC : forall r', (forall f, call_run f c r = Ok r') -> total (fun f => call_run f c r) r' /\ life k r').
  { intros r' E. split; [exists O; intros f _; apply E|]. eapply (life_call k 0 c); [exact L|apply E]. }
  assert (SAME : forall r', (forall f, call_run f c r = Ok r') -> mset r' ->
    ((r_dual r', r_nch r', r_hdr r', r_playing r', r_src r', r_cfst r', r_fsamples r', r_loop r', r_pos1 r', r_pts r', r_rem r', r_rate r') =
     (r_dual r, r_nch r, r_hdr r, r_playing r, r_src r, r_cfst r, r_fsamples r, r_loop r, r_pos1 r, r_pts r, r_rem r, r_rate r)) ->
    exists r', total (fun f => call_run f c r) r' /\ minv k r').
  { intros r' E S' Q. destruct (LC r' E) as [T L']. exists r'. split; [exact T|]. split; [exact L'|]. split; [exact S'|]. pose proof Q as Q0.
    rewrite !pair_equal_spec in Q. destruct Q as (((((((((((E1 & E2) & E3) & E4) & E5) & E6) & E7) & E8) & E9) & E10) & E11) & E12).
    split; [unfold msrc; rewrite E5; exact R|]. rewrite E4. intros PL. apply (mplay_same r); auto. }
  assert (SRC : forall r1 r', (forall f, call_run f c r = Ok r') -> mset r1 -> mset r' ->
    ((r_dual r1, r_nch r1, r_hdr r1, r_playing r1, r_src r1, r_cfst r1, r_fsamples r1, r_loop r1, r_pos1 r1, r_pts r1, r_rem r1, r_rate r1) =
     (r_dual r, r_nch r, r_hdr r, r_playing r, r_src r, r_cfst r, r_fsamples r, r_loop r, r_pos1 r, r_pts r, r_rem r, r_rate r)) ->
    (r' = r1 \/ exists g g', r_src r1 = SFile g /\ i_loop g' = LNone /\ r' = r1 <| r_src := SFile g' |>) ->
    exists r', total (fun f => call_run f c r) r' /\ minv k r').
  { intros r1 r' E S1 S' Q [->|(g & g' & SG & LG & ->)]; [now apply (SAME r1)|]. destruct (LC _ E) as [T L']. eexists. split; [exact T|]. split; [exact L'|]. split; [exact S'|].
    split; [right; exists g'; auto|]. intros PL. apply (m_src r1 g g'); auto. apply (mplay_same r); [|exact Q].
    rewrite !pair_equal_spec in Q. destruct Q as (((((((((((E1 & E2) & E3) & E4) & E5) & E6) & E7) & E8) & E9) & E10) & E11) & E12).
    apply H. rewrite <- E4. exact PL. }
  destruct c; cbn [mild] in M.
  - destruct (m_rate k x r M I) as (r' & E & I'). exists r'. split; [exists O; intros f _; exact E|exact I'].
  - subst l. apply (SRC r (setLoopType r LNone)); auto.
    + unfold setLoopType. destruct (r_src r); (eapply mset_same; [exact S|]); cbn; rewrite (ms_loop r S); reflexivity.
    + pose proof (ms_loop r S) as LP. unfold setLoopType. destruct R as [Z|(g & SG & LG)].
      * left. rewrite Z. destruct r. cbn in *. subst. reflexivity.
      * right. exists g, (if_setLoopType g LNone). split; [exact SG|]. split; [reflexivity|]. rewrite SG. destruct r. cbn in *. subst. reflexivity.
  - apply (SRC (r <| r_ls := s32 v |>) (setLoopStart r v)); auto.
    + eapply mset_same; [exact S|reflexivity].
    + unfold setLoopStart. cbv zeta. change (r_src (r <| r_ls := s32 v |>)) with (r_src r). destruct (r_src r); (eapply mset_same; [exact S|reflexivity]).
    + unfold setLoopStart. cbv zeta. change (r_src (r <| r_ls := s32 v |>)) with (r_src r). destruct R as [Z|(g & SG & LG)].
      * left. rewrite Z. reflexivity.
      * right. rewrite SG. eexists _, _. split; [reflexivity|]. split; [|reflexivity]. exact LG.
  - apply (SRC (r <| r_lf := s32 v |>) (setLoopFinish r v)); auto.
    + eapply mset_same; [exact S|reflexivity].
    + unfold setLoopFinish. cbv zeta. change (r_src (r <| r_lf := s32 v |>)) with (r_src r). destruct (r_src r); (eapply mset_same; [exact S|reflexivity]).
    + unfold setLoopFinish. cbv zeta. change (r_src (r <| r_lf := s32 v |>)) with (r_src r). destruct R as [Z|(g & SG & LG)].
      * left. rewrite Z. reflexivity.
      * right. rewrite SG. eexists _, _. split; [reflexivity|]. split; [|reflexivity]. exact LG.
  - subst b. apply (SAME (setUseDualPlaybackHead r false)); auto.
    + destruct S. constructor; try assumption. reflexivity.
    + unfold setUseDualPlaybackHead. cbn. rewrite (ms_dual r S). reflexivity.
  - apply (SAME (setCrossfadeDuration r n)); auto. destruct S. constructor; assumption.
  - subst p. apply (SAME (setPlayStart r PSample v)); auto. destruct S. constructor; try assumption. reflexivity.
  - apply (SAME (setInterpolationType r i)); auto. destruct S. constructor; assumption.
  - destruct (LC (r_begin r) (fun f => eq_refl)) as [T L']. exists (r_begin r). split; [exact T|]. split; [exact L'|]. split; [eapply mset_same; [exact S|reflexivity]|].
    split; [exact R|discriminate].
  - destruct (m_reload k r I) as (r' & T & I'). exists r'. split; [exact T|exact I'].
Qed.

(* ---- opening a file ---- *)

Definition idle (r : reader) : Prop := mset r /\ r_src r = SNull /\ r_playing r = false.

Lemma m_open : forall r1 fl h len p garbage, idle r1 -> cfg_ok (r_cfg r1) -> 1 <= r_nch r1 <= 8 -> r_hdr r1 = h -> r_fsize r1 = fsize fl ->
  0 <= fsize fl < 2 ^ 30 -> (2 * h < fsize fl -> 0 <= r_fsamples r1 < 2 ^ 29) -> len = r_fsamples r1 / r_nch r1 ->
  exists b r', play_open r1 fl p garbage = Ok (b, r') /\ (b = false -> idle r') /\ (b = true -> r_pts r' = r_pts r1 -> mset r' /\ mplay r').
Proof.
  intros r1 fl h len p garbage (S & SN & PN) C N8 HH FZ FB FQ LEN. pose proof (ms_hdr _ S) as HB. rewrite HH in HB.
  unfold play_open. rewrite HH, FZ. rewrite (u32_id (fsize fl)), (u32_id (h * 2)) by (unfold in_u32; lia).
  destruct (Z.leb_spec (fsize fl) (h * 2)) as [L|L].
  { exists false. eexists. split; [reflexivity|]. split; [|discriminate]. intros _. split; [eapply mset_same; [exact S|reflexivity]|]. split; [exact SN|reflexivity]. }
  specialize (FQ ltac:(lia)). unfold sdiv32. destruct (Z.eqb_spec (r_nch r1) 0); [lia|].
  rewrite Z.quot_div_nonneg by lia. rewrite <- LEN.
  assert (L0 : 0 <= len) by (subst len; apply Z.div_pos; lia).
  assert (L1 : len * r_nch r1 <= r_fsamples r1) by (subst len; rewrite Z.mul_comm; apply Z.mul_div_le; lia).
  assert (L2 : len <= len * r_nch r1) by nia.
  rewrite chk32_ok by (unfold in_s32; lia). cbn [bind].
  destruct (open_src_proj r1 len fl p garbage) as (S1 & _).
  assert (O1 : core (open_src r1 len fl p garbage) = core r1) by (unfold open_src; destruct (r_loop r1); reflexivity).
  assert (O2 : r_fsamples (open_src r1 len fl p garbage) = len) by (unfold open_src; destruct (r_loop r1); reflexivity).
  cbv zeta in S1. set (r2 := open_src r1 len fl p garbage) in *. clearbody r2.
  destruct (copy_loop_core r2) as (Q1 & Q2 & Q3 & Q4).
  destruct (copy_loop_src r2 _ S1) as (g & S2 & G5 & G1 & G2 & G4 & G3). cbn in G5, G1, G2, G4.
  set (r3 := copy_loop r2) in *. clearbody r3.
  assert (CO : core r3 = core r1) by congruence. unfold core in CO. rewrite !pair_equal_spec in CO.
  destruct CO as ((((((((((C1 & C2) & C3) & C4) & C5) & C6) & C7) & C8) & C9) & C10) & C11).
  assert (LP : r_loop r2 = LNone). { unfold core in O1. rewrite !pair_equal_spec in O1. destruct O1 as ((((((((((_ & _) & O3) & _) & _) & _) & _) & _) & _) & _) & _). rewrite O3. apply S. }
  assert (SP : spos r3 0 = h).
  { unfold spos, sts. rewrite C9, C8, HH, s32_u32. rewrite s32_id; [lia|]. unfold in_s32. lia. }
  assert (RD : dle d0 (r_rate r3) = true) by (rewrite C7; apply dge0_true; apply S).
  destruct (reset_forward r3 h RD) as (r4 & RE & X2); [rewrite C4, (ms_ps _ S), SP; reflexivity|].
  destruct (reset_core _ _ RE) as (X3 & X1 & X4 & X5 & X6 & X7).
  destruct (preLoadBuffers_total g h true) as [[t g'] E]; [rewrite G1; exact C|exact G5|lia|].
  assert (RR : r_rate r4 = r_rate r3). { unfold core in X3. rewrite !pair_equal_spec in X3. apply X3. }
  exists true, (started r4 g g'). split; [|split; [discriminate|]].
  { apply (start_file_eq r3 r4 g t g' RE); [congruence|]. rewrite X2, RR, RD. exact E. }
  intros _ PT. destruct (started_proj r4 g g') as (Y3 & Y1 & Y4 & Y5 & Y6 & Y7 & Y2 & Y8).
  set (r5 := started r4 g g') in *. clearbody r5.
  assert (CO : core r5 = core r1) by congruence. unfold core in CO. rewrite !pair_equal_spec in CO.
  destruct CO as ((((((((((D1 & D2) & D3) & D4) & D5) & D6) & D7) & D8) & D9) & D10) & D11).
  assert (S5 : mset r5). { apply (mset_same r1); [exact S|]. rewrite D1, D3, D4, D6, PT, D7, D9, D8. reflexivity. }
  split; [exact S5|]. exists h, len, (Z.to_nat (r_nch r1)). split; [|split; [lia|]].
  { unfold fits. rewrite Z2Nat.id by lia. repeat split; lia. }
  exists 0. split; [|lia]. constructor; try apply S5; rewrite ?Z2Nat.id by lia; try congruence; try lia.
  - exists g'. split; [exact Y1|].
    assert (PL2 : i_loop g' = i_loop g). { unfold preLoadBuffers in E. eapply preload_keeps; exact E. }
    congruence.
Qed.

(* What reading the header leaves behind *)
Lemma header_any : forall r fl stack, wav_any fl -> bytes_ok stack ->
  exists o r', play_header r fl stack = Ok (o, r') /\
    (r' = r /\ o = None \/
     exists r1, r1 = setNumChannels r (hdr_channels (fbyte fl)) /\
       (r' = r1 /\ o = None \/
        exists hd fs, r' = r1 <| r_hdr := hd |> <| r_fsamples := fs |> /\ 0 <= hd < 2 ^ 31 /\ (2 * hd < fsize fl -> 0 <= fs < 2 ^ 29))).
Proof.
  intros r fl stack (BF & SZ & HS & LS & CH & DS) BS.
  destruct (parse_file_ok (c_keep (r_cfg r)) fl stack BF BS ltac:(lia) HS) as (o & PF).
  pose proof (play_header_parse r fl stack) as PP. rewrite PF in PP.
  pose proof (parse_file_spec _ fl stack _ BF BS ltac:(lia) LS PF) as SP.
  assert (HC : forall o1 r1, play_header r fl stack = Ok (o1, r1) ->
    r1 = r /\ o1 = None \/ exists r2, r2 = setNumChannels r (hdr_channels (fbyte fl)) /\ (r1 = r2 /\ o1 = None \/ exists p hd fs, o1 = Some p /\ r1 = r2 <| r_hdr := hd |> <| r_fsamples := fs |>)).
  { intros o1 r1 E. unfold play_header in E. cbv zeta in E. set (b := fread fl 0 36 stack) in *.
    assert (Bb : bytes_ok b) by (now apply fread_ok).
    assert (EB : forall i, 0 <= i < 36 -> b i = fbyte fl i).
    { intros i Hi. unfold b. rewrite fread_at; [reflexivity|]. unfold fread_len. lia. }
    destruct (parse_cases (rd_buf b) b (has_nul b 0 36) hdr0 (fun i _ => eq_refl) Bb) as [[V EP]|[V [[R EP]|[(R & W & EP)|(R & W & F & h' & EP & HB)]]]]; rewrite EP in E.
    - cbn [bind] in E. assert (CC : h_channels (parsed b) = hdr_channels (fbyte fl)).
      { unfold parsed, hdr_channels, le16. cbn [h_channels]. f_equal. unfold le16u. now rewrite !EB by lia. }
      rewrite CC in E. assert (U : u16 (hdr_channels (fbyte fl)) = hdr_channels (fbyte fl)) by (apply u16_id; unfold in_u16; lia). rewrite U in E.
      destruct (negb _); [apply Ok_inj, pair_equal_spec in E; destruct E; auto|]. right. eexists. split; [reflexivity|].
      apply bind_ok in E. destruct E as ([t|] & _ & E); [|apply Ok_inj, pair_equal_spec in E; destruct E; auto].
      apply bind_ok in E. destruct E as ([db|] & _ & E); [|apply Ok_inj, pair_equal_spec in E; destruct E; auto].
      apply Ok_inj, pair_equal_spec in E. destruct E as [<- <-]. right. do 3 eexists. split; reflexivity.
    - left. destruct (has_nul b 0 36); [|discriminate]. cbn [bind] in E. change (negb (h_bits hdr0 =? 16)) with true in E. apply Ok_inj, pair_equal_spec in E. destruct E; auto.
    - discriminate.
    - left. cbn [bind] in E. rewrite HB in E. change (negb (h_bits hdr0 =? 16)) with true in E. apply Ok_inj, pair_equal_spec in E. destruct E; auto. }
  destruct o as [[[[p3 hd] fs] ch]|].
  - destruct SP as (A & B & D & E3). exists (Some p3). eexists. split; [exact PP|]. right.
    destruct (HC _ _ PP) as [[_ X]|(r2 & E2 & [[_ X]|(pp & hd' & fs' & _ & E4)])]; try discriminate.
    exists r2. split; [exact E2|]. right. exists hd, fs. split; [|split; [exact B|]].
    + pose proof (f_equal r_nch E4) as N. subst r2. unfold setNumChannels in *. cbn in N |- *. rewrite N. reflexivity.
    + intros L. destruct (E3 L) as (tags & n & DC & _ & -> & _). pose proof (DS _ _ DC) as NB.
      assert (0 <= n). { destruct DC as (_ & _ & ->). apply (le32u_range (fbyte fl)). exact BF. }
      split; [apply Z.div_pos; lia|apply Z.div_lt_upper_bound; lia].
  - assert (E0 : exists r1, play_header r fl stack = Ok (None, r1)) by (destruct PP as [PP|(n & PP)]; eauto).
    destruct E0 as (r1 & E0). exists None, r1. split; [exact E0|]. destruct (HC _ _ E0) as [X|(r2 & E2 & [X|(pp & hd & fs & X & _)])]; [auto|right; eauto|discriminate].
Qed.

Lemma idle_same : forall r r', idle r -> (r_dual r', r_loop r', r_pstart r', r_rem r', r_pts r', r_rate r', r_src r', r_playing r') =
  (r_dual r, r_loop r, r_pstart r, r_rem r, r_pts r, r_rate r, r_src r, r_playing r) -> 0 <= r_hdr r' < 2 ^ 31 -> (r_nch r' = -1 \/ 0 <= r_nch r') -> idle r'.
Proof.
  intros r r' ([] & SN & PN) E H N. rewrite !pair_equal_spec in E. destruct E as (((((((E1 & E2) & E3) & E4) & E5) & E6) & E7) & E8).
  split; [constructor; rewrite ?E1, ?E2, ?E3, ?E4, ?E5, ?E6; assumption|]. split; congruence.
Qed.

Lemma m_play : forall k r fo w n st g, k <> KArray -> minv k r -> bytes_ok st -> (w = false -> 1 <= n <= 8) ->
  (forall fl, fo = Some fl -> if w : bool then wav_any fl else 0 <= fsize fl < 2 ^ 30) ->
  exists b r', r_play_file r fo w n st g = Ok (b, r') /\ minv k r'.
Proof.
  intros k r fo w n st g K I BS NR FO. pose proof I as (L & _). destruct (m_close k r K I) as (LC & SC & _ & _). destruct (life_close k r L) as (_ & PC & SNC & _). destruct (SNC K) as [SN _].
  assert (Q : exists b r', r_play_file r fo w n st g = Ok (b, r') /\ (b = false -> idle r') /\ (b = true -> r_pts r' = r_pts r -> mset r' /\ mplay r')).
  { unfold r_play_file. cbv zeta. set (q := r_close r) in *.
    assert (PTQ : r_pts q = r_pts r) by (unfold q, r_close; destruct (r_kind r); reflexivity). clearbody q.
    assert (IQ : idle q) by (split; [exact SC|auto]).
    set (q1 := if w then q else setNumChannels q n) in *.
    assert (N1 : w = false -> r_nch q1 = n). { intros W. unfold q1. rewrite W. cbn. apply s16_id. unfold in_s16. specialize (NR W). lia. }
    assert (H1 : r_hdr q1 = r_hdr q) by (unfold q1; destruct w; reflexivity).
    assert (P1 : r_pts q1 = r_pts r) by (unfold q1; destruct w; exact PTQ).
    assert (KC : r_kind q1 = k /\ r_cfg q1 = cfg_of k) by (unfold q1; destruct w; split; apply LC).
    assert (IQ1 : idle q1).
    { apply (idle_same q); auto; [unfold q1; destruct w; reflexivity|rewrite H1; apply SC|]. destruct w; [apply SC|]. right. rewrite (N1 eq_refl). specialize (NR eq_refl). lia. }
    clearbody q1. destruct KC as [KK CC]. set (q2 := q1 <| r_fname := true |> <| r_live := r_live q1 + 1 |>).
    assert (IQ2 : idle q2) by (apply (idle_same q1); auto; apply IQ1).
    assert (E2 : r_kind q2 = k /\ r_cfg q2 = cfg_of k /\ r_nch q2 = r_nch q1 /\ r_pts q2 = r_pts r) by auto. clearbody q2. destruct E2 as (KK2 & CC2 & NN2 & PP2). rewrite KK2.
    assert (EQ : match k with KArray => None | _ => fo end = fo) by (destruct k; congruence). rewrite EQ. clear EQ.
    destruct fo as [fl|].
    2:{ exists false. eexists. split; [reflexivity|]. split; [|discriminate]. intros _. apply (idle_same q2); auto; apply IQ2. }
    specialize (FO fl eq_refl).
    assert (FZ : 0 <= fsize fl < 2 ^ 30) by (destruct w; [destruct FO as (_ & ? & _); lia|exact FO]).
    rewrite s32_id by (unfold in_s32; lia). set (q3 := q2 <| r_fsize := fsize fl |>).
    assert (IQ3 : idle q3) by (apply (idle_same q2); auto; apply IQ2).
    assert (E3 : r_cfg q3 = cfg_of k /\ r_nch q3 = r_nch q1 /\ r_pts q3 = r_pts r /\ r_fsize q3 = fsize fl) by auto. clearbody q3. destruct E3 as (CC3 & NN3 & PP3 & FF3).
    destruct w.
    - destruct (header_any q3 fl st FO BS) as (o & r4 & E & V). rewrite E. cbn [bind]. destruct FO as (BF & _ & _ & _ & CH & _).
      destruct V as [[-> ->]|(r5 & E5 & V)]; [exists false, q3; split; [reflexivity|]; split; [auto|discriminate]|].
      assert (N5 : r_nch r5 = hdr_channels (fbyte fl)). { subst r5. cbn. apply s16_id. unfold in_s16. lia. }
      assert (I5 : idle r5). { apply (idle_same q3); auto; [subst r5; reflexivity|subst r5; apply IQ3|right; lia]. }
      assert (E6 : r_cfg r5 = cfg_of k /\ r_pts r5 = r_pts r /\ r_fsize r5 = fsize fl) by (subst r5; auto). clear E5 E. destruct E6 as (C5 & P5 & F5).
      destruct V as [[-> ->]|(hd & fs & E6 & HB & FB)]; [exists false, r5; split; [reflexivity|]; split; [auto|discriminate]|].
      assert (I6 : idle r4). { apply (idle_same r5); auto; subst r4; [reflexivity|exact HB|cbn; right; lia]. }
      assert (E7 : r_cfg r4 = cfg_of k /\ r_pts r4 = r_pts r /\ r_fsize r4 = fsize fl /\ r_nch r4 = hdr_channels (fbyte fl) /\ r_hdr r4 = hd /\ r_fsamples r4 = fs) by (subst r4; auto 7).
      clear E6. destruct E7 as (C4 & P4 & F4 & N4 & H4 & S4).
      destruct o as [p|]; [|exists false, r4; split; [reflexivity|]; split; [auto|discriminate]].
      destruct (m_open r4 fl hd (r_fsamples r4 / r_nch r4) p g I6) as (b & r' & E & X & Y); auto; [rewrite C4; apply cfg_of_ok|lia|rewrite S4; exact FB|].
      exists b, r'. split; [exact E|]. split; [exact X|]. rewrite P4 in Y. exact Y.
    - cbn [bind]. rewrite FF3, Z.quot_div_nonneg by lia. set (r4 := q3 <| r_fsamples := fsize fl / 2 |>).
      assert (I6 : idle r4) by (apply (idle_same q3); auto; apply IQ3).
      assert (E7 : r_cfg r4 = cfg_of k /\ r_pts r4 = r_pts r /\ r_fsize r4 = fsize fl /\ r_nch r4 = n /\ r_fsamples r4 = fsize fl / 2).
      { split; [exact CC3|]. split; [exact PP3|]. split; [exact FF3|]. split; [|reflexivity]. change (r_nch r4) with (r_nch q3). rewrite NN3. auto. }
      clearbody r4. destruct E7 as (C4 & P4 & F4 & N4 & S4).
      destruct (m_open r4 fl (r_hdr r4) (r_fsamples r4 / r_nch r4) 0 g I6) as (b & r' & E & X & Y); auto; [rewrite C4; apply cfg_of_ok|specialize (NR eq_refl); lia| |].
      + intros _. rewrite S4. split; [apply Z.div_pos; lia|apply Z.div_lt_upper_bound; lia].
      + exists b, r'. split; [exact E|]. split; [exact X|]. rewrite P4 in Y. exact Y. }
  destruct Q as (b & r' & E & X & Y). exists b, r'. split; [exact E|]. destruct (life_play_file _ _ _ _ _ _ _ _ _ L E) as [L' _]. split; [exact L'|].
  destruct b.
  - destruct (Y eq_refl (file_points _ _ _ _ _ _ _ E)) as [S' M']. split; [exact S'|]. split; [now apply mplay_src|auto].
  - destruct (X eq_refl) as (S' & SN' & PN'). split; [exact S'|]. split; [left; exact SN'|congruence].
Qed.

(* ---- all players ---- *)

Section Fleet.
Variable kinds : nat -> rkind.
Hypothesis (KF : forall i, kinds i <> KArray).

Definition fleet (d : Z) (w : world) : Prop := (exists a q v, ystate w a q d v) /\ forall i, minv (kinds i) (w_rd w i).

Lemma fleet_rd : forall d w i r, fleet d w -> minv (kinds i) r -> fleet d (set_rd w i r).
Proof.
  intros d w i r ((a & q & v & Y) & A) H. split; [exists a, q, v; eapply ys_rd; [exact Y|reflexivity]|].
  intros j. rewrite rd_set. destruct (Nat.eqb_spec j i); [subst j; exact H|apply A].
Qed.

Lemma fleet_update : forall d i g w, fleet d w -> exists acts w', total (fun f => w_update f i g w) (acts, w') /\ fleet d w'.
Proof.
  intros d i g w ((a & q & v & Y) & A). pose proof (A i) as H.
  assert (P : exists acts ev r', total (fun f => p_update f g (w_rd w i)) (acts, ev, r') /\ minv (kinds i) r').
  { unfold p_update. destruct (Z.eqb_spec (r_nch (w_rd w i)) (-1)); [do 3 eexists; split; [apply total_ok|exact H]|].
    destruct (Z.ltb_spec (r_nch (w_rd w i)) 0); [destruct (ms_nch _ (proj1 (proj2 H))); lia|].
    destruct (r_playing (w_rd w i)) eqn:PL; cbn [negb]; [|do 3 eexists; split; [apply total_ok|exact H]].
    destruct (forallb got _); [|do 3 eexists; split; [apply total_ok|exact H]].
    destruct (m_read _ _ H PL) as (fr & r' & T & H'). do 3 eexists. split; [|exact H'].
    eapply total_bind; [exact T|]. apply total_ok. }
  destruct P as (acts & ev & r' & [F T] & H').
  assert (Q : exists w', forall f, (F <= f)%nat -> w_update f i g w = Ok (acts, w')).
  { destruct ev as [st|].
    - destruct (y_trigger_inv _ _ _ i st (proj1 Y)) as (s' & TE & _).
      exists (set_rd w i r' <| w_sys := s' |>). intros f L. unfold w_update. rewrite T by exact L. cbn [bind].
      change (w_sys (set_rd w i r')) with (w_sys w). rewrite TE. reflexivity.
    - exists (set_rd w i r'). intros f L. unfold w_update. rewrite T by exact L. reflexivity. }
  destruct Q as (w' & E). exists acts, w'. split; [exists F; exact E|].
  destruct (ys_update F i g w a q d v acts w' Y (E F (le_n F))) as (ev2 & r2 & E2 & R2 & Y'). rewrite (T F (le_n F)) in E2. apply Ok_inj in E2.
  rewrite !pair_equal_spec in E2. destruct E2 as [_ <-]. split; [eexists a, _, v; exact Y'|].
  intros j. rewrite R2. destruct (Nat.eqb_spec j i); [subst j; exact H'|apply A].
Qed.

Lemma fleet_updates : forall d l w, fleet d w -> exists acts w', total (fun f => w_updates f l w) (acts, w') /\ fleet d w'.
Proof.
  intros d. induction l as [|[i g] l IH]; intros w H; [exists [], w; split; [apply total_ok|exact H]|].
  destruct (fleet_update d i g w H) as (a1 & w1 & T1 & H1). destruct (IH w1 H1) as (a2 & w2 & T2 & H2).
  exists ((i, a1) :: a2), w2. split; [|exact H2]. cbn [w_updates]. eapply total_bind; [exact T1|]. cbv beta. eapply total_bind; [exact T2|]. apply total_ok.
Qed.

Definition op_fine (o : wop) (w : world) : Prop := exists x w', total (fun f => wop_run f o w) (x, w') /\ fleet 0 w'.

Lemma fleet_yield : forall w, fleet 0 w -> op_fine WYield w.
Proof.
  intros w ((a & q & v & Y) & A).
  assert (Q : exists w', total (fun f => w_yield f w) w' /\ forall i, minv (kinds i) (w_rd w' i)).
  { unfold w_yield. destruct (Z.testbit (s_flags (w_sys w)) 2); [|exists w; split; [apply total_ok|exact A]].
    destruct (y_pop_inv _ _ _ (proj1 Y)) as [P _]. destruct (y_pop (w_sys w)) as [e s]. cbn [fst snd] in P. subst e.
    destruct q as [|[i st] q']; cbn [hd_error]; [exists w; split; [apply total_ok|exact A]|].
    destruct (m_response _ st _ (KF i) (A i)) as (r' & T & H').
    eexists. split.
    - unfold event_response. eapply total_bind; [exact T|]. apply total_ok.
    - intros j. rewrite rd_sys, rd_set. destruct (Nat.eqb_spec j i); [subst j; exact H'|apply A]. }
  destruct Q as (w' & [F T] & H'). exists WoNone, w'. split.
  - exists F. intros f L. cbn [wop_run]. rewrite T by exact L. reflexivity.
  - split; [|exact H']. destruct (ys_yield F w a q v w' Y (T F ltac:(lia))) as [[_ ->]|[[_ ->]|(i & st & q' & -> & Y' & _)]]; eauto.
Qed.

Lemma fleet_stop : forall i mid w, fleet 0 w -> op_fine (WStop i mid) w.
Proof.
  intros i mid w ((a & q & v & Y) & A).
  assert (F1 : fleet 1 (on_sys (on_sys w disableResponse) (clearEvent i))).
  { split; [|exact A]. exists a, (q_remove q i), v. apply ys_clear. change 1 with (0 + 1). apply ys_disable; [exact Y|lia]. }
  destruct (fleet_updates 1 mid _ F1) as (acts & w2 & T & ((a2 & q2 & v2 & Y2) & A2)).
  exists (WoActs acts). eexists. split.
  - cbn [wop_run]. unfold w_stop. eapply total_bind; [eapply total_bind; [exact T|]|]; apply total_ok.
  - split.
    + exists a2, q2, v2. apply (ys_enable _ _ _ 0); [|lia]. eapply ys_rd; [exact Y2|reflexivity].
    + intros j. rewrite rd_sys, rd_set. destruct (Nat.eqb_spec j i); [subst j; now apply m_stop|apply A2].
Qed.

Lemma fleet_call : forall i c w, mild c -> fleet 0 w -> op_fine (WCall i c) w.
Proof.
  intros i c w M F. destruct (m_call (kinds i) c (w_rd w i) M (proj2 F i)) as (r' & T & H'). exists WoNone, (set_rd w i r'). split.
  - cbn [wop_run]. eapply total_bind; [exact T|]. apply total_ok.
  - now apply fleet_rd.
Qed.

Lemma fleet_play : forall i fo b n st g w, mild_op (WPlayFile i fo b n st g) -> fleet 0 w -> op_fine (WPlayFile i fo b n st g) w.
Proof.
  intros i fo isW n st g w (BS & NR & FO) ((a & q & v & Y) & A).
  destruct (m_play (kinds i) (r_stop (w_rd w i)) fo isW n st g (KF i) (m_stop _ _ (A i)) BS NR FO) as (b & r' & E & H').
  pose proof (ys_disable _ _ _ _ _ Y ltac:(lia)) as Y1. pose proof (ys_stop _ _ _ _ _ i Y1 ltac:(lia)) as Y2.
  destruct (proj2 Y2) as (FC & _).
  assert (PF : exists w', p_play_file i fo isW n st g w = Ok (b, w')).
  { unfold p_play_file. cbv zeta. rewrite FC. cbn [bind].
    match goal with |- context [r_play_file (w_rd ?x i)] => assert (R0 : w_rd x i = r_stop (w_rd w i)) end.
    { rewrite rd_sys. change (w_rd (p_stop i (on_sys w disableResponse)) i = r_stop (w_rd w i)). rewrite p_stop_rd, Nat.eqb_refl. reflexivity. }
    rewrite R0, E. cbn [bind]. eauto. }
  destruct PF as (w' & PF). exists (WoPlay i b), w'. split; [exists O; intros f _; cbn [wop_run]; rewrite PF; reflexivity|].
  apply p_play_file_inv in PF. destruct PF as (r2 & E2 & R & s2 & AT & SS). rewrite E in E2. apply Ok_inj, pair_equal_spec in E2. destruct E2 as [_ <-].
  cbv zeta in AT. rewrite FC in AT. apply Ok_inj in AT. subst s2.
  pose proof (ys_attach _ _ _ _ _ i Y2 ltac:(lia)) as Y3. pose proof (ys_enable _ _ _ 0 _ Y3 ltac:(lia)) as Y4.
  split; [exists (att_set a i true), (q_remove (q_remove q i) i), (Z.lor v EVR); eapply ys_rd; [exact Y4|exact SS]|].
  intros j. rewrite R. destruct (Nat.eqb_spec j i); [subst j; exact H'|apply A].
Qed.

Lemma fleet_op : forall o w, mild_op o -> fleet 0 w -> op_fine o w.
Proof.
  intros o w M F. destruct o; try contradiction.
  - now apply fleet_play.
  - now apply fleet_stop.
  - now apply fleet_call.
  - destruct (fleet_update 0 i alloc w F) as (acts & w' & T & F'). exists (WoActs [(i, acts)]), w'. split; [|exact F'].
    cbn [wop_run]. eapply total_bind; [exact T|]. apply total_ok.
  - now apply fleet_yield.
Qed.

Lemma fleet_ops : forall l w, Forall mild_op l -> fleet 0 w -> exists xs w', total (fun f => wops f l w) (xs, w') /\ fleet 0 w'.
Proof.
  induction l as [|o l IH]; intros w A H; [exists [], w; split; [apply total_ok|exact H]|].
  inversion A as [|? ? M AA]; subst. destruct (fleet_op o w M H) as (x & w1 & T1 & H1). destruct (IH w1 AA H1) as (xs & w2 & T2 & H2).
  exists (x :: xs), w2. split; [|exact H2]. cbn [wops]. eapply total_bind; [exact T1|]. cbv beta. eapply total_bind; [exact T2|]. apply total_ok.
Qed.

Theorem fleet_defined : forall flags l, 0 <= flags < 256 -> Forall mild_op l ->
  exists F xs w, forall fuel, (F <= fuel)%nat -> wops fuel l (world0 kinds flags) = Ok (xs, w).
Proof.
  intros flags l FL A. destruct (fleet_ops l (world0 kinds flags) A) as (xs & w & [F T] & _); [|exists F, xs, w; exact T].
  split; [|intros i; apply m_new]. exists (fun _ => false), [], flags. split; [apply yinv0|repeat split; auto; try apply FL; cbn; intros; lia].
Qed.
End Fleet.
