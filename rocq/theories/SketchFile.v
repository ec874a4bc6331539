(* The example sketches that play a file, with the knob in its upper half (C116). *)

From Coq Require Import ZArith Lia List Bool Reals Lra.
From RecordUpdate Require Import RecordUpdate.
From Flocq Require Import Core.Core IEEE754.BinarySingleNaN.
From Verif Require Import Machine Floats FloatFacts WavModel InterpModel CacheModel CacheFacts CacheSpec CacheProofs CacheFinal ReaderModel ReaderFacts
  ReaderSpec Walk ForwardProofs LifeProofs FileSpec WindowProofs FileProofs FilePlay FileForward FadeSpec FadeProofs FadeLoop CubicProofs QuadProofs
  InterpSafe TrackPlay ReelProofs FileSafe ResponderModel ResponderSpec QueueProofs PlayerModel LifeSpec WorldProofs ScheduleProofs StageProofs
  SketchModel SketchSpec SketchProofs SketchArray.
Import ListNotations.
Local Open Scope Z_scope.

(* ---- opening a file ignores the remainder ---- *)

Definition setRem (r : reader) (x : b64) : reader := r <| r_rem := x |>.
Lemma reset_rem : forall r x, r_reset (setRem r x) = (r1 <- r_reset r ;; Ok (setRem r1 x)).
Proof. intros [] x. unfold r_reset. cbn. destruct (dle d0 r_rate), r_pstart; cbn; try reflexivity; destruct (chk32 _); cbn; reflexivity. Qed.
Lemma copy_loop_rem : forall r x, copy_loop (setRem r x) = setRem (copy_loop r) x.
Proof. intros [] x. unfold copy_loop, setLoopType, setLoopStart, setLoopFinish. cbn. destruct r_src; reflexivity. Qed.
Lemma open_src_rem : forall r x fs f p g, open_src (setRem r x) fs f p g = setRem (open_src r fs f p g) x.
Proof. intros [] x fs f p g. unfold open_src. cbn. destruct r_loop; reflexivity. Qed.
Lemma start_rem : forall r x, start_file (setRem r x) = ('(b, y) <- start_file r ;; Ok (b, setRem y x)).
Proof.
  intros r x. unfold start_file. rewrite reset_rem. destruct (r_reset r) as [r1| |]; cbn [bind]; try reflexivity.
  change (r_src (setRem r1 x)) with (r_src r1). destruct (r_src r1) as [| |g]; cbn [bind]; try reflexivity.
  change (r_pos1 (setRem r1 x)) with (r_pos1 r1). change (r_rate (setRem r1 x)) with (r_rate r1).
  destruct (preLoadBuffers _ _ _) as [[t g']| |]; cbn [bind]; reflexivity.
Qed.
Lemma open_rem : forall r x f p g, play_open (setRem r x) f p g = ('(b, y) <- play_open r f p g ;; Ok (b, setRem y x)).
Proof.
  intros r x f p g. unfold play_open. change (r_fsize (setRem r x)) with (r_fsize r). change (r_hdr (setRem r x)) with (r_hdr r).
  change (r_fsamples (setRem r x)) with (r_fsamples r). change (r_nch (setRem r x)) with (r_nch r).
  destruct (_ <=? _); [reflexivity|]. destruct (sdiv32 _ _) as [fs| |]; cbn [bind]; try reflexivity.
  rewrite open_src_rem, copy_loop_rem. apply start_rem.
Qed.
Lemma rem_set : forall r, setRem (setRem r d0) (r_rem r) = r. Proof. intros []. reflexivity. Qed.

(* ---- reloading ---- *)

Lemma reload_total : forall k fl g x, creach (cfg_of k) fl g -> i_loop g = LNone -> fin64 x = true -> (0 <= R64 x <= 1)%R ->
  exists g', total (fun f => triggerReload f g (f_of_d x)) g' /\ i_loop g' = LNone.
Proof.
  intros k fl g x C L F X.
  assert (S : fle f0 (f_of_d x) = true). { apply rate_single_sign; [exact F|]. split; [lra|]. apply Rle_trans with 1%R; [lra|]. apply IZR_le. lia. }
  destruct (reload_returns_forward (cfg_of k) fl g (f_of_d x) (cfg_of_ok k) C (or_introl S)) as [n NF].
  destruct (triggerReload n g (f_of_d x)) as [g'|u|] eqn:E; [|now destruct (reload_none_safe n g (f_of_d x) u L)|congruence].
  exists g'. split.
  - exists n. intros f LE. unfold triggerReload in E |- *. apply bind_ok in E. destruct E as (h & E1 & E2).
    replace f with (n + (f - n))%nat by lia. rewrite (reload_loop_fuel _ _ _ _ (f - n) E1). exact E2.
  - unfold triggerReload in E. apply bind_ok in E. destruct E as (h & E1 & E2). apply Ok_inj in E2. subst g'.
    assert (LH : i_loop h = LNone).
    { revert E1. generalize (reload_rate g (f_of_d x)) as y. clear - L. revert g L. induction n as [|n IH]; intros g L y E; [discriminate|]. cbn [reload_loop] in E.
      destruct (reload_step g y) as [[[go g1]|]| |] eqn:S1; cbn [bind] in E; try discriminate.
      - destruct (reload_step_move _ _ _ _ S1) as (_ & _ & _ & _ & LE & _). destruct go; [apply (IH g1 ltac:(congruence) y E)|]. apply Ok_inj in E. congruence.
      - apply Ok_inj in E. congruence. }
    cbv zeta. destruct (feq _ _); exact LH.
Qed.

(* ---- one player ---- *)

Section File.
Variables (k : rkind) (fo : option file) (isWave : bool) (nraw : Z).
Hypothesis (KF : k <> KArray).

Record fset (r : reader) : Prop := mkFset {
  fs_dual : r_dual r = false; fs_interp : r_interp r = IQuadratic; fs_loop : r_loop r = LNone; fs_ps : r_pstart r = PSample;
  fs_remf : fin64 (r_rem r) = true; fs_rem : (0 <= R64 (r_rem r) <= 1)%R; fs_pts : pts_ok (r_pts r);
  fs_ratef : fin64 (r_rate r) = true; fs_rate : (0 <= R64 (r_rate r) <= 1)%R;
  fs_hdr : isWave = false -> r_hdr r = 0; fs_nch : r_nch r = -1 \/ 0 <= r_nch r }.
Definition finv (r : reader) : Prop :=
  life k r /\ fset r /\
  (r_playing r = false /\ r_src r = SNull \/
   exists h len nch, fits h len nch /\ (nch <= 8)%nat /\ fplay h len nch r).

Lemma fi_nch : forall r, finv r -> r_nch r = -1 \/ 0 <= r_nch r.
Proof. intros r (_ & S & _). apply S. Qed.

Lemma fi_read : forall r, finv r -> r_playing r = true -> exists fr r', total (fun f => r_read f r ABS) (fr, r') /\ finv r'.
Proof.
  intros r (L & S & [[P _]|(h & len & nch & FT & N8 & F)]) PL; [congruence|].
  destruct (safe_read _ _ (fplay_safe h len nch FT N8) r F) as (fr & r' & T & F'). exists fr, r'. split; [exact T|].
  destruct T as [n T]. specialize (T n (le_n n)). split; [eapply life_read; eauto|].
  destruct (r_read_statics _ _ _ _ _ T) as [ST _]. split; [|right; eauto 7].
  pose proof F' as (p & FF & _). destruct FF. destruct F as (p1 & FF1 & _). destruct FF1. destruct S.
  assert (Q1 : r_interp r' = r_interp r) by (symmetry; now apply (f_equal r_interp) in ST).
  assert (Q2 : r_pstart r' = r_pstart r) by (symmetry; now apply (f_equal r_pstart) in ST).
  assert (Q3 : r_hdr r' = r_hdr r) by congruence. assert (Q4 : r_nch r' = r_nch r) by congruence.
  assert (Q5 : r_rate r' = r_rate r).
  { eapply read_rate; [|exact T]. split; assumption. }
  constructor; rewrite ?Q1, ?Q2, ?Q3, ?Q4, ?Q5; assumption.
Qed.

Lemma fi_rate : forall p r, upper p -> finv r -> exists r', setPlaybackRate r (pot_rate p) = Ok r' /\ finv r'.
Proof.
  intros p r U (L & S & H). destruct (pot_upper p U) as [F X]. set (x := pot_rate p) in *. clearbody x.
  assert (E : exists r', setPlaybackRate r x = Ok r' /\ (r' = r <| r_rate := x |> \/ r_pos1 r < r_hdr r /\ exists q, r' = r <| r_rate := x |> <| r_pos1 := q |>)).
  { unfold setPlaybackRate. cbv zeta. change (r_dual (r <| r_rate := x |>)) with (r_dual r). rewrite (fs_dual r S). cbn [negb].
    rewrite dlt_R by auto using fin_d0. rewrite R64_d0, Rlt_bool_false by apply X.
    change (r_pos1 (r <| r_rate := x |>)) with (r_pos1 r). change (r_hdr (r <| r_rate := x |>)) with (r_hdr r).
    destruct (dle d0 x); cbn [andb]; [|eauto]. destruct (Z.ltb_spec (r_pos1 r) (r_hdr r)); eauto 6. }
  destruct E as (r' & E & V). exists r'. split; [exact E|]. split; [eapply (life_call k 0 (CRate x)); [exact L|exact E]|].
  destruct V as [->|(LT & q & ->)]; (split; [destruct S; constructor; try assumption|]).
  - destruct H as [H|(h & len & nch & FT & N8 & q & FF & B)]; [left; exact H|]. right. exists h, len, nch. split; [exact FT|]. split; [exact N8|].
    exists q. split; [|exact B]. destruct FF. constructor; try assumption. split; [apply X|]. apply Rle_trans with 1%R; [apply X|]. apply IZR_le. lia.
  - destruct H as [H|(h & len & nch & FT & N8 & p1 & FF & B)]; [left; exact H|]. exfalso. rewrite (f_pos _ _ _ _ _ FF), (f_hdr _ _ _ _ _ FF) in LT. lia.
Qed.

Lemma close_set : forall r, fset r -> fset (r_close r).
Proof. intros r []. unfold r_close. destruct (r_kind r); constructor; assumption. Qed.

Lemma fi_response : true = true -> forall st r, finv r -> exists r', total (fun f => response f st r) r' /\ finv r'.
Proof.
  intros _ st r (L & S & H). unfold response. destruct (st =? evReload); [|destruct (st =? evClose)].
  - destruct H as [[P Z]|(h & len & nch & FT & N8 & p & FF & B)].
    + exists r. split; [|split; [exact L|split; [exact S|left; auto]]]. exists O. intros f _. unfold r_triggerReload. now rewrite Z.
    + destruct (f_src _ _ _ _ _ FF) as (g & SG & LG). destruct (li_open _ _ L g SG) as (_ & fl & C).
      destruct (reload_total k fl g (r_rate r) C LG (fs_ratef r S) (fs_rate r S)) as (g' & [n T] & LG').
      assert (E : forall f, (n <= f)%nat -> r_triggerReload f r = Ok (r <| r_src := SFile g' |>)).
      { intros f LE. unfold r_triggerReload. rewrite SG, T by exact LE. reflexivity. }
      exists (r <| r_src := SFile g' |>). split; [exists n; exact E|]. split; [eapply life_reload; [exact L|apply (E n); lia]|].
      split; [destruct S; constructor; assumption|]. right. exists h, len, nch. split; [exact FT|]. split; [exact N8|]. exists p. split; [|exact B].
      destruct FF. constructor; try assumption. exists g'. split; [reflexivity|exact LG'].
  - exists (r_close r). split; [exists O; reflexivity|]. destruct (life_close k r L) as (L' & P & SN & _).
    split; [exact L'|]. split; [now apply close_set|]. left. split; [exact P|now apply SN].
  - exists r. split; [exists O; reflexivity|]. split; [exact L|]. auto.
Qed.

(* A start, in a world like that *)
Lemma file_op : forall st g w, world_ok true finv w ->
  (exists b r', r_play_file (r_stop (w_rd w 0)) fo isWave nraw st g = Ok (b, r') /\ finv r') ->
  op_ok true finv (WPlayFile 0 fo isWave nraw st g) w.
Proof.
  intros st g w (a & q & v & Y & A & H) (b & r' & E & H').
  pose proof (ys_disable _ _ _ _ _ Y ltac:(lia)) as Y1. pose proof (ys_stop _ _ _ _ _ 0%nat Y1 ltac:(lia)) as Y2.
  destruct (proj2 Y2) as (FO & _).
  assert (PF : exists w', p_play_file 0 fo isWave nraw st g w = Ok (b, w')).
  { unfold p_play_file. cbv zeta. rewrite FO. cbn [bind].
    match goal with |- context [r_play_file (w_rd ?x 0)] => assert (R0 : w_rd x 0 = r_stop (w_rd w 0)) end.
    { rewrite rd_sys. unfold p_stop. cbv zeta. reflexivity. }
    rewrite R0, E. cbn [bind]. eauto. }
  destruct PF as (w' & PF). exists (WoPlay 0 b), w'. split; [exists O; intros f _; cbn [wop_run]; rewrite PF; reflexivity|].
  apply p_play_file_inv in PF. destruct PF as (r2 & E2 & R & s2 & AT & SS). rewrite E in E2. apply Ok_inj, pair_equal_spec in E2. destruct E2 as [_ <-].
  cbv zeta in AT. rewrite FO in AT. apply Ok_inj in AT. subst s2.
  pose proof (ys_attach _ _ _ _ _ 0%nat Y2 ltac:(lia)) as Y3. pose proof (ys_enable _ _ _ 0 _ Y3 ltac:(lia)) as Y4.
  exists (att_set a 0 true), (q_remove (q_remove q 0) 0), (Z.lor v EVR). split; [eapply ys_rd; [exact Y4|exact SS]|]. split.
  - intros j AJ. split; [|reflexivity]. unfold att_set in AJ. destruct (Nat.eqb_spec j 0); [auto|]. now apply A.
  - rewrite R. exact H'.
Qed.

(* Opening that succeeds *)
Lemma fi_open : forall r r1 fl fsam nch h len p garbage, (nch <= 8)%nat -> fset r -> r_cfg r1 = cfg_of k -> r_nch r1 = Z.of_nat nch -> r_hdr r1 = h -> r_fsize r1 = fsize fl ->
  r_fsamples r1 = fsam -> 0 <= fsam -> len = fsam / Z.of_nat nch -> file_holds fl h len nch -> r_rate r1 = r_rate r -> (isWave = false -> h = 0) ->
  (r_dual r1, r_interp r1, r_loop r1, r_pstart r1, r_rem r1) = (r_dual r, r_interp r, r_loop r, r_pstart r, r_rem r) ->
  exists r', play_open r1 fl p garbage = Ok (true, r') /\ (r_pts r' = r_pts r -> fset r' /\ fits h len nch /\ fplay h len nch r').
Proof.
  intros r r1 fl fsam nch h len p garbage N8 S CC NC HH FZ FQ FQ0 LEN FH RC HW SE.
  rewrite !pair_equal_spec in SE. destruct SE as ((((E1 & E2) & E3) & E4) & E5).
  destruct S as [S1 S2 S3 S4 S5 S6 S7 S8 S9 S10 S11]. rewrite <- E1 in S1. rewrite <- E2 in S2. rewrite <- E3 in S3. rewrite <- E4 in S4. rewrite <- E5 in S5, S6. rewrite <- RC in S8, S9.
  set (rb := setInterpolationType (setRem r1 d0) INone).
  assert (BS : basic_settings rb LNone PSample (r_pbstart r1)) by (repeat split; assumption).
  destruct (open_state rb fl fsam nch h len p garbage LNone PSample (r_pbstart r1)) as
    (r' & g & E & PL & RT & FS & LP & RM & PS & PO & _ & _ & SG & W); try assumption; try discriminate; try apply S9.
  { change (r_cfg rb) with (r_cfg r1). rewrite CC. apply cfg_of_ok. }
  destruct (W eq_refl) as (m & f & SF & WI & _). rewrite SG in SF. injection SF as <-.
  assert (X1 : play_open (setRem r1 d0) fl p garbage = Ok (true, setInterpolationType r' IQuadratic)).
  { rewrite <- (interp_set (setRem r1 d0) IQuadratic S2). rewrite open_interp. fold rb. rewrite E. reflexivity. }
  assert (X2 : play_open r1 fl p garbage = Ok (true, setRem (setInterpolationType r' IQuadratic) (r_rem r1))).
  { rewrite <- (rem_set r1) at 1. rewrite open_rem, X1. reflexivity. }
  exists (setRem (setInterpolationType r' IQuadratic) (r_rem r1)). split; [exact X2|].
  intros PT. change (r_pts r' = r_pts r) in PT.
  assert (PT' : pts_ok (r_pts r')) by (rewrite PT; exact S7).
  assert (RF : r_rate r' = r_rate r1) by exact RT. rewrite <- RF in S8, S9.
  destruct PL as [PD PI PN PH PC PP]. split; [|split; [apply FH|]].
  - constructor; try assumption; try reflexivity.
    + change (isWave = false -> r_hdr r' = 0). intros IW. rewrite PH. auto.
    + change (r_nch r' = -1 \/ 0 <= r_nch r'). right. rewrite PN. lia.
  - exists 0. split; [|destruct FH as ((_ & L0 & _) & _); lia].
    constructor; try assumption.
    + exists g. split; [exact SG|apply WI].
    + change (0 <= R64 (r_rate r') <= IZR (2 ^ 26))%R. split; [apply S9|]. apply Rle_trans with 1%R; [apply S9|]. apply IZR_le. lia.
Qed.
End File.

(* Opening that fails leaves an idle player *)
Lemma missing_file : forall r w n st g, r_play_file r None w n st g =
  Ok (false, drop_name (named (if w then r_close r else setNumChannels (r_close r) n))).
Proof. intros r w n st g. unfold r_play_file. cbv zeta. destruct w, (r_kind _); reflexivity. Qed.
Lemma empty_file : forall r fl n st g, r_kind r <> KArray -> r_hdr r = 0 -> fsize fl = 0 -> r_play_file r (Some fl) false n st g =
  Ok (false, drop_name ((named (setNumChannels (r_close r) n)) <| r_fsize := 0 |> <| r_fsamples := 0 |> <| r_playing := false |>)).
Proof.
  intros r fl n st g K H Z. unfold r_play_file. cbv zeta.
  assert (K2 : r_kind (r_close r) = r_kind r) by (unfold r_close; destruct (r_kind r) eqn:Q; exact Q).
  assert (H2 : r_hdr (r_close r) = 0) by (unfold r_close; destruct (r_kind r); exact H).
  set (q := r_close r) in *. clearbody q. change (r_kind (_ <| r_live := _ |>)) with (r_kind q). rewrite K2.
  unfold play_open. destruct (r_kind r); [congruence|..]; cbv beta iota; rewrite Z; cbn [bind];
    match goal with |- context [u32 (r_hdr ?x * 2)] => change (r_hdr x) with (r_hdr q); change (r_fsize x) with 0 end; rewrite H2; reflexivity.
Qed.

Lemma idle_set : forall w r r', fset w r -> (r_dual r', r_interp r', r_loop r', r_pstart r', r_rem r', r_pts r', r_rate r', r_hdr r') =
  (r_dual r, r_interp r, r_loop r, r_pstart r, r_rem r, r_pts r, r_rate r, r_hdr r) -> (r_nch r' = -1 \/ 0 <= r_nch r') -> fset w r'.
Proof.
  intros w r r' S E N. rewrite !pair_equal_spec in E. destruct E as (((((((E1 & E2) & E3) & E4) & E5) & E6) & E7) & E8).
  destruct S. constructor; rewrite ?E1, ?E2, ?E3, ?E4, ?E5, ?E6, ?E7, ?E8; assumption.
Qed.

Lemma stop_set : forall w r, fset w r -> fset w (r_stop r). Proof. intros w r []. constructor; assumption. Qed.

Lemma idle_start : forall k w r q b, k <> KArray -> life k q -> r_playing q = false -> fset w r -> r_src q = SNull ->
  (r_dual q, r_interp q, r_loop q, r_pstart q, r_rem q, r_pts q, r_rate q, r_hdr q) =
  (r_dual r, r_interp r, r_loop r, r_pstart r, r_rem r, r_pts r, r_rate r, r_hdr r) -> (r_nch q = -1 \/ 0 <= r_nch q) ->
  exists (b' : bool) r', Ok (b, q) = Ok (b', r') /\ finv k w r'.
Proof.
  intros k w r q b K L P S SN E N. exists b, q. split; [reflexivity|]. split; [exact L|]. split; [eapply idle_set; eauto|]. left. auto.
Qed.

Lemma raw_start : forall k fo r st g, k <> KArray -> raw_ok fo -> finv k false r ->
  exists b r', r_play_file (r_stop r) fo false 1 st g = Ok (b, r') /\ finv k false r'.
Proof.
  intros k fo r st g KF RO (L & S & _). pose proof (life_stop k r L) as LS. pose proof (stop_set _ _ S) as SS. set (q := r_stop r) in *. clearbody q. clear r L S.
  pose proof (li_kind _ _ LS) as KK. destruct (life_close k q LS) as (LC & PC & SC & _). destruct (SC KF) as [SN _].
  destruct fo as [fl|].
  - specialize (RO fl eq_refl). destruct (Z.eq_dec (fsize fl) 0) as [Z|Z].
    + pose proof (empty_file q fl 1 st g ltac:(congruence) (fs_hdr _ _ SS eq_refl) Z) as E. destruct (life_play_file _ _ _ _ _ _ _ _ _ LS E) as [L' _].
      rewrite E. apply (idle_start k false q); first [assumption | exact PC | exact SN | reflexivity | right; cbn; lia | unfold r_close; destruct (r_kind q); reflexivity].
    + destruct (play_raw_open q fl 1 st g ltac:(congruence) ltac:(lia) RO) as (r1 & E & CC & NC & HC & FC & QC & RC & SE).
      rewrite !pair_equal_spec in SE. destruct SE as (((((((E1 & E2) & E3) & E4) & E5) & E6) & E7) & E8).
      assert (D2 : 2 * (fsize fl / 2) <= fsize fl) by (apply Z.mul_div_le; lia). assert (D0 : 0 <= fsize fl / 2) by (apply Z.div_pos; lia).
      destruct (fi_open k false q r1 fl (fsize fl / 2) 1 0 (fsize fl / 2) 0 g) as (r' & EO & K2); auto; try lia.
      * rewrite CC. apply LS.
      * rewrite HC. now apply (fs_hdr false q SS).
      * change (Z.of_nat 1) with 1. now rewrite Z.div_1_r.
      * unfold file_holds, fits. repeat split; auto; lia.
      * congruence.
      * rewrite EO in E. destruct (K2 (file_points _ _ _ _ _ _ _ E)) as (S' & FT & FP). exists true, r'. split; [exact E|].
        destruct (life_play_file _ _ _ _ _ _ _ _ _ LS E) as [L' _]. split; [exact L'|]. split; [exact S'|]. right. exists 0, (fsize fl / 2), 1%nat. auto with arith.
  - rewrite missing_file. pose proof (missing_file q false 1 st g) as E. destruct (life_play_file _ _ _ _ _ _ _ _ _ LS E) as [L' _].
    apply (idle_start k false q); first [assumption | exact PC | exact SN | right; cbn; lia | unfold r_close; destruct (r_kind q); reflexivity].
Qed.

Lemma wav_start : forall k fo r st g, k <> KArray -> wav_ok fo -> bytes_ok st -> finv k true r ->
  exists b r', r_play_file (r_stop r) fo true 0 st g = Ok (b, r') /\ finv k true r'.
Proof.
  intros k fo r st g KF WO BO (L & S & _). pose proof (life_stop k r L) as LS. pose proof (stop_set _ _ S) as SS. set (q := r_stop r) in *. clearbody q. clear r L S.
  pose proof (li_kind _ _ LS) as KK. destruct (life_close k q LS) as (LC & PC & SC & _). destruct (SC KF) as [SN _].
  destruct fo as [fl|].
  - destruct (WO fl eq_refl) as (nch & tags & n & WF & N8).
    destruct (play_wav_open q fl nch tags n 0 st g ltac:(congruence) BO WF ltac:(lia)) as (r1 & E & CC & NC & HC & SZ1 & FC & RC & SE).
    destruct (wav_file_plays fl nch tags n WF) as (_ & _ & _ & E2 & N0). destruct WF as (_ & _ & _ & _ & N1 & _ & _ & T0 & SZ & SL).
    rewrite !pair_equal_spec in SE. destruct SE as (((((((F1 & F2) & F3) & F4) & F5) & F6) & F7) & F8).
    set (len := n / 2 / Z.of_nat nch). assert (LN : 0 <= len) by (unfold len; apply Z.div_pos; [apply Z.div_pos|]; lia).
    assert (L2 : 2 * (len * Z.of_nat nch) <= n).
    { unfold len. pose proof (Z.mul_div_le n 2 ltac:(lia)). pose proof (Z.mul_div_le (n / 2) (Z.of_nat nch) ltac:(lia)). lia. }
    destruct (fi_open k true q r1 fl (n / 2) nch ((44 + tags) / 2) len (44 + tags) g) as (r' & EO & K2); auto; try lia; try discriminate.
    * rewrite CC. apply LS.
    * apply Z.div_pos; lia.
    * unfold file_holds, fits. repeat split; auto; lia.
    * congruence.
    * rewrite EO in E. destruct (K2 (file_points _ _ _ _ _ _ _ E)) as (S' & FT & FP). exists true, r'. split; [exact E|].
      destruct (life_play_file _ _ _ _ _ _ _ _ _ LS E) as [L' _]. split; [exact L'|]. split; [exact S'|]. right. eauto 7.
  - rewrite missing_file. pose proof (missing_file q true 0 st g) as E. destruct (life_play_file _ _ _ _ _ _ _ _ _ LS E) as [L' _].
    apply (idle_start k true q); first [assumption | exact PC | exact SN | unfold r_close; destruct (r_kind q); first [reflexivity | apply SS]].
Qed.

(* ---- the sketches ---- *)

Lemma fresh_file : forall k w, finv k w (setInterpolationType (new_reader k) IQuadratic).
Proof.
  intros k w. split; [apply (life_call k 0 (CInterp IQuadratic) (new_reader k)); [apply life_new|reflexivity]|]. split; [|left; split; reflexivity].
  constructor; try reflexivity; try (cbn; auto; fail).
  - change (0 <= R64 d0 <= 1)%R. rewrite R64_d0. lra.
  - intros c. repeat split; discriminate.
  - change (0 <= R64 d1 <= 1)%R. rewrite R64_d1. lra.
Qed.

Theorem raw_upper : forall k fo, k <> KArray -> raw_ok fo -> forall flags analog l, 0 <= flags < 256 -> upper analog -> Forall (turn_ok upper) l ->
  exists F xs w, forall fuel, (F <= fuel)%nat -> sketch fuel k flags (start_raw fo) analog l = Ok (xs, w).
Proof.
  intros k fo K RO flags analog l FL U A. destruct (fi_rate k false analog _ U (fresh_file k false)) as (r0 & E & I1).
  destruct (sketch_total true (finv k false) upper (start_raw fo) (fi_nch k false) (fi_read k false) (fi_rate k false) (fi_response k false K))
    with (k := k) (flags := flags) (analog := analog) (l := l) (r0 := r0) as (xs & w & [F T] & _); auto.
  - intros st g w BO W PL. apply file_op; [exact W|]. destruct W as (a & q & v & _ & _ & H). now apply raw_start.
  - exists F, xs, w. exact T.
Qed.

Theorem wav_upper : forall k fo, k <> KArray -> wav_ok fo -> forall flags analog l, 0 <= flags < 256 -> upper analog -> Forall (turn_ok upper) l ->
  exists F xs w, forall fuel, (F <= fuel)%nat -> sketch fuel k flags (start_wav fo) analog l = Ok (xs, w).
Proof.
  intros k fo K RO flags analog l FL U A. destruct (fi_rate k true analog _ U (fresh_file k true)) as (r0 & E & I1).
  destruct (sketch_total true (finv k true) upper (start_wav fo) (fi_nch k true) (fi_read k true) (fi_rate k true) (fi_response k true K))
    with (k := k) (flags := flags) (analog := analog) (l := l) (r0 := r0) as (xs & w & [F T] & _); auto.
  - intros st g w BO W PL. apply file_op; [exact W|]. destruct W as (a & q & v & _ & _ & H). now apply wav_start.
  - exists F, xs, w. exact T.
Qed.

