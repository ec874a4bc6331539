(* C106, C107: from play(). *)

From Coq Require Import ZArith Lia List Bool Reals Lra.
From RecordUpdate Require Import RecordUpdate.
From Flocq Require Import Core.Core IEEE754.BinarySingleNaN.
From Verif Require Import Machine Floats FloatFacts WavModel InterpModel CacheModel ReaderModel ReaderFacts ResponderModel ResponderSpec
  ResponderProofs QueueProofs PlayerModel CacheFacts CacheSpec CacheProofs CacheFinal ReaderSpec FileSpec LifeSpec UpdateProofs LifeProofs
  WorldProofs ScheduleProofs FileProofs WavSpec WavPlayProofs FilePlay FileForward StageSpec StageProofs TapeSpec TapeProofs BackSpec BackProofs BackOpen
  CallTweak CallAtomic ReelSpec ReelProofs.
Import ListNotations.
Local Open Scope Z_scope.

(* ---- what play() opens ---- *)

Lemma preload_keeps : forall todo k fwd f i t n f', preload_loop todo k fwd f i t = Ok (n, f') -> i_loop f' = i_loop f.
Proof.
  induction todo as [|todo IH]; intros k fwd f i t n f' E; cbn [preload_loop] in E.
  - apply Ok_inj, pair_equal_spec in E. destruct E as [_ <-]. reflexivity.
  - cbv zeta in E. set (f1 := if Nat.leb _ _ then _ else _) in E. assert (L1 : i_loop f1 = i_loop f) by (unfold f1; destruct (Nat.leb _ _); reflexivity).
    clearbody f1. destruct (nth_error _ _); [|discriminate]. destruct (loadBuffer _ _ _) as [[b' p] m]. destruct (_ <? _).
    + apply Ok_inj, pair_equal_spec in E. destruct E as [_ <-]. exact L1.
    + apply bind_ok in E. destruct E as (i' & _ & E). rewrite (IH _ _ _ _ _ _ _ E). exact L1.
Qed.
Lemma started_onward : forall r g g' t, onward r -> i_loop g' = LNone -> forall r', (t, started r g g') = (true, r') ->
  unlooped r' /\ onward r' /\ r_rate r' = r_rate r.
Proof. intros r g g' t [A B] G r' E. apply pair_equal_spec in E. destruct E as [_ <-]. split; [exists g'; split; [reflexivity|exact G]|]. split; [split; [exact A|exact B]|reflexivity]. Qed.
Lemma start_onward : forall r g r', start_file r = Ok (true, r') -> r_src r = SFile g -> i_loop g = LNone -> onward r ->
  unlooped r' /\ onward r' /\ r_rate r' = r_rate r.
Proof.
  intros r g r' E S L W. unfold start_file in E. apply bind_ok in E. destruct E as (r3 & RE & E).
  destruct (reset_core _ _ RE) as (C3 & S3 & _). rewrite S3, S in E. apply bind_ok in E. destruct E as ([t g'] & PR & E).
  assert (L3 : r_loop r3 = r_loop r) by exact (f_equal (fun c => snd (fst (fst (fst (fst (fst (fst (fst (fst c))))))))) C3).
  assert (D3 : r_dual r3 = r_dual r) by exact (f_equal (fun c => fst (fst (fst (fst (fst (fst (fst (fst (fst (fst c)))))))))) C3).
  assert (R3 : r_rate r3 = r_rate r) by exact (f_equal (fun c => snd (fst (fst (fst (fst c))))) C3).
  unfold preLoadBuffers in PR. pose proof (preload_keeps _ _ _ _ _ _ _ _ PR) as PK. apply Ok_inj in E.
  assert (W3 : onward r3) by (unfold onward; rewrite L3, D3; exact W). rewrite <- R3.
  exact (started_onward r3 g g' true W3 (eq_trans PK L) r' E).
Qed.
Lemma open_onward : forall r fl p garbage r', play_open r fl p garbage = Ok (true, r') -> r_loop r = LNone -> r_dual r = false ->
  unlooped r' /\ onward r' /\ r_rate r' = r_rate r.
Proof.
  intros r fl p garbage r' E L D. unfold play_open in E. destruct (_ <=? _); [apply Ok_inj, pair_equal_spec in E; destruct E; discriminate|].
  apply bind_ok in E. destruct E as (fs & _ & E).
  destruct (open_src_proj r fs fl p garbage) as (S1 & _).
  assert (O1 : core (open_src r fs fl p garbage) = core r) by (unfold open_src; destruct (r_loop r); reflexivity).
  cbv zeta in S1. set (r1 := open_src r fs fl p garbage) in *. clearbody r1.
  destruct (copy_loop_core r1) as (Q1 & _). destruct (copy_loop_src r1 _ S1) as (g & S2 & _ & _ & _ & _ & G).
  set (r2 := copy_loop r1) in *. clearbody r2. rewrite O1 in Q1.
  assert (L1 : r_loop r1 = r_loop r) by exact (f_equal (fun c => snd (fst (fst (fst (fst (fst (fst (fst (fst c))))))))) O1).
  assert (L3 : r_loop r2 = r_loop r) by exact (f_equal (fun c => snd (fst (fst (fst (fst (fst (fst (fst (fst c))))))))) Q1).
  assert (D3 : r_dual r2 = r_dual r) by exact (f_equal (fun c => fst (fst (fst (fst (fst (fst (fst (fst (fst (fst c)))))))))) Q1).
  assert (R3 : r_rate r2 = r_rate r) by exact (f_equal (fun c => snd (fst (fst (fst (fst c))))) Q1). rewrite <- R3.
  apply (start_onward r2 g r' E S2); [congruence|]. split; congruence.
Qed.

Lemma play_idle : forall kinds flags N i fl isWave nraw stack garbage w r2, history kinds flags N w -> (i < N)%nat -> kinds i <> KArray ->
  r_play_file (r_stop (w_rd w i)) (Some fl) isWave nraw stack garbage = Ok (true, r2) ->
  exists w0, p_play_file i (Some fl) isWave nraw stack garbage w = Ok (true, w0) /\ idle kinds N i r2 w0.
Proof.
  intros kinds flags N i fl isWave nraw stack garbage w r2 H IN KI E.
  destruct (history_ymode _ _ _ _ H) as (a & q & v & [HA HS HT HP]).
  assert (PF : exists w0, p_play_file i (Some fl) isWave nraw stack garbage w = Ok (true, w0)).
  { unfold p_play_file. cbv zeta. pose proof (ys_disable _ _ _ _ _ HS ltac:(lia)) as Y1.
    pose proof (ys_stop _ _ _ _ _ i Y1 ltac:(lia)) as Y2. destruct (proj2 Y2) as (FO & _). rewrite FO. cbn [bind].
    match goal with |- context [r_play_file (w_rd ?x i)] => assert (R0 : w_rd x i = r_stop (w_rd w i)) end.
    { rewrite rd_sys. unfold p_stop. cbv zeta. cbn. now rewrite Nat.eqb_refl. }
    rewrite R0, E. cbn [bind]. eauto. }
  destruct PF as (w0 & PF). exists w0. split; [exact PF|].
  assert (HA' : alive kinds w0).
  { eapply (wop_alive kinds 0 (WPlayFile i (Some fl) isWave nraw stack garbage) w); [exact HA|exact I|]. cbn [wop_run]. rewrite PF. reflexivity. }
  apply p_play_file_inv in PF. destruct PF as (r & E2 & R & s2 & A & S). rewrite E in E2. apply Ok_inj in E2. apply pair_equal_spec in E2.
  destruct E2 as [_ <-].
  pose proof (ys_disable _ _ _ _ _ HS ltac:(lia)) as Y1. pose proof (ys_stop _ _ _ _ _ i Y1 ltac:(lia)) as Y2.
  destruct (proj2 Y2) as (FO & _). cbv zeta in A. rewrite FO in A. apply Ok_inj in A. subst s2.
  pose proof (ys_attach _ _ _ _ _ i Y2 ltac:(lia)) as Y3. pose proof (ys_enable _ _ _ 0 _ Y3 ltac:(lia)) as Y4.
  exists (att_set a i true), (q_remove (q_remove q i) i), (Z.lor v EVR). split; [constructor|split; [|split]].
  - exact HA'.
  - eapply ys_rd; [exact Y4|]. exact S.
  - intros j AJ. unfold att_set in AJ. split.
    + destruct (Nat.eqb_spec j i) as [EQ|NE]; [now rewrite EQ|]. now apply HT.
    + rewrite Z.lor_spec. apply orb_true_r.
  - intros j KJ PJ. unfold att_set. rewrite R in PJ. destruct (Nat.eqb j i); auto.
  - unfold att_set. now rewrite Nat.eqb_refl.
  - now rewrite R, Nat.eqb_refl.
  - apply remove_pending.
Qed.

Lemma spun_app : forall F a b r bs r', spun F r (a ++ b) = Ok (bs, r') ->
  exists b1 r1 b2, spun F r a = Ok (b1, r1) /\ spun F r1 b = Ok (b2, r') /\ bs = b1 ++ b2.
Proof.
  intros F. induction a as [|[x|n] a IH]; intros b r bs r' E; cbn [app spun] in *.
  - exists [], r, bs. auto.
  - apply bind_ok in E. destruct E as (r1 & E1 & E). rewrite E1. cbn [bind]. apply IH. exact E.
  - apply bind_ok in E. destruct E as ([c r1] & E1 & E). apply bind_ok in E. destruct E as (r2 & E2 & E). apply bind_ok in E. destruct E as ([cs r3] & E3 & E).
    apply Ok_inj, pair_equal_spec in E. destruct E as [<- <-]. rewrite E1. cbn [bind]. rewrite E2. cbn [bind].
    destruct (IH _ _ _ _ E3) as (b1 & r4 & b2 & A & B & ->). rewrite A. cbn [bind]. exists (c :: b1), r4, b2. auto.
Qed.

(* [ok] puts up with one update more, and fixes the direction *)
Lemma reel_stage : forall kinds flags N i fl isWave nraw stack garbage nch (ok : list tape_op -> Prop) out d w r1 p r2, history kinds flags N w -> (i < N)%nat -> kinds i <> KArray ->
  (1 <= nch)%nat -> r_nch r1 = Z.of_nat nch -> r_loop r1 = LNone -> r_dual r1 = false -> fle f0 (f_of_d (r_rate r1)) = d ->
  r_play_file (r_stop (w_rd w i)) (Some fl) isWave nraw stack garbage = play_open r1 fl p garbage ->
  r_play_file (r_stop (w_rd w i)) (Some fl) isWave nraw stack garbage = Ok (true, r2) ->
  (forall l, ok l -> ok (l ++ [Block 128]) /\ Forall (heads d) l) ->
  (forall l, ok l -> exists fuel s, spun fuel r2 l = Ok (out l, s)) ->
  plays_reel kinds N i fl isWave nraw stack garbage nch ok out w.
Proof.
  intros kinds flags N i fl isWave nraw stack garbage nch ok out d w r1 p r2 H IN KI N1 NC LP DU DR EO E OK SP.
  destruct (play_idle _ _ _ _ _ _ _ _ _ _ _ H IN KI E) as (w0 & PF & ID). exists w0. split; [exact PF|]. intros fuel l xs w' RO OKL EW.
  rewrite EO in E. destruct (play_open_result _ _ _ _ _ _ E) as (_ & PL & NC2). destruct (open_onward _ _ _ _ _ E LP DU) as ((f & S & LF) & OW & RT).
  destruct (OK _ OKL) as [OK2 HD]. destruct (SP _ OKL) as (F1 & s1 & E1). destruct (SP _ OK2) as (F2 & s2 & E2).
  apply spun_app in E2. destruct E2 as (b1 & s3 & b2 & E2 & E3 & _).
  assert (ES : s3 = s1).
  { apply (spun_fuel _ _ (F1 + F2)) in E1; [|lia]. apply (spun_fuel _ _ (F1 + F2)) in E2; [|lia]. rewrite E1 in E2. apply Ok_inj, pair_equal_spec in E2. now symmetry. }
  subst s3. cbn [spun] in E3. apply bind_ok in E3. destruct E3 as (x & E3 & _).
  assert (AK : akin r2 r2).
  { exists f, (i_prev f). split; [exact S|]. split; [exact LF|]. rewrite (with_prev_src _ _ _ S). destruct f. destruct r2. cbn in *. subst. reflexivity. }
  destruct (reel_play kinds N i fuel nch d l F1 r2 r2 w0 xs w' _ s1 IN ID AK PL ltac:(congruence) N1 OW ltac:(congruence) HD E1 ltac:(eauto) RO EW) as (HE & r' & SD & P').
  split; [exact HE|]. split; [|now apply (next_update kinds N i r')].
  destruct SD as ((a' & q' & v' & _ & _ & -> & _) & _). exact P'.
Qed.

(* ---- forwards ---- *)

Lemma tape_heads : forall q X l, 0 <= q <= 52 -> (X <= IZR (2 ^ 30))%R -> Forall (tape_ok q X 128) l ->
  Forall (tape_ok q X 128) (l ++ [Block 128]) /\ Forall (heads true) l.
Proof.
  intros q X l Q XB F. split; [apply Forall_app; split; [exact F|repeat constructor]|]. eapply Forall_impl; [|exact F].
  intros [x|n]; cbn; [|auto]. intros (FX & U & num & NM & EX). apply rate_single_sign; [exact FX|]. split; [|lra].
  rewrite EX. apply Rmult_le_pos; [apply (IZR_le 0); lia|apply bpow_ge_0].
Qed.

Section Bounds.
Variable nch : nat.
Hypothesis N1 : (1 <= nch)%nat.
Variable X : R.
Hypothesis XB : ((X + 1) * INR nch <= IZR (2 ^ 30))%R.
Lemma speed_bound : (0 <= X -> X <= IZR (2 ^ 30))%R.
Proof. intro X0. assert (1 <= INR nch)%R by (apply (le_INR 1); lia). nra. Qed.
End Bounds.
Lemma rate_bound : forall q X x, rate_ok q X x -> (0 <= X)%R.
Proof. intros q X x (_ & U & num & NM & EX). eapply Rle_trans; [|exact U]. rewrite EX. apply Rmult_le_pos; [apply (IZR_le 0); lia|apply bpow_ge_0]. Qed.
Lemma back_bound : forall q X x, back_ok q X x -> (0 <= X)%R.
Proof. intros q X x (_ & U & num & NM & EX). assert (0 <= IZR num * bpow radix2 (- q))%R by (apply Rmult_le_pos; [apply (IZR_le 0); lia|apply bpow_ge_0]). lra. Qed.

Lemma reel_wav : forall q, 0 <= q <= 52 -> forall kinds flags N i w fl nch tags n nraw stack garbage ps pb X, history kinds flags N w -> (i < N)%nat -> kinds i <> KArray ->
  basic_settings (w_rd w i) LNone ps pb -> bytes_ok stack -> wav_file fl nch tags n -> Z.of_nat nch < 2 ^ 15 ->
  let len := n / 2 / Z.of_nat nch in
  (ps = PArbitrary -> 0 <= pb <= len) ->
  let x := r_rate (w_rd w i) in
  rate_ok q X x -> ((X + 1) * INR nch <= IZR (2 ^ 30))%R -> ((INR (2 * 128) * X + 2) * INR nch <= IZR ((Z.of_nat (c_nbuf (cfg_of (kinds i))) - 1) * BS (cfg_of (kinds i))))%R ->
  plays_reel kinds N i fl true nraw stack garbage nch (Forall (tape_ok q X 128))
    (tape (file_frame fl ((44 + tags) / 2) nch) len (IZR (start_frame ps pb)) (R64 x)) w.
Proof.
  intros q Q kinds flags N i w fl nch tags n nraw stack garbage ps pb X H IN KI BS0 BO WF NB len PB x RX XB KU.
  destruct (history_ymode _ _ _ _ H) as (a & qq & v & [HA _ _ _]). destruct (HA i) as [LK LC _ _ _ _ _].
  destruct (play_wav_open (r_stop (w_rd w i)) fl nch tags n nraw stack garbage) as (r1 & EO & _ & NC & _ & _ & _ & RC & SS); auto; [cbn; congruence|].
  assert (N1 : (1 <= nch)%nat) by apply WF. pose proof (speed_bound nch N1 X XB (rate_bound _ _ _ RX)) as XB2.
  destruct (tape_wav q Q (r_stop (w_rd w i)) fl nch tags n nraw stack garbage ps pb 128 X) as (r2 & E & D); auto.
  - cbn. rewrite LC. apply cfg_of_ok.
  - cbn. congruence.
  - cbn. now rewrite LC.
  - pose proof BS0 as (B1 & _ & B3 & _). eapply reel_stage with (d := true) (r1 := r1) (r2 := r2); eauto.
    + apply (settings_same _ _ LNone ps pb SS) in BS0. apply BS0.
    + apply (settings_same _ _ LNone ps pb SS) in BS0. apply BS0.
    + rewrite RC. change (r_rate (r_stop (w_rd w i))) with x. pose proof (tape_heads q X [Speed x] Q XB2 (Forall_cons (Speed x) RX (Forall_nil _))) as [_ HX]. now inversion HX.
    + intros l F. now apply (tape_heads q X).
    + intros l F. destruct (D l F) as (fu & s & S & _). eauto.
Qed.

Lemma reel_raw : forall q, 0 <= q <= 52 -> forall kinds flags N i w fl nch stack garbage ps pb X, history kinds flags N w -> (i < N)%nat -> kinds i <> KArray ->
  basic_settings (w_rd w i) LNone ps pb -> r_hdr (w_rd w i) = 0 -> (1 <= nch)%nat -> Z.of_nat nch < 2 ^ 15 -> 0 < fsize fl < 2 ^ 31 ->
  let len := fsize fl / 2 / Z.of_nat nch in
  (ps = PArbitrary -> 0 <= pb <= len) ->
  let x := r_rate (w_rd w i) in
  rate_ok q X x -> ((X + 1) * INR nch <= IZR (2 ^ 30))%R -> ((INR (2 * 128) * X + 2) * INR nch <= IZR ((Z.of_nat (c_nbuf (cfg_of (kinds i))) - 1) * BS (cfg_of (kinds i))))%R ->
  plays_reel kinds N i fl false (Z.of_nat nch) stack garbage nch (Forall (tape_ok q X 128))
    (tape (file_frame fl 0 nch) len (IZR (start_frame ps pb)) (R64 x)) w.
Proof.
  intros q Q kinds flags N i w fl nch stack garbage ps pb X H IN KI BS0 HH N1 NB S0 len PB x RX XB KU.
  destruct (history_ymode _ _ _ _ H) as (a & qq & v & [HA _ _ _]). destruct (HA i) as [LK LC _ _ _ _ _].
  destruct (play_raw_open (r_stop (w_rd w i)) fl (Z.of_nat nch) stack garbage) as (r1 & EO & _ & NC & _ & _ & _ & RC & SS); auto; try lia; [cbn; congruence|].
  pose proof (speed_bound nch N1 X XB (rate_bound _ _ _ RX)) as XB2.
  destruct (tape_raw q Q (r_stop (w_rd w i)) fl nch stack garbage ps pb 128 X) as (r2 & E & D); auto.
  - cbn. rewrite LC. apply cfg_of_ok.
  - cbn. congruence.
  - cbn. now rewrite LC.
  - pose proof BS0 as (B1 & _ & B3 & _). eapply reel_stage with (d := true) (r1 := r1) (r2 := r2); eauto.
    + apply (settings_same _ _ LNone ps pb SS) in BS0. apply BS0.
    + apply (settings_same _ _ LNone ps pb SS) in BS0. apply BS0.
    + rewrite RC. change (r_rate (r_stop (w_rd w i))) with x. pose proof (tape_heads q X [Speed x] Q XB2 (Forall_cons (Speed x) RX (Forall_nil _))) as [_ HX]. now inversion HX.
    + intros l F. now apply (tape_heads q X).
    + intros l F. destruct (D l F) as (fu & s & S & _). eauto.
Qed.

(* ---- in reverse ---- *)

Lemma above_block : forall l t x n, above t x l -> above t x (l ++ [Block n]).
Proof. induction l as [|[y|m] l IH]; intros t x n H; cbn in *; auto. destruct H. auto. Qed.
Lemma back_heads : forall q X l, 0 <= q <= 52 -> (X <= IZR (2 ^ 30))%R -> Forall (rtape_ok q X 128) l -> Forall (heads false) l.
Proof. intros q X l Q XB F. eapply Forall_impl; [|exact F]. intros [x|n]; cbn; [|auto]. intro B. now apply (back_single_sign q X). Qed.

Lemma rreel_wav : forall q, 0 <= q <= 52 -> forall kinds flags N i w fl nch tags n nraw stack garbage ps pb p0 X, history kinds flags N w -> (i < N)%nat -> kinds i <> KArray ->
  basic_settings (w_rd w i) LNone ps pb -> bytes_ok stack -> wav_file fl nch tags n -> Z.of_nat nch < 2 ^ 15 ->
  let len := n / 2 / Z.of_nat nch in
  begins (fsize fl) ((44 + tags) / 2) len nch ps pb p0 -> 0 <= p0 < len -> first_block (BS (cfg_of (kinds i))) (fsize fl) ((44 + tags) / 2) nch p0 ->
  let x := r_rate (w_rd w i) in
  back_ok q X x -> ((X + 1) * INR nch <= IZR (2 ^ 30))%R -> ((INR (2 * 128) * X + 2) * INR nch <= IZR ((Z.of_nat (c_nbuf (cfg_of (kinds i))) - 1) * BS (cfg_of (kinds i))))%R ->
  plays_reel kinds N i fl true nraw stack garbage nch (fun l => Forall (rtape_ok q X 128) l /\ above (IZR p0) (R64 x) l)
    (rtape (file_frame fl ((44 + tags) / 2) nch) (IZR p0) (R64 x)) w.
Proof.
  intros q Q kinds flags N i w fl nch tags n nraw stack garbage ps pb p0 X H IN KI BS0 BO WF NB len BG PB FB x RX XB KU.
  destruct (history_ymode _ _ _ _ H) as (a & qq & v & [HA _ _ _]). destruct (HA i) as [LK LC _ _ _ _ _].
  destruct (play_wav_open (r_stop (w_rd w i)) fl nch tags n nraw stack garbage) as (r1 & EO & _ & NC & _ & _ & _ & RC & SS); auto; [cbn; congruence|].
  assert (N1 : (1 <= nch)%nat) by apply WF. pose proof (speed_bound nch N1 X XB (back_bound _ _ _ RX)) as XB2.
  destruct (back_wav q Q (r_stop (w_rd w i)) fl nch tags n nraw stack garbage ps pb p0 128 X) as (r2 & E & D); auto.
  - cbn. rewrite LC. apply cfg_of_ok.
  - cbn. congruence.
  - cbn. now rewrite LC.
  - cbn. now rewrite LC.
  - pose proof BS0 as (B1 & _ & B3 & _). eapply reel_stage with (d := false) (r1 := r1) (r2 := r2); eauto.
    + apply (settings_same _ _ LNone ps pb SS) in BS0. apply BS0.
    + apply (settings_same _ _ LNone ps pb SS) in BS0. apply BS0.
    + rewrite RC. now apply (back_single_sign q X).
    + intros l [F A]. split; [split; [apply Forall_app; split; [exact F|repeat constructor]|now apply above_block]|now apply (back_heads q X)].
    + intros l [F A]. destruct (D l F A) as (fu & s & S & _). eauto.
Qed.

Lemma rreel_raw : forall q, 0 <= q <= 52 -> forall kinds flags N i w fl nch stack garbage ps pb p0 X, history kinds flags N w -> (i < N)%nat -> kinds i <> KArray ->
  basic_settings (w_rd w i) LNone ps pb -> r_hdr (w_rd w i) = 0 -> (1 <= nch)%nat -> Z.of_nat nch < 2 ^ 15 -> 0 < fsize fl < 2 ^ 31 ->
  let len := fsize fl / 2 / Z.of_nat nch in
  begins (fsize fl) 0 len nch ps pb p0 -> 0 <= p0 < len -> first_block (BS (cfg_of (kinds i))) (fsize fl) 0 nch p0 ->
  let x := r_rate (w_rd w i) in
  back_ok q X x -> ((X + 1) * INR nch <= IZR (2 ^ 30))%R -> ((INR (2 * 128) * X + 2) * INR nch <= IZR ((Z.of_nat (c_nbuf (cfg_of (kinds i))) - 1) * BS (cfg_of (kinds i))))%R ->
  plays_reel kinds N i fl false (Z.of_nat nch) stack garbage nch (fun l => Forall (rtape_ok q X 128) l /\ above (IZR p0) (R64 x) l)
    (rtape (file_frame fl 0 nch) (IZR p0) (R64 x)) w.
Proof.
  intros q Q kinds flags N i w fl nch stack garbage ps pb p0 X H IN KI BS0 HH N1 NB S0 len BG PB FB x RX XB KU.
  destruct (history_ymode _ _ _ _ H) as (a & qq & v & [HA _ _ _]). destruct (HA i) as [LK LC _ _ _ _ _].
  destruct (play_raw_open (r_stop (w_rd w i)) fl (Z.of_nat nch) stack garbage) as (r1 & EO & _ & NC & _ & _ & _ & RC & SS); auto; try lia; [cbn; congruence|].
  pose proof (speed_bound nch N1 X XB (back_bound _ _ _ RX)) as XB2.
  destruct (back_raw q Q (r_stop (w_rd w i)) fl nch stack garbage ps pb p0 128 X) as (r2 & E & D); auto.
  - cbn. rewrite LC. apply cfg_of_ok.
  - cbn. congruence.
  - cbn. now rewrite LC.
  - cbn. now rewrite LC.
  - pose proof BS0 as (B1 & _ & B3 & _). eapply reel_stage with (d := false) (r1 := r1) (r2 := r2); eauto.
    + apply (settings_same _ _ LNone ps pb SS) in BS0. apply BS0.
    + apply (settings_same _ _ LNone ps pb SS) in BS0. apply BS0.
    + rewrite RC. now apply (back_single_sign q X).
    + intros l [F A]. split; [split; [apply Forall_app; split; [exact F|repeat constructor]|now apply above_block]|now apply (back_heads q X)].
    + intros l [F A]. destruct (D l F A) as (fu & s & S & _). eauto.
Qed.
