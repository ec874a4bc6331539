(* The array sketches start their sample at most once (C115). *)

From Coq Require Import ZArith Lia List Bool.
From RecordUpdate Require Import RecordUpdate.
From Verif Require Import Machine Floats FloatFacts WavModel CacheModel CacheFacts ReaderModel ReaderFacts ReaderSpec LifeProofs ResponderModel ResponderSpec
  QueueProofs PlayerModel LifeSpec WorldProofs ScheduleProofs SketchModel SketchSpec SketchProofs SketchCases.
Import ListNotations.
Local Open Scope Z_scope.

Lemma starts_app : forall a b, starts (a ++ b) = (starts a + starts b)%nat.
Proof. intros a b. unfold starts. now rewrite filter_app, app_length. Qed.

Lemma one_op : forall fuel o w xs w', wops fuel [o] w = Ok (xs, w') -> exists x, wop_run fuel o w = Ok (x, w') /\ xs = [x].
Proof.
  intros fuel o w xs w' E. cbn [wops] in E. apply bind_ok in E. destruct E as ([x w1] & E & E2). cbn [bind] in E2.
  apply Ok_inj, pair_equal_spec in E2. destruct E2 as [<- <-]. eauto.
Qed.

Lemma always_inv : forall (e : res reader) b r, always e = Ok (b, r) -> b = true /\ e = Ok r.
Proof. intros e b r E. unfold always in E. apply bind_ok in E. destruct E as (r2 & -> & E). apply Ok_inj, pair_equal_spec in E. destruct E as [<- <-]. auto. Qed.

(* No player attached; player 0 an array player that is playing or not *)
Definition alone (p : bool) (w : world) : Prop :=
  (exists v, ystate w (fun _ => false) [] 0 v) /\ life KArray (w_rd w 0) /\ r_playing (w_rd w 0) = p.

Definition still_op (o : wop) : Prop := match o with WUpdate 0 _ | WYield | WCall 0 (CRate _) | WCall 0 (CInterp _) => True | _ => False end.
Lemma still_step : forall fuel o w p x w', alone p w -> still_op o -> wop_run fuel o w = Ok (x, w') -> alone p w' /\ is_start x = false.
Proof.
  intros fuel o w p x w' ((v & Y) & L & P) S E.
  destruct o as [j fo wv n st g|j m off len nch|j m off len|j m|j mid|j c|j alloc| | |b]; try contradiction.
  - destruct j; [|contradiction]. destruct c as [f| | | | | | |i| |]; try contradiction.
    + rewrite rate_run in E. apply bind_ok in E. destruct E as (r & R & E). apply Ok_inj, pair_equal_spec in E. destruct E as [<- <-].
      split; [|reflexivity]. split; [exists v; eapply ys_rd; [exact Y|reflexivity]|]. rewrite rd_set.
      split; [exact (life_call KArray 0 (CRate f) _ _ L R)|]. rewrite <- P.
      unfold setPlaybackRate in R. cbv zeta in R.
      repeat match type of R with (if ?b then _ else _) = _ => destruct b | bind _ _ = Ok _ => apply bind_ok in R; destruct R as (? & _ & R) end;
      apply Ok_inj in R; subst r; reflexivity.
    + rewrite interp_run in E. apply Ok_inj, pair_equal_spec in E. destruct E as [<- <-]. split; [|reflexivity].
      split; [exists v; eapply ys_rd; [exact Y|reflexivity]|]. rewrite rd_set. split; [exact (life_call KArray 0 (CInterp i) _ _ L eq_refl)|exact P].
  - destruct j; [|contradiction]. rewrite update_run in E. apply bind_ok in E. destruct E as ([a w1] & U & E). apply Ok_inj, pair_equal_spec in E. destruct E as [<- <-].
    split; [|reflexivity]. destruct (ys_update _ _ _ _ _ _ _ _ _ _ Y U) as (ev & r' & PU & R & Y'). unfold alone. rewrite (R 0%nat). replace (Nat.eqb 0 0) with true by reflexivity.
    split; [exists v; destruct ev; exact Y'|].
    unfold p_update in PU. destruct (_ =? -1); [apply Ok_inj, pair_equal_spec in PU; destruct PU as [_ <-]; auto|].
    destruct (_ <? 0); [discriminate|]. destruct (negb _); [apply Ok_inj, pair_equal_spec in PU; destruct PU as [_ <-]; auto|]. cbv zeta in PU.
    destruct (forallb _ _); [|apply Ok_inj, pair_equal_spec in PU; destruct PU as [_ <-]; auto].
    apply bind_ok in PU. destruct PU as ([fr r2] & RD & PU). apply Ok_inj, pair_equal_spec in PU. destruct PU as [_ <-].
    split; [eapply life_read; eauto|]. destruct (r_read_statics _ _ _ _ _ RD) as [ST _]. apply (f_equal r_playing) in ST. rewrite <- P. symmetry. exact ST.
  - rewrite yield_run in E. apply bind_ok in E. destruct E as (w1 & U & E). apply Ok_inj, pair_equal_spec in E. destruct E as [<- <-].
    split; [|reflexivity]. destruct (ys_yield _ _ _ _ _ _ Y U) as [[_ ->]|[[_ ->]|(i & st & q & Q & _)]]; [split; eauto|split; eauto|discriminate].
Qed.
Lemma still_steps : forall fuel l w p xs w', alone p w -> Forall still_op l -> wops fuel l w = Ok (xs, w') -> alone p w' /\ starts xs = O.
Proof.
  intros fuel l. induction l as [|o l IH]; intros w p xs w' A S E; cbn [wops] in E.
  - apply Ok_inj, pair_equal_spec in E. destruct E as [<- <-]. auto.
  - inversion S as [|? ? S1 S2]; subst. apply bind_ok in E. destruct E as ([x w1] & E1 & E). apply bind_ok in E. destruct E as ([ys w2] & E2 & E).
    apply Ok_inj, pair_equal_spec in E. destruct E as [<- <-]. destruct (still_step _ _ _ _ _ _ A S1 E1) as [A1 X]. destruct (IH _ _ _ _ A1 S2 E2) as [A2 N].
    split; [exact A2|]. unfold starts in *. cbn [filter]. rewrite X. exact N.
Qed.

Local Opaque wops.
Lemma setup_still : forall fuel k flags analog p xs w', alone p (world0 (fun _ => k) flags) -> sketch_setup fuel k flags analog = Ok (xs, w') -> alone p w' /\ starts xs = O.
Proof.
  intros fuel k flags analog p xs w' A E. unfold sketch_setup in E.
  assert (O1 : Forall still_op [WCall 0 (CInterp IQuadratic); WCall 0 (CRate (pot_rate analog))]) by repeat constructor.
  exact (still_steps fuel _ _ _ _ _ A O1 E).
Qed.
Local Transparent wops.

Section Once.
Variables (m : mem) (len : Z).

Lemma play_step : forall fuel w p x w', alone p w -> wop_run fuel (WPlayRaw 0 m 0 len 1) w = Ok (x, w') -> alone true w' /\ is_start x = true.
Proof.
  intros fuel w p x w' ((v & Y) & L & P) E. rewrite raw_run in E.
  apply bind_ok in E. destruct E as ([b w3] & E & E4). apply Ok_inj, pair_equal_spec in E4. destruct E4 as [<- <-].
  destruct (p_play_array_inv _ _ _ _ _ E) as (r & PR & R & S). cbv beta in PR. destruct (always_inv _ _ _ PR) as [_ PR2].
  destruct (life_playRaw _ _ _ _ _ _ (life_stop _ _ L) PR2) as [L' P'].
  split; [|reflexivity]. unfold alone. rewrite (R 0%nat). replace (Nat.eqb 0 0) with true by reflexivity.
  split; [|auto]. exists v. eapply ys_rd; [|exact S]. exact (ys_stop _ _ _ _ _ 0%nat Y ltac:(lia)).
Qed.
Lemma start_step : forall fuel w p xs w' st g, alone p w -> wops fuel [start_array m len st g] w = Ok (xs, w') -> alone true w' /\ starts xs = 1%nat.
Proof.
  intros fuel w p xs w' st g A E. destruct (one_op _ _ _ _ _ E) as (x & E1 & ->). destruct (play_step _ _ _ _ _ A E1) as [A' X].
  split; [exact A'|]. unfold starts. cbn [filter]. rewrite X. reflexivity.
Qed.

Lemma once_turn : forall fuel t w p xs w', alone p w -> sketch_turn fuel (start_array m len) t w = Ok (xs, w') ->
  exists p', alone p' w' /\ (p = true -> p' = true /\ starts xs = O) /\ (starts xs = O \/ starts xs = 1%nat /\ p' = true).
Proof.
  intros fuel t w p xs w' A E. unfold sketch_turn in E. apply bind_ok in E. destruct E as ([x1 w1] & E1 & E).
  apply bind_ok in E. destruct E as ([x2 w2] & E2 & E). apply bind_ok in E. destruct E as ([x3 w3] & E3 & E).
  apply Ok_inj, pair_equal_spec in E. destruct E as [<- <-].
  assert (US : forall l, Forall still_op (update_ops l)).
  { intros l. apply Forall_forall. intros o IN. apply in_map_iff in IN. destruct IN as (g & <- & _). exact I. }
  assert (U1 : Forall still_op (update_ops (t_before t) ++ [WCall 0 (CRate (pot_rate (t_pot t)))] ++ update_ops (t_after t))).
  { repeat (apply Forall_app; split); auto. repeat constructor. }
  destruct (still_steps fuel _ w p x1 w1 A U1 E1) as [A1 N1].
  assert (DS : Forall still_op (delay_ops (t_delay t) ++ [WYield])).
  { apply Forall_app. split; [|repeat constructor]. apply Forall_forall. intros o IN. apply in_map_iff in IN. destruct IN as ([g|] & <- & _); exact I. }
  rewrite !starts_app, N1. pose proof A1 as (_ & _ & P1). rewrite P1 in E2.
  destruct (t_due t && negb p) eqn:D.
  - destruct (start_step _ _ _ _ _ _ _ A1 E2) as [A2 N2]. destruct (still_steps fuel _ w2 true x3 w3 A2 DS E3) as [A3 N3]. rewrite N2, N3.
    exists true. split; [exact A3|]. split; [intros ->; rewrite andb_false_r in D; discriminate|]. right. auto.
  - apply Ok_inj, pair_equal_spec in E2. destruct E2 as [<- <-]. destruct (still_steps fuel _ w1 p x3 w3 A1 DS E3) as [A3 N3]. rewrite N3.
    exists p. auto.
Qed.
Lemma once_turns : forall fuel l w p xs w', alone p w -> sketch_turns fuel (start_array m len) l w = Ok (xs, w') ->
  (p = true -> starts xs = O) /\ (starts xs <= 1)%nat.
Proof.
  intros fuel l. induction l as [|t l IH]; intros w p xs w' A E; cbn [sketch_turns] in E.
  - apply Ok_inj, pair_equal_spec in E. destruct E as [<- _]. auto.
  - apply bind_ok in E. destruct E as ([x1 w1] & E1 & E). apply bind_ok in E. destruct E as ([x2 w2] & E2 & E).
    apply Ok_inj, pair_equal_spec in E. destruct E as [<- <-]. destruct (once_turn _ _ _ _ _ _ A E1) as (p' & A' & T1 & T2).
    destruct (IH _ _ _ _ A' E2) as [Z1 Z2]. rewrite starts_app. split.
    + intros PT. destruct (T1 PT) as [Q ->]. now rewrite (Z1 Q).
    + destruct T2 as [->|[-> Q]]; [exact Z2|]. rewrite (Z1 Q). lia.
Qed.
Local Opaque wops sketch_setup sketch_turns.
Theorem array_once : forall fuel flags analog l xs w, 0 <= flags < 256 ->
  sketch fuel KArray flags (start_array m len) analog l = Ok (xs, w) -> (starts xs <= 1)%nat.
Proof.
  intros fuel flags analog l xs w FL E. unfold sketch in E. apply bind_ok in E. destruct E as ([x1 w1] & E1 & E).
  apply bind_ok in E. destruct E as ([x2 w2] & E2 & E). apply Ok_inj, pair_equal_spec in E. destruct E as [<- <-].
  assert (A0 : alone false (world0 (fun _ => KArray) flags)).
  { split; [|split; [apply life_new|reflexivity]]. exists flags. split; [apply yinv0|repeat split; auto; try apply FL; cbn; intros; lia]. }
  destruct (setup_still _ _ _ _ _ _ _ A0 E1) as [A1 N1].
  destruct (once_turns _ _ _ _ _ _ A1 E2) as [_ Z]. rewrite starts_app, N1. exact Z.
Qed.
End Once.
