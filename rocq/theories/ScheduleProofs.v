(* C35: stopping at the end of the source under every schedule, in yield mode. *)

From Coq Require Import ZArith Lia List Bool.
From RecordUpdate Require Import RecordUpdate.
From Flocq Require Import IEEE754.BinarySingleNaN.
From Verif Require Import Machine Floats WavModel InterpModel CacheModel ReaderModel ReaderFacts ResponderModel ResponderSpec
  ResponderProofs QueueProofs PlayerModel CacheFacts CacheSpec CacheProofs CacheFinal LifeSpec UpdateProofs LifeProofs WorldProofs.
Import ListNotations.
Local Open Scope Z_scope.

(* ---- responder state through the operations ---- *)

Definition same_masks (s s' : rsys) : Prop :=
  s_flags s' = s_flags s /\ s_copy s' = s_copy s /\ s_count s' = s_count s /\ s_force s' = s_force s.
Definition same_lists (s s' : rsys) : Prop :=
  s_yfirst s' = s_yfirst s /\ s_ylast s' = s_ylast s /\ s_resp s' = s_resp s.

Lemma masks_same : forall s s' d w, same_masks s s' -> masks s d w -> masks s' d w.
Proof.
  intros s s' d w (A & B & C & D) (H1 & H2 & H3 & H4 & H5). unfold masks. rewrite A, B, C, D. auto.
Qed.
Lemma yinv_same : forall s s' x, same_lists s s' -> yinv s x -> yinv s' x.
Proof.
  intros s s' [a q] (A & B & C) H. eapply yinv_ext; [exact H|exact A|exact B| | | |]; rewrite ?C; auto.
  - intro j. apply (yi_resp _ _ H j).
  - intros j P. exact (proj2 (proj2 (proj2 (yi_resp _ _ H j))) P).
Qed.

Lemma sm_upd : forall s i g, same_masks s (upd_resp s i g). Proof. repeat split. Qed.
Lemma sm_trans : forall a b c, same_masks a b -> same_masks b c -> same_masks a c.
Proof. intros a b c (A & B & C & D) (E & F & G & H). unfold same_masks. rewrite E, F, G, H. auto. Qed.
Lemma sm_refl : forall a, same_masks a a. Proof. repeat split. Qed.

Lemma sm_unlink : forall i s, same_masks s (y_unlink i s).
Proof.
  intros i s. unfold y_unlink. destruct (v_prev (s_resp s i)), (v_next (s_resp s i)); repeat split.
Qed.
Lemma sm_clear : forall i s, same_masks s (clearEvent i s).
Proof.
  intros i s. unfold clearEvent. destruct (v_trig (s_resp s i)); [|apply sm_refl].
  eapply sm_trans; [|apply sm_upd]. destruct (v_type (s_resp s i)); [apply sm_refl|apply sm_unlink|apply sm_refl].
Qed.
Lemma sm_pop : forall s, same_masks s (snd (y_pop s)).
Proof. intro s. unfold y_pop. destruct (s_yfirst s) as [i|]; [|apply sm_refl]. destruct (v_next (s_resp s i)); repeat split. Qed.

Lemma sm_ylink : forall i s s', y_link i s = Ok s' -> same_masks s s'.
Proof.
  intros i s s' E. unfold y_link in E. destruct (s_yfirst s); [destruct (s_ylast s); [|discriminate]|]; apply Ok_inj in E; subst; repeat split.
Qed.
Lemma sm_trigger : forall i st s s', v_polled (s_resp s i) = false -> triggerEvent i st s = Ok s' -> same_masks s s'.
Proof.
  intros i st s s' P E. unfold triggerEvent in E. rewrite P in E. apply bind_ok in E. destruct E as (s1 & E1 & E).
  assert (M1 : same_masks s s1).
  { unfold base_trigger in E1. cbv zeta in E1. set (s0 := upd_resp s i _) in E1.
    assert (M0 : same_masks s s0) by apply sm_upd. clearbody s0.
    assert (X : (s2 <- (match v_type (s_resp s0 i) with TYield => y_link i s0 | _ => Ok s0 end) ;;
                Ok (upd_resp s2 i (fun q => q <| v_trig := true |>))) = Ok s1 -> same_masks s s1).
    { intros X. apply bind_ok in X. destruct X as (s2 & X & X2). apply Ok_inj in X2. subst s1.
      eapply sm_trans; [|apply sm_upd]. eapply sm_trans; [exact M0|].
      destruct (v_type (s_resp s0 i)); [apply Ok_inj in X; subst; apply sm_refl| |apply Ok_inj in X; subst; apply sm_refl].
      eapply sm_ylink; eauto. }
    destruct (v_type (s_resp s0 i)).
    - destruct (v_trig (s_resp s0 i)); [apply Ok_inj in E1; subst; exact M0|]. exact (X E1).
    - destruct (v_trig (s_resp s0 i)); [apply Ok_inj in E1; subst; exact M0|]. exact (X E1).
    - apply Ok_inj in E1. subst. exact M0. }
  apply Ok_inj in E. subst s'. destruct (is_detached _); [eapply sm_trans; [exact M1|apply sm_upd]|exact M1].
Qed.

Lemma sl_disable : forall s, same_lists s (disableResponse s).
Proof. intro s. unfold disableResponse. destruct (s_count s =? 0); [destruct (s_force s)|]; repeat split. Qed.
Lemma sl_enable : forall s, same_lists s (enableResponse s).
Proof.
  intro s. unfold enableResponse. cbv zeta. destruct (_ <=? 0); [destruct (s_force _)|]; repeat split.
Qed.
Lemma sl_update : forall s, same_lists s (updateResponse s).
Proof. intro s. unfold updateResponse. cbv zeta. destruct (_ && _); repeat split. Qed.

(* Lists as (a,q), masks at depth d with wanted checks v *)
Definition ystate (w : world) (a : nat -> bool) (q : queue) (d v : Z) : Prop :=
  yinv (w_sys w) (a, q) /\ masks (w_sys w) d v.

Lemma ys_disable : forall w a q d v, ystate w a q d v -> 0 <= d -> ystate (on_sys w disableResponse) a q (d + 1) v.
Proof.
  intros w a q d v [Y M] D. split; cbn; [eapply yinv_same; [apply sl_disable|exact Y]|].
  pose proof (masks_step MDisable _ _ _ I M D ltac:(cbn; lia)) as K. cbn in K. now rewrite Z.lor_0_r in K.
Qed.
Lemma ys_enable : forall w a q d v, ystate w a q (d + 1) v -> 0 <= d -> ystate (on_sys w enableResponse) a q d v.
Proof.
  intros w a q d v [Y M] D. split; cbn; [eapply yinv_same; [apply sl_enable|exact Y]|].
  pose proof (masks_step MEnable _ _ _ I M ltac:(lia) ltac:(cbn; lia)) as K. cbn in K. rewrite Z.lor_0_r in K.
  now replace (d + 1 + -1) with d in K by lia.
Qed.
Lemma ys_clear : forall w a q d v i, ystate w a q d v -> ystate (on_sys w (clearEvent i)) a (q_remove q i) d v.
Proof. intros w a q d v i [Y M]. split; cbn; [now apply y_clear_inv|eapply masks_same; [apply sm_clear|exact M]]. Qed.
Lemma ys_rd : forall w w' a q d v, ystate w a q d v -> w_sys w' = w_sys w -> ystate w' a q d v.
Proof. intros w w' a q d v [Y M] E. unfold ystate. rewrite E. auto. Qed.

Lemma ys_attach : forall w a q d v i, ystate w a q d v -> 0 <= d ->
  ystate (on_sys w (fun s => updateResponse (attach i s))) (att_set a i true) (q_remove q i) d (Z.lor v EVR).
Proof.
  intros w a q d v i [Y M] D. split; cbn [w_sys on_sys].
  - eapply yinv_same; [apply sl_update|]. now apply y_attach_inv.
  - pose proof (masks_step (MAttach i) _ _ _ I M D ltac:(cbn; lia)) as K. cbn [mdepth1 madds mop_run] in K.
    now rewrite Z.add_0_r in K.
Qed.

Lemma ys_stop : forall w a q d v i, ystate w a q d v -> 0 <= d -> ystate (p_stop i w) a (q_remove q i) d v.
Proof.
  intros w a q d v i H D. unfold p_stop. cbv zeta. apply ys_enable; [|exact D].
  eapply ys_rd; [|reflexivity]. apply ys_clear. now apply ys_disable.
Qed.

(* An update may queue an event of its player *)
Lemma ys_update : forall fuel j alloc w a q d v acts w', ystate w a q d v -> w_update fuel j alloc w = Ok (acts, w') ->
  exists ev r', p_update fuel alloc (w_rd w j) = Ok (acts, ev, r') /\ (forall i, w_rd w' i = if Nat.eqb i j then r' else w_rd w i) /\
    ystate w' a (match ev with Some st => if a j then q_trigger q j st else q | None => q end) d v.
Proof.
  intros fuel j alloc w a q d v acts w' [Y M] E. apply w_update_inv in E. destruct E as (ev & r' & E & R & S).
  exists ev, r'. split; [exact E|]. split; [exact R|]. destruct ev as [st|].
  - destruct (y_trigger_inv _ _ _ j st Y) as (s' & T & Y'). rewrite S in T. apply Ok_inj in T. subst s'.
    split; [exact Y'|]. eapply masks_same; [|exact M]. eapply sm_trigger; [|exact S]. exact (proj1 (yi_resp _ _ Y j)).
  - split; rewrite S; auto.
Qed.

(* yield() serves the first event *)
Lemma ys_yield : forall fuel w a q v w', ystate w a q 0 v -> w_yield fuel w = Ok w' ->
  (Z.testbit v 2 = false /\ w' = w) \/ (q = [] /\ w' = w) \/
  exists i st q', q = (i, st) :: q' /\ ystate w' a q' 0 v /\
    exists w1, event_response fuel i st w1 = Ok w' /\ (forall j, w_rd w1 j = w_rd w j).
Proof.
  intros fuel w a q v w' [Y M] E. unfold w_yield in E.
  destruct M as (M1 & M2 & M3 & M4 & M5). rewrite (M4 eq_refl) in E.
  destruct (Z.testbit v 2) eqn:T; [|left; apply Ok_inj in E; auto]. right.
  destruct (y_pop_inv _ _ _ Y) as [P Y']. pose proof (sm_pop (w_sys w)) as SM.
  destruct (y_pop (w_sys w)) as [e s]. cbn [fst snd] in *. subst e.
  destruct q as [|[i st] q']; cbn [hd_error] in E; [left; apply Ok_inj in E; auto|]. right.
  exists i, st, q'. split; [reflexivity|]. split.
  - apply event_response_inv in E. destruct E as (r & _ & _ & S).
    assert (Y0 : ystate (mkWorld (w_rd w) s) a q' 0 v).
    { split; [exact Y'|]. eapply masks_same; [exact SM|]. exact (conj M1 (conj M2 (conj M3 (conj M4 M5)))). }
    apply ys_disable in Y0; [|lia]. apply ys_enable in Y0; [|lia]. eapply ys_rd; [exact Y0|]. exact S.
  - exists (w <| w_sys := s |>). split; [exact E|reflexivity].
Qed.

(* ---- the invariant of a history in yield mode ---- *)

(* F: the players that may play files *)
Record ymode (kinds : nat -> rkind) (F : nat -> Prop) (w : world) (a : nat -> bool) (q : queue) (v : Z) : Prop := mkYmode {
  ym_alive : alive kinds w;
  ym_state : ystate w a q 0 v;
  ym_att : forall j, a j = true -> F j /\ Z.testbit v 2 = true;
  ym_play : forall j, kinds j <> KArray -> r_playing (w_rd w j) = true -> a j = true }.

Definition files_in (F : nat -> Prop) (o : wop) : Prop := match o with WPlayFile j _ _ _ _ _ => F j | _ => True end.

(* Playing stays as it was, or stops *)
Definition no_new (w w' : world) : Prop := forall j, r_playing (w_rd w' j) = true -> r_playing (w_rd w j) = true.
Lemma no_new_refl : forall w, no_new w w. Proof. intros w j. auto. Qed.
Lemma no_new_trans : forall a b c, no_new a b -> no_new b c -> no_new a c. Proof. intros a b c H1 H2 j P. auto. Qed.

Lemma event_no_new : forall fuel i st w w', event_response fuel i st w = Ok w' -> no_new w w'.
Proof.
  intros fuel i st w w' E j. apply event_response_inv in E. destruct E as (r & E & R & _). rewrite R.
  destruct (Nat.eqb_spec j i) as [->|]; [|auto]. destruct (st =? evReload).
  - unfold r_triggerReload in E. destruct (r_src (w_rd w i)); try (apply Ok_inj in E; now subst).
    apply bind_ok in E. destruct E as (f' & _ & E). apply Ok_inj in E. subst. auto.
  - destruct (st =? evClose); apply Ok_inj in E; subst; [|auto].
    unfold r_close. destruct (r_kind (w_rd w i)); discriminate.
Qed.

Lemma update_no_new : forall fuel alloc r acts ev r', p_update fuel alloc r = Ok (acts, ev, r') -> r_playing r' = r_playing r.
Proof.
  intros fuel alloc r acts ev r' E. apply update_cases in E. cbv zeta in E.
  destruct E as [(_ & _ & _ & ->)|(_ & _ & _ & _ & [(_ & _ & _ & ->)|(_ & frames & E & _)])]; auto.
  symmetry. apply statics_playing. eapply r_read_statics; eauto.
Qed.

(* What an operation does to the queue, as far as player i is concerned *)
Inductive qstep (i : nat) : queue -> queue -> Prop :=
| qs_same : forall q, qstep i q q
| qs_trigger : forall q j st q', qstep i (q_trigger q j st) q' -> j <> i -> qstep i q q'
| qs_close : forall q q', qstep i (q_trigger q i evClose) q' -> qstep i q q'
| qs_remove : forall q j q', qstep i (q_remove q j) q' -> j <> i -> qstep i q q'.
Lemma qstep_trans : forall i a b c, qstep i a b -> qstep i b c -> qstep i a c.
Proof. intros i a b c H. revert c. induction H; intros c H2; eauto using qstep. Qed.

(* updates, at any depth; player i exhausted or stopped *)
Definition done (r : reader) : Prop := r_playing r = false \/ exhausted r.

Lemma done_update : forall fuel alloc r acts ev r', done r -> p_update fuel alloc r = Ok (acts, ev, r') ->
  done r' /\ (ev = None \/ ev = Some evClose) /\ r_playing r' = r_playing r.
Proof.
  intros fuel alloc r acts ev r' D E. pose proof (update_no_new _ _ _ _ _ _ E) as NN. destruct D as [P|X].
  - apply stopped_update in E; [|exact P]. destruct E as (_ & -> & ->). split; [now left|]. auto.
  - destruct fuel as [|fuel].
    + apply update_cases in E. cbv zeta in E.
      destruct E as [(_ & _ & -> & ->)|(P & N & _ & _ & [(_ & _ & -> & ->)|(_ & frames & E & _)])]; try (split; [now right|auto]).
      exfalso. unfold r_read in E. rewrite P in E. cbn [negb] in E. destruct (_ <? 0); [discriminate|].
      cbn in E. discriminate.
    + destruct (exhausted_close (S fuel) alloc r X ltac:(lia)) as (acts' & ev' & r1 & E' & X' & _ & _ & EV).
      rewrite E in E'. apply Ok_inj in E'. apply pair_equal_spec in E'. destruct E' as [E' <-]. apply pair_equal_spec in E'.
      destruct E' as [_ <-]. split; [now right|auto].
Qed.

Lemma updates_step : forall fuel i l w a q d v acts w', ystate w a q d v -> w_updates fuel l w = Ok (acts, w') ->
  exists q', ystate w' a q' d v /\ (forall j, r_playing (w_rd w' j) = r_playing (w_rd w j)) /\
    (done (w_rd w i) -> done (w_rd w' i) /\ qstep i q q').
Proof.
  intros fuel i. induction l as [|[j alloc] l IH]; intros w a q d v acts w' Y E; cbn [w_updates] in E.
  - apply Ok_inj in E. apply pair_equal_spec in E. destruct E as [_ <-]. exists q. split; [exact Y|]. split; [auto|].
    intro D. split; [exact D|constructor].
  - apply bind_ok in E. destruct E as ([b w1] & E1 & E). apply bind_ok in E. destruct E as ([m w2] & E2 & E).
    apply Ok_inj in E. apply pair_equal_spec in E. destruct E as [_ <-].
    destruct (ys_update _ _ _ _ _ _ _ _ _ _ Y E1) as (ev & r' & U & R & Y1).
    destruct (IH _ _ _ _ _ _ _ Y1 E2) as (q' & Y2 & P2 & D2). exists q'. split; [exact Y2|]. split.
    + intro k. rewrite P2, R. destruct (Nat.eqb_spec k j) as [->|]; [|reflexivity]. eapply update_no_new; eauto.
    + intro D. assert (D1 : done (w_rd w1 i)).
      { rewrite R. destruct (Nat.eqb_spec i j) as [->|]; [|exact D]. eapply done_update; eauto. }
      destruct (D2 D1) as [D3 Q]. split; [exact D3|].
      destruct ev as [st|]; [|exact Q]. destruct (a j); [|exact Q].
      destruct (Nat.eq_dec j i) as [->|NE]; [|eapply qs_trigger; [exact Q|exact NE]].
      apply qs_close. destruct (done_update _ _ _ _ _ _ D U) as (_ & [EV|EV] & _); [discriminate|]. injection EV as ->. exact Q.
Qed.

(* Any operation of yield mode *)
Lemma ymode_step : forall kinds F fuel o w a q v x w', ymode kinds F w a q v -> wop_ok kinds o -> yield_mode o -> files_in F o ->
  wop_run fuel o w = Ok (x, w') -> exists a' q' v', ymode kinds F w' a' q' v'.
Proof.
  intros kinds F fuel o w a q v x w' [HA HS HT HP] K YM FI E.
  pose proof (wop_alive _ _ _ _ _ _ HA K E) as HA'. unfold wop_run in E.
  destruct o as [i fo wv n st g|i m off len nch|i m off len|i m|i mid|i c|i alloc| | |b]; try contradiction;
    cbv beta iota in E; cbn [wop_ok] in K; cbn [files_in] in FI.
  - apply bind_ok in E. destruct E as ([b w1] & E & E2). apply Ok_inj in E2. apply pair_equal_spec in E2. destruct E2 as [_ <-].
    apply p_play_file_inv in E. destruct E as (r & E & R & s2 & A & S).
    pose proof (ys_disable _ _ _ _ _ HS ltac:(lia)) as Y1. pose proof (ys_stop _ _ _ _ _ i Y1 ltac:(lia)) as Y2.
    destruct (proj2 Y2) as (FO & _). cbv zeta in A. rewrite FO in A. apply Ok_inj in A. subst s2.
    pose proof (ys_attach _ _ _ _ _ i Y2 ltac:(lia)) as Y3. pose proof (ys_enable _ _ _ 0 _ Y3 ltac:(lia)) as Y4.
    exists (att_set a i true), (q_remove (q_remove q i) i), (Z.lor v EVR). constructor.
    + exact HA'.
    + eapply ys_rd; [exact Y4|]. exact S.
    + intros j AJ. unfold att_set in AJ. split.
      * destruct (Nat.eqb_spec j i) as [EQ|NE]; [now rewrite EQ|]. now apply HT.
      * rewrite Z.lor_spec. apply orb_true_r.
    + intros j KJ PJ. unfold att_set. rewrite R in PJ. destruct (Nat.eqb j i); auto.
  - apply bind_ok in E. destruct E as ([b w1] & E & E2). apply Ok_inj in E2. apply pair_equal_spec in E2. destruct E2 as [_ <-].
    apply p_play_array_inv in E. destruct E as (r & E & R & S). exists a, (q_remove q i), v.
    constructor; [exact HA'|eapply ys_rd; [apply (ys_stop _ _ _ _ _ i HS); lia|exact S]|exact HT|].
    intros j KJ PJ. rewrite R in PJ. destruct (Nat.eqb_spec j i) as [->|]; [contradiction|auto].
  - apply bind_ok in E. destruct E as ([b w1] & E & E2). apply Ok_inj in E2. apply pair_equal_spec in E2. destruct E2 as [_ <-].
    apply p_play_array_inv in E. destruct E as (r & E & R & S). exists a, (q_remove q i), v.
    constructor; [exact HA'|eapply ys_rd; [apply (ys_stop _ _ _ _ _ i HS); lia|exact S]|exact HT|].
    intros j KJ PJ. rewrite R in PJ. destruct (Nat.eqb_spec j i) as [->|]; [contradiction|auto].
  - apply bind_ok in E. destruct E as ([b w1] & E & E2). apply Ok_inj in E2. apply pair_equal_spec in E2. destruct E2 as [_ <-].
    apply p_play_array_inv in E. destruct E as (r & E & R & S). exists a, (q_remove q i), v.
    constructor; [exact HA'|eapply ys_rd; [apply (ys_stop _ _ _ _ _ i HS); lia|exact S]|exact HT|].
    intros j KJ PJ. rewrite R in PJ. destruct (Nat.eqb_spec j i) as [->|]; [contradiction|auto].
  - apply bind_ok in E. destruct E as ([b w1] & E & E2). apply Ok_inj in E2. apply pair_equal_spec in E2. destruct E2 as [_ <-].
    apply w_stop_inv in E. destruct E as (w2 & E & ->).
    pose proof (ys_disable _ _ _ _ _ HS ltac:(lia)) as Y1. pose proof (ys_clear _ _ _ _ _ i Y1) as Y2.
    destruct (updates_step _ i _ _ _ _ _ _ _ _ Y2 E) as (q' & Y3 & P3 & _). exists a, q', v.
    constructor; [exact HA'| |exact HT|].
    + apply ys_enable; [|lia]. eapply ys_rd; [exact Y3|reflexivity].
    + intros j KJ PJ. rewrite rd_sys, rd_set in PJ. destruct (Nat.eqb j i); [discriminate|]. rewrite P3 in PJ. auto.
  - apply bind_ok in E. destruct E as (r & E & E2). apply Ok_inj in E2. apply pair_equal_spec in E2. destruct E2 as [_ <-].
    exists a, q, v. constructor; [exact HA'|eapply ys_rd; [exact HS|reflexivity]|exact HT|].
    intros j KJ PJ. rewrite rd_set in PJ. destruct (Nat.eqb_spec j i) as [->|]; [|auto]. apply HP; [exact KJ|].
    destruct (r_playing (w_rd w i)) eqn:P; [reflexivity|]. rewrite (call_stopped _ _ _ _ _ (HA i) P E) in PJ. discriminate.
  - apply bind_ok in E. destruct E as ([b w1] & E & E2). apply Ok_inj in E2. apply pair_equal_spec in E2. destruct E2 as [_ <-].
    destruct (ys_update _ _ _ _ _ _ _ _ _ _ HS E) as (ev & r' & U & R & Y1). eexists a, _, v.
    constructor; [exact HA'|exact Y1|exact HT|].
    intros j KJ PJ. rewrite R in PJ. destruct (Nat.eqb_spec j i) as [->|]; [|auto].
    apply HP; [exact KJ|]. rewrite <- PJ. symmetry. eapply update_no_new; eauto.
  - apply bind_ok in E. destruct E as (w1 & E & E2). apply Ok_inj in E2. apply pair_equal_spec in E2. destruct E2 as [_ <-].
    destruct (ys_yield _ _ _ _ _ _ HS E) as [[_ ->]|[[_ ->]|(i & st & q' & _ & Y1 & w2 & EV & R)]];
      [exists a, q, v; now constructor|exists a, q, v; now constructor|].
    exists a, q', v. constructor; [exact HA'|exact Y1|exact HT|].
    intros j KJ PJ. apply HP; [exact KJ|]. rewrite <- R. exact (event_no_new _ _ _ _ _ EV j PJ).
Qed.

Lemma ymode0 : forall kinds F flags, 0 <= flags < 256 -> ymode kinds F (world0 kinds flags) (fst att_none) [] flags.
Proof.
  intros kinds F flags B. constructor.
  - intro i. apply life_new.
  - split; [apply yinv0|]. repeat split; cbn; auto; try lia.
  - discriminate.
  - intros j _ P. discriminate.
Qed.

Lemma ymode_wops : forall kinds F fuel l w a q v xs w', ymode kinds F w a q v -> Forall (wop_ok kinds) l -> Forall yield_mode l ->
  Forall (files_in F) l -> wops fuel l w = Ok (xs, w') -> exists a' q' v', ymode kinds F w' a' q' v'.
Proof.
  intros kinds F fuel. induction l as [|o l IH]; intros w a q v xs w' Y K M FI E; cbn [wops] in E.
  - apply Ok_inj in E. apply pair_equal_spec in E. destruct E as [_ <-]. eauto.
  - apply bind_ok in E. destruct E as ([x w1] & E1 & E). apply bind_ok in E. destruct E as ([ys w2] & E2 & E).
    apply Ok_inj in E. apply pair_equal_spec in E. destruct E as [_ <-].
    apply Forall_cons_iff in K, M, FI. destruct K as [K1 K2], M as [M1 M2], FI as [F1 F2].
    destruct (ymode_step _ _ _ _ _ _ _ _ _ _ Y K1 M1 F1 E1) as (a1 & q1 & v1 & Y1). eapply IH; eauto.
Qed.

(* ---- a pending close moves up the queue ---- *)

Definition closing (i : nat) (q : queue) (k : nat) : Prop := exists p r, q = p ++ (i, evClose) :: r /\ (length p < k)%nat.

Lemma closing_trigger : forall i q k j st, closing i q k -> j <> i \/ st = evClose -> closing i (q_trigger q j st) k.
Proof.
  intros i q k j st (p & r & -> & L) C. unfold q_trigger. destruct (pending _ j).
  - rewrite map_app. cbn [map fst]. set (g := fun e : nat * Z => if Nat.eqb (fst e) j then (j, st) else e).
    exists (map g p), (map g r). split; [|now rewrite map_length].
    replace (if Nat.eqb i j then (j, st) else (i, evClose)) with (i, evClose); [reflexivity|].
    destruct (Nat.eqb_spec i j) as [->|]; [|reflexivity]. destruct C as [C| ->]; [contradiction|reflexivity].
  - exists p, (r ++ [(j, st)]). split; [now rewrite <- app_assoc|exact L].
Qed.

Lemma filter_length : forall (g : nat * Z -> bool) p, (length (filter g p) <= length p)%nat.
Proof. intros g. induction p as [|e p IH]; cbn; [lia|]. destruct (g e); cbn; lia. Qed.

Lemma closing_remove : forall i q k j, closing i q k -> j <> i -> closing i (q_remove q j) k.
Proof.
  intros i q k j (p & r & -> & L) N. unfold q_remove. rewrite filter_app. cbn [filter fst].
  destruct (Nat.eqb_spec i j) as [->|]; [contradiction|]. cbn [negb].
  exists (filter (fun e => negb (Nat.eqb (fst e) j)) p), (filter (fun e => negb (Nat.eqb (fst e) j)) r). split; [reflexivity|].
  pose proof (filter_length (fun e => negb (Nat.eqb (fst e) j)) p). lia.
Qed.

Lemma closing_qstep : forall i q q' k, qstep i q q' -> closing i q k -> closing i q' k.
Proof.
  intros i q q' k H. induction H; intro C; auto.
  - apply IHqstep. apply closing_trigger; auto.
  - apply IHqstep. apply closing_trigger; auto.
  - apply IHqstep. now apply closing_remove.
Qed.

(* Reloading or closing another player, or reloading this one, leaves it exhausted *)
Lemma reload_exhausted : forall fuel r r', exhausted r -> r_triggerReload fuel r = Ok r' -> exhausted r'.
Proof.
  intros fuel r r' X E. unfold r_triggerReload in E. destruct (r_src r); try (apply Ok_inj in E; now subst).
  apply bind_ok in E. destruct E as (f' & _ & E). apply Ok_inj in E. subst. exact X.
Qed.

(* The state while player i is exhausted: its close request is among the first k *)
Definition ending (kinds : nat -> rkind) (i k : nat) (w : world) : Prop :=
  exists F a q v, ymode kinds F w a q v /\ a i = true /\
    (r_playing (w_rd w i) = false \/ exhausted (w_rd w i) /\ closing i q k).

Lemma leaves_yield : forall i o, leaves i o -> yield_mode o.
Proof. intros i [] H; try exact I; contradiction. Qed.
Lemma leaves_started : forall fuel i o w x w', leaves i o -> wop_run fuel o w = Ok (x, w') -> not_started i x.
Proof.
  intros fuel i o w x w' L E. unfold wop_run in E.
  destruct o; try contradiction; cbv beta iota in E; cbn [leaves] in L.
  1-4: apply bind_ok in E; destruct E as ([b w1] & _ & E); apply Ok_inj in E; apply pair_equal_spec in E; destruct E as [<- _];
       destruct b; [exact L|exact I].
  1,3: apply bind_ok in E; destruct E as ([b w1] & _ & E); apply Ok_inj in E; apply pair_equal_spec in E; destruct E as [<- _]; exact I.
  1,2: apply bind_ok in E; destruct E as (w1 & _ & E); apply Ok_inj in E; apply pair_equal_spec in E; destruct E as [<- _]; exact I.
Qed.

Lemma ending_step : forall kinds fuel i k o w x w', ending kinds i k w -> wop_ok kinds o -> leaves i o ->
  wop_run fuel o w = Ok (x, w') -> ending kinds i (if is_yield o then Nat.pred k else k) w'.
Proof.
  intros kinds fuel i k o w x w' (F & a & q & v & YM & AI & C) K L E.
  pose proof YM as [HA HS HT HP].
  assert (YM2 : ymode kinds (fun _ => True) w a q v).
  { constructor; auto. intros j J. split; [exact I|]. now apply (HT j). }
  assert (FI : files_in (fun _ => True) o) by (destruct o; exact I).
  assert (ATT : forall a' q' v', ymode kinds (fun _ => True) w' a' q' v' ->
     r_playing (w_rd w i) = false -> a' i = true -> ending kinds i (if is_yield o then Nat.pred k else k) w').
  { intros a' q' v' Y' P A'. exists (fun _ => True), a', q', v'. split; [exact Y'|]. split; [exact A'|]. left.
    exact (proj1 (stopped_step _ _ _ _ _ _ i HA K P E (leaves_started _ _ _ _ _ _ L E))). }
  pose proof (ymode_step _ _ _ _ _ _ _ _ _ _ YM2 K (leaves_yield _ _ L) FI E) as _.
  pose proof (wop_alive _ _ _ _ _ _ HA K E) as HA'. pose proof E as E0. unfold wop_run in E.
  (* each case gives the new (a',q') with a' i = true, reader i and qstep *)
  assert (GEN : forall a' q' v', ymode kinds (fun _ => True) w' a' q' v' -> a' i = true ->
     (exhausted (w_rd w i) -> r_playing (w_rd w' i) = false \/
        (done (w_rd w' i) /\ (closing i q k -> closing i q' (if is_yield o then Nat.pred k else k)))) ->
     ending kinds i (if is_yield o then Nat.pred k else k) w').
  { intros a' q' v' Y' A' G. destruct C as [P|[X CL]]; [eapply ATT; eauto|].
    destruct (G X) as [P|[[P|X'] G2]]; (exists (fun _ => True), a', q', v'; split; [exact Y'|]; split; [exact A'|]); [now left|now left|right; auto]. }
  clear ATT.
  destruct o as [j fo wv n st g|j m off len nch|j m off len|j m|j mid|j c|j alloc| | |b]; try contradiction;
    cbv beta iota in E; cbn [wop_ok] in K; cbn [leaves] in L; cbn [is_yield] in *.
  - apply bind_ok in E. destruct E as ([b w1] & E & E2). apply Ok_inj in E2. apply pair_equal_spec in E2. destruct E2 as [_ <-].
    apply p_play_file_inv in E. destruct E as (r & E & R & s2 & A & S).
    pose proof (ys_disable _ _ _ _ _ HS ltac:(lia)) as Y1. pose proof (ys_stop _ _ _ _ _ j Y1 ltac:(lia)) as Y2.
    destruct (proj2 Y2) as (FO & _). cbv zeta in A. rewrite FO in A. apply Ok_inj in A. subst s2.
    pose proof (ys_attach _ _ _ _ _ j Y2 ltac:(lia)) as Y3. pose proof (ys_enable _ _ _ 0 _ Y3 ltac:(lia)) as Y4.
    apply (GEN (att_set a j true) (q_remove (q_remove q j) j) (Z.lor v EVR)).
    + constructor; [exact HA'|eapply ys_rd; [exact Y4|]; exact S| |].
      * intros k' _. split; [exact I|]. rewrite Z.lor_spec. apply orb_true_r.
      * intros k' KJ PJ. unfold att_set. rewrite R in PJ. destruct (Nat.eqb k' j); auto.
    + unfold att_set. destruct (Nat.eqb i j); auto.
    + intro X. right. split.
      * rewrite R. destruct (Nat.eqb_spec i j); [congruence|]. now right.
      * intro CL. apply closing_remove; [apply closing_remove|]; auto.
  - apply bind_ok in E. destruct E as ([b w1] & E & E2). apply Ok_inj in E2. apply pair_equal_spec in E2. destruct E2 as [_ <-].
    apply p_play_array_inv in E. destruct E as (r & E & R & S). apply (GEN a (q_remove q j) v); [| exact AI |].
    + constructor; [exact HA'|eapply ys_rd; [apply (ys_stop _ _ _ _ _ j HS); lia|exact S]|apply YM2|].
      intros k' KJ PJ. rewrite R in PJ. destruct (Nat.eqb_spec k' j) as [->|]; [contradiction|auto].
    + intro X. right. split; [|intro CL; now apply closing_remove]. rewrite R. destruct (Nat.eqb_spec i j); [congruence|]. now right.
  - apply bind_ok in E. destruct E as ([b w1] & E & E2). apply Ok_inj in E2. apply pair_equal_spec in E2. destruct E2 as [_ <-].
    apply p_play_array_inv in E. destruct E as (r & E & R & S). apply (GEN a (q_remove q j) v); [| exact AI |].
    + constructor; [exact HA'|eapply ys_rd; [apply (ys_stop _ _ _ _ _ j HS); lia|exact S]|apply YM2|].
      intros k' KJ PJ. rewrite R in PJ. destruct (Nat.eqb_spec k' j) as [->|]; [contradiction|auto].
    + intro X. right. split; [|intro CL; now apply closing_remove]. rewrite R. destruct (Nat.eqb_spec i j); [congruence|]. now right.
  - apply bind_ok in E. destruct E as ([b w1] & E & E2). apply Ok_inj in E2. apply pair_equal_spec in E2. destruct E2 as [_ <-].
    apply p_play_array_inv in E. destruct E as (r & E & R & S). apply (GEN a (q_remove q j) v); [| exact AI |].
    + constructor; [exact HA'|eapply ys_rd; [apply (ys_stop _ _ _ _ _ j HS); lia|exact S]|apply YM2|].
      intros k' KJ PJ. rewrite R in PJ. destruct (Nat.eqb_spec k' j) as [->|]; [contradiction|auto].
    + intro X. right. split; [|intro CL; now apply closing_remove]. rewrite R. destruct (Nat.eqb_spec i j); [congruence|]. now right.
  - apply bind_ok in E. destruct E as ([b w1] & E & E2). apply Ok_inj in E2. apply pair_equal_spec in E2. destruct E2 as [_ <-].
    apply w_stop_inv in E. destruct E as (w2 & E & ->).
    pose proof (ys_disable _ _ _ _ _ HS ltac:(lia)) as Y1. pose proof (ys_clear _ _ _ _ _ j Y1) as Y2.
    destruct (updates_step _ i _ _ _ _ _ _ _ _ Y2 E) as (q' & Y3 & P3 & D3). apply (GEN a q' v); [| exact AI |].
    + constructor; [exact HA'| |apply YM2|].
      * apply ys_enable; [|lia]. eapply ys_rd; [exact Y3|reflexivity].
      * intros k' KJ PJ. rewrite rd_sys, rd_set in PJ. destruct (Nat.eqb k' j); [discriminate|]. rewrite P3 in PJ. auto.
    + intro X. destruct (D3 (or_intror X)) as [D Q]. right. split.
      * rewrite rd_sys, rd_set. destruct (Nat.eqb_spec i j); [congruence|]. exact D.
      * intro CL. eapply closing_qstep; [exact Q|]. now apply closing_remove.
  - apply bind_ok in E. destruct E as (r & E & E2). apply Ok_inj in E2. apply pair_equal_spec in E2. destruct E2 as [_ <-].
    apply (GEN a q v); [| exact AI |].
    + constructor; [exact HA'|eapply ys_rd; [exact HS|reflexivity]|apply YM2|].
      intros k' KJ PJ. rewrite rd_set in PJ. destruct (Nat.eqb_spec k' j) as [->|]; [|auto]. apply HP; [exact KJ|].
      destruct (r_playing (w_rd w j)) eqn:P; [reflexivity|]. rewrite (call_stopped _ _ _ _ _ (HA j) P E) in PJ. discriminate.
    + intro X. right. split; [|auto]. rewrite rd_set. destruct (Nat.eqb_spec i j); [congruence|]. now right.
  - apply bind_ok in E. destruct E as ([b w1] & E & E2). apply Ok_inj in E2. apply pair_equal_spec in E2. destruct E2 as [_ <-].
    assert (E1 : w_updates fuel [(j, alloc)] w = Ok ([(j, b)], w1)) by (cbn [w_updates]; rewrite E; reflexivity).
    destruct (updates_step _ i _ _ _ _ _ _ _ _ HS E1) as (q' & Y3 & P3 & D3). apply (GEN a q' v); [| exact AI |].
    + constructor; [exact HA'|exact Y3|apply YM2|]. intros k' KJ PJ. rewrite P3 in PJ. auto.
    + intro X. destruct (D3 (or_intror X)) as [D Q]. right. split; [exact D|]. intro CL. eapply closing_qstep; eauto.
  - apply bind_ok in E. destruct E as (w1 & E & E2). apply Ok_inj in E2. apply pair_equal_spec in E2. destruct E2 as [_ <-].
    destruct (HT i AI) as [_ BIT].
    destruct (ys_yield _ _ _ _ _ _ HS E) as [[B _]|[[-> ->]|(j & st & q' & -> & Y1 & w2 & EV & R)]]; [congruence| |].
    + apply (GEN a [] v); [exact YM2|exact AI|]. intro X. right. split; [now right|].
      intros (p & r & Q & _). destruct p; discriminate.
    + apply (GEN a q' v); [| exact AI |].
      * constructor; [exact HA'|exact Y1|apply YM2|]. intros k' KJ PJ. apply HP; [exact KJ|]. rewrite <- R. exact (event_no_new _ _ _ _ _ EV k' PJ).
      * intro X. apply event_response_inv in EV. destruct EV as (r & EV & RR & _). rewrite (RR i), ?R.
        destruct (Nat.eqb_spec i j) as [<-|NE].
        -- rewrite R in EV. destruct (Z.eqb_spec st evReload) as [->|NR].
           ++ right. apply reload_exhausted in EV; [|exact X]. split; [now right|]. intros (p & r0 & Q & Lp).
              destruct p as [|e p]; [discriminate|]. injection Q as _ ->. exists p, r0. split; [reflexivity|]. cbn in Lp. lia.
           ++ destruct (Z.eqb_spec st evClose) as [->|NC].
              ** left. apply Ok_inj in EV. subst r. unfold r_close. destruct (r_kind (w_rd w i)); reflexivity.
              ** right. apply Ok_inj in EV. subst r. split; [now right|]. intros (p & r0 & Q & Lp).
                 destruct p as [|e p]; [injection Q as Q _; congruence|]. injection Q as _ ->. exists p, r0.
                 split; [reflexivity|]. cbn in Lp. lia.
        -- right. split; [now right|]. intros (p & r0 & Q & Lp). destruct p as [|e p]; [injection Q as Q _; congruence|].
           injection Q as _ ->. exists p, r0. split; [reflexivity|]. cbn in Lp. lia.
Qed.

Lemma ending_wops : forall kinds fuel i l k w xs w', ending kinds i k w -> Forall (wop_ok kinds) l -> Forall (leaves i) l ->
  wops fuel l w = Ok (xs, w') -> ending kinds i (k - yields l) w'.
Proof.
  intros kinds fuel i. induction l as [|o l IH]; intros k w xs w' H K L E; cbn [wops] in E.
  - apply Ok_inj in E. apply pair_equal_spec in E. destruct E as [_ <-]. cbn. now rewrite Nat.sub_0_r.
  - apply bind_ok in E. destruct E as ([x w1] & E1 & E). apply bind_ok in E. destruct E as ([ys w2] & E2 & E).
    apply Ok_inj in E. apply pair_equal_spec in E. destruct E as [_ <-].
    apply Forall_cons_iff in K, L. destruct K as [K1 K2], L as [L1 L2].
    pose proof (IH _ _ _ _ (ending_step _ _ _ _ _ _ _ _ H K1 L1 E1) K2 L2 E2) as R. unfold yields in *. cbn [filter].
    destruct (is_yield o); [|exact R]. cbn [length]. fold (yields l) in *. now replace (k - S (yields l))%nat with (Nat.pred k - yields l)%nat by lia.
Qed.

Lemma ending_over : forall kinds i w, ending kinds i 0 w -> r_playing (w_rd w i) = false.
Proof. intros kinds i w (F & a & q & v & _ & _ & [P|(_ & p & r & _ & L)]); [exact P|lia]. Qed.

(* The queue holds each player at most once *)
Lemma queue_bound : forall N s (a : nat -> bool) q, yinv s (a, q) -> (forall j, a j = true -> (j < N)%nat) -> (length q <= N)%nat.
Proof.
  intros N s a q Y A. rewrite <- (map_length fst q), <- (seq_length N 0). apply NoDup_incl_length; [exact (yi_nodup _ _ Y)|].
  intros j J. apply in_seq. cbn. split; [lia|]. apply A.
  exact (proj2 (proj2 (proj2 (yi_resp _ _ Y j))) (proj2 (pending_in _ _) J)).
Qed.

Lemma trigger_closing : forall N i q, (length q <= N)%nat -> (pending q i = false -> (length q < N)%nat) -> 
  closing i (q_trigger q i evClose) N.
Proof.
  intros N i q L1 L2. unfold q_trigger. destruct (pending q i) eqn:P.
  - set (g := fun e : nat * Z => if Nat.eqb (fst e) i then (i, evClose) else e).
    apply pending_in in P. apply in_map_iff in P. destruct P as ([j st] & J & I). cbn in J. subst j.
    apply in_split in I. destruct I as (p & r & ->). rewrite map_app. exists (map g p), (map g r). split.
    + cbn [map]. unfold g at 2. cbn [fst]. now rewrite Nat.eqb_refl.
    + rewrite map_length. rewrite app_length in L1. cbn in L1. lia.
  - exists q, []. split; [reflexivity|auto].
Qed.

(* The update in which the source runs out requests a close *)
Lemma short_update : forall fuel i alloc w frames r1 acts w1, r_playing (w_rd w i) = true ->
  (forall c, alloc c <> None) -> r_read fuel (w_rd w i) 128 = Ok (frames, r1) -> (length frames < 128)%nat ->
  w_update fuel i alloc w = Ok (acts, w1) ->
  p_update fuel alloc (w_rd w i) = Ok (acts, Some evClose, w_rd w1 i) /\ exhausted (w_rd w1 i).
Proof.
  intros fuel i alloc w frames r1 acts w1 PL AL RD SH U. apply w_update_inv in U. destruct U as (ev & r' & P & R & _).
  rewrite R, Nat.eqb_refl. assert (EV : ev = Some evClose).
  { apply update_cases in P. cbv zeta in P. destruct P as [(C & _)|(_ & _ & _ & _ & [(C & _)|(_ & fr & P & _ & _ & EV)])].
    - destruct C as [C|C]; [congruence|]. unfold r_read in RD. rewrite PL, C in RD. discriminate.
    - destruct C as (c & _ & C). now elim (AL (Z.to_nat c)).
    - change ABS with 128 in P. rewrite RD in P. apply Ok_inj in P. apply pair_equal_spec in P. destruct P as [<- _]. rewrite EV.
      destruct (Z.eqb_spec (Z.of_nat (length frames)) ABS) as [E|_]; [unfold ABS in E; lia|reflexivity]. }
  rewrite EV in P. split; [exact P|]. eapply close_exhausted; eauto.
Qed.

(* C35, yield mode: files on at most N players; the update in which player i runs out, with
   blocks to be had, and then N yields stop it, whatever else happens *)
Theorem end_stops : forall kinds flags N l1 fuel xs1 w i alloc frames r1 acts w1 l2 xs2 w2,
  0 <= flags < 256 -> Forall (wop_ok kinds) l1 -> Forall yield_mode l1 ->
  (forall o j, In o l1 -> plays_file o j -> (j < N)%nat) ->
  wops fuel l1 (world0 kinds flags) = Ok (xs1, w) ->
  kinds i <> KArray -> r_playing (w_rd w i) = true ->
  r_read fuel (w_rd w i) 128 = Ok (frames, r1) -> (length frames < 128)%nat ->
  (forall c, alloc c <> None) -> w_update fuel i alloc w = Ok (acts, w1) ->
  Forall (wop_ok kinds) l2 -> Forall (leaves i) l2 -> wops fuel l2 w1 = Ok (xs2, w2) ->
  (N <= yields l2)%nat -> r_playing (w_rd w2 i) = false.
Proof.
  intros kinds flags N l1 fuel xs1 w i alloc frames r1 acts w1 l2 xs2 w2 B K1 M1 PN E1 KI PL RD SH AL U K2 L2 E2 Y.
  assert (FI : Forall (files_in (fun j => (j < N)%nat)) l1).
  { apply Forall_forall. intros o IN. destruct o; try exact I. cbn. exact (PN _ _ IN eq_refl). }
  destruct (ymode_wops _ _ _ _ _ _ _ _ _ _ (ymode0 kinds _ _ B) K1 M1 FI E1) as (a & q & v & [HA HS HT HP]).
  assert (AI : a i = true) by (apply HP; assumption).
  destruct (short_update _ _ _ _ _ _ _ _ PL AL RD SH U) as [P0 X'].
  destruct (ys_update _ _ _ _ _ _ _ _ _ _ HS U) as (ev & r' & P & R & Y1).
  assert (QL : (length q <= N)%nat) by (eapply queue_bound; [exact (proj1 HS)|intros j J; now apply HT]).
  rewrite P in P0. apply Ok_inj in P0. apply pair_equal_spec in P0. destruct P0 as [P0 _]. apply pair_equal_spec in P0.
  destruct P0 as [_ ->]. rewrite AI in Y1.
  assert (END : ending kinds i N w1).
  { exists (fun j => (j < N)%nat), a, (q_trigger q i evClose), v. split.
    - constructor; [|exact Y1|exact HT|].
      + eapply w_update_alive; eauto.
      + intros j KJ PJ. rewrite R in PJ. destruct (Nat.eqb_spec j i) as [->|]; auto.
    - split; [exact AI|]. right. split; [exact X'|].
      apply trigger_closing; [exact QL|]. intro NP.
      assert (QB : (length (q_trigger q i evClose) <= N)%nat) by (eapply queue_bound; [exact (proj1 Y1)|intros j J; now apply HT]).
      unfold q_trigger in QB. rewrite NP, app_length in QB. cbn in QB. lia. }
  apply (ending_over kinds). replace 0%nat with (N - yields l2)%nat by lia. eapply ending_wops; eauto.
Qed.

(* Players that only ever played arrays are never attached: their requests are lost *)
Lemma unattached_step : forall kinds i fuel o w a q v x w', ymode kinds (fun j => j <> i) w a q v -> exhausted (w_rd w i) ->
  wop_ok kinds o -> leaves i o -> wop_run fuel o w = Ok (x, w') ->
  exists a' q' v', ymode kinds (fun j => j <> i) w' a' q' v' /\ exhausted (w_rd w' i).
Proof.
  intros kinds i fuel o w a q v x w' Y X K L E.
  assert (FI : files_in (fun j => j <> i) o) by (destruct o; try exact I; cbn in *; auto).
  destruct (ymode_step _ _ _ _ _ _ _ _ _ _ Y K (leaves_yield _ _ L) FI E) as (a' & q' & v' & Y').
  exists a', q', v'. split; [exact Y'|]. destruct Y as [HA HS HT HP]. clear Y' FI.
  assert (AI : a i = false) by (destruct (a i) eqn:A; [exfalso; now apply (HT i A)|reflexivity]).
  unfold wop_run in E.
  destruct o as [j fo wv n st g|j m off len nch|j m off len|j m|j mid|j c|j alloc| | |b]; try contradiction;
    cbv beta iota in E; cbn [leaves] in L.
  - apply bind_ok in E. destruct E as ([b w1] & E & E2). apply Ok_inj in E2. apply pair_equal_spec in E2. destruct E2 as [_ <-].
    apply p_play_file_inv in E. destruct E as (r & _ & R & _). rewrite R. destruct (Nat.eqb_spec i j); [congruence|exact X].
  - apply bind_ok in E. destruct E as ([b w1] & E & E2). apply Ok_inj in E2. apply pair_equal_spec in E2. destruct E2 as [_ <-].
    apply p_play_array_inv in E. destruct E as (r & _ & R & _). rewrite R. destruct (Nat.eqb_spec i j); [congruence|exact X].
  - apply bind_ok in E. destruct E as ([b w1] & E & E2). apply Ok_inj in E2. apply pair_equal_spec in E2. destruct E2 as [_ <-].
    apply p_play_array_inv in E. destruct E as (r & _ & R & _). rewrite R. destruct (Nat.eqb_spec i j); [congruence|exact X].
  - apply bind_ok in E. destruct E as ([b w1] & E & E2). apply Ok_inj in E2. apply pair_equal_spec in E2. destruct E2 as [_ <-].
    apply p_play_array_inv in E. destruct E as (r & _ & R & _). rewrite R. destruct (Nat.eqb_spec i j); [congruence|exact X].
  - apply bind_ok in E. destruct E as ([b w1] & E & E2). apply Ok_inj in E2. apply pair_equal_spec in E2. destruct E2 as [_ <-].
    apply w_stop_inv in E. destruct E as (w2 & E & ->).
    pose proof (ys_disable _ _ _ _ _ HS ltac:(lia)) as Y1. pose proof (ys_clear _ _ _ _ _ j Y1) as Y2.
    destruct (updates_step _ i _ _ _ _ _ _ _ _ Y2 E) as (q'' & _ & P3 & D3). rewrite rd_sys, rd_set.
    destruct (Nat.eqb_spec i j); [congruence|]. destruct (D3 (or_intror X)) as [[D|D] _]; [|exact D].
    rewrite P3 in D. cbn in D. destruct X as (X & _). congruence.
  - apply bind_ok in E. destruct E as (r & E & E2). apply Ok_inj in E2. apply pair_equal_spec in E2. destruct E2 as [_ <-].
    rewrite rd_set. destruct (Nat.eqb_spec i j); [congruence|exact X].
  - apply bind_ok in E. destruct E as ([b w1] & E & E2). apply Ok_inj in E2. apply pair_equal_spec in E2. destruct E2 as [_ <-].
    assert (E1 : w_updates fuel [(j, alloc)] w = Ok ([(j, b)], w1)) by (cbn [w_updates]; rewrite E; reflexivity).
    destruct (updates_step _ i _ _ _ _ _ _ _ _ HS E1) as (q'' & _ & P3 & D3).
    destruct (D3 (or_intror X)) as [[D|D] _]; [|exact D]. rewrite P3 in D. destruct X as (X & _). congruence.
  - apply bind_ok in E. destruct E as (w1 & E & E2). apply Ok_inj in E2. apply pair_equal_spec in E2. destruct E2 as [_ <-].
    destruct (ys_yield _ _ _ _ _ _ HS E) as [[_ ->]|[[_ ->]|(j & st & q'' & -> & Y1 & w2 & EV & R)]]; [exact X|exact X|].
    apply event_response_inv in EV. destruct EV as (r & EV & RR & _). rewrite RR, R.
    destruct (Nat.eqb_spec i j) as [<-|]; [|exact X]. exfalso.
    assert (A : a i = true) by (apply (yi_resp _ _ (proj1 HS) i); cbn; now rewrite Nat.eqb_refl). congruence.
Qed.

Theorem array_never_stops : forall kinds flags l1 fuel xs1 w i alloc frames r1 acts w1 l2 xs2 w2,
  0 <= flags < 256 -> Forall (wop_ok kinds) l1 -> Forall yield_mode l1 ->
  (forall o, In o l1 -> ~ plays_file o i) ->
  wops fuel l1 (world0 kinds flags) = Ok (xs1, w) ->
  r_playing (w_rd w i) = true -> r_read fuel (w_rd w i) 128 = Ok (frames, r1) -> (length frames < 128)%nat ->
  (forall c, alloc c <> None) -> w_update fuel i alloc w = Ok (acts, w1) ->
  Forall (wop_ok kinds) l2 -> Forall (leaves i) l2 -> wops fuel l2 w1 = Ok (xs2, w2) -> r_playing (w_rd w2 i) = true.
Proof.
  intros kinds flags l1 fuel xs1 w i alloc frames r1 acts w1 l2 xs2 w2 B K1 M1 PN E1 PL RD SH AL U K2 L2 E2.
  assert (FI : Forall (files_in (fun j => j <> i)) l1).
  { apply Forall_forall. intros o IN. destruct o; try exact I. cbn. intros ->. exact (PN _ IN eq_refl). }
  destruct (ymode_wops _ _ _ _ _ _ _ _ _ _ (ymode0 kinds _ _ B) K1 M1 FI E1) as (a0 & q0 & v0 & Y0).
  destruct (short_update _ _ _ _ _ _ _ _ PL AL RD SH U) as [_ X].
  destruct (ymode_step kinds (fun j => j <> i) fuel (WUpdate i alloc) w a0 q0 v0 (WoActs [(i, acts)]) w1 Y0 I I I) as (a & q & v & Y).
  { unfold wop_run. rewrite U. reflexivity. }
  clear K1 M1 PN E1 FI Y0 PL RD SH AL U.
  revert w1 xs2 a q v Y X E2. induction l2 as [|o l2 IH]; intros w1 xs2 a q v Y X E; cbn [wops] in E.
  - apply Ok_inj in E. apply pair_equal_spec in E. destruct E as [_ <-]. apply X.
  - apply bind_ok in E. destruct E as ([x w3] & E1 & E). apply bind_ok in E. destruct E as ([ys w4] & E2 & E).
    apply Ok_inj in E. apply pair_equal_spec in E. destruct E as [_ <-].
    apply Forall_cons_iff in K2, L2. destruct K2 as [K1 K2], L2 as [L1 L2].
    destruct (unattached_step _ _ _ _ _ _ _ _ _ _ Y X K1 L1 E1) as (a1 & q1 & v1 & Y1 & X1). exact (IH K2 L2 _ _ _ _ _ Y1 X1 E2).
Qed.
