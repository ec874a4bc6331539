(* C96, C97: stopping at the end of the source in polled mode. *)

From Coq Require Import ZArith Lia List Bool.
From RecordUpdate Require Import RecordUpdate.
From Flocq Require Import IEEE754.BinarySingleNaN.
From Verif Require Import Machine Floats WavModel InterpModel CacheModel ReaderModel ReaderFacts ResponderModel ResponderSpec
  ResponderProofs QueueProofs PlayerModel CacheFacts CacheSpec CacheProofs CacheFinal LifeSpec UpdateProofs LifeProofs WorldProofs ScheduleProofs
  PolledSpec.
Import ListNotations.
Local Open Scope Z_scope.

(* the polled list is untouched, polling stays on, the yield list too *)
Definition same_polled (s s' : rsys) : Prop :=
  s_pfirst s' = s_pfirst s /\ s_plast s' = s_plast s /\ s_resp s' = s_resp s /\ s_force s' = s_force s /\ s_yfirst s' = s_yfirst s.
Lemma sp_disable : forall s, same_polled s (disableResponse s).
Proof. intro s. unfold disableResponse. destruct (s_count s =? 0); [destruct (s_force s) eqn:F|]; repeat split; cbn; auto. Qed.
Lemma sp_enable : forall s, same_polled s (enableResponse s).
Proof. intro s. unfold enableResponse. cbv zeta. destruct (_ <=? 0); [destruct (s_force _) eqn:F|]; repeat split; cbn in *; auto. Qed.
Lemma sp_update : forall s, same_polled s (updateResponse s).
Proof. intro s. unfold updateResponse. cbv zeta. destruct (_ && _); repeat split. Qed.

Lemma pinv_same : forall s s' x, same_polled s s' -> pinv s x -> pinv s' x.
Proof.
  intros s s' x (A & B & C & _ & _) [L ST R]. constructor.
  - eapply p_list_ext; [exact L|exact A|exact B|]. intro j. rewrite C. auto.
  - intros i y I. rewrite C. auto.
  - intro i. rewrite C. apply R.
Qed.

Definition pst (s : rsys) (a : nat -> bool) (q : queue) : Prop := pinv s (a, q) /\ s_force s = true /\ s_yfirst s = None.
Lemma pst_same : forall s s' a q, same_polled s s' -> pst s a q -> pst s' a q.
Proof. intros s s' a q E (P & F & Y). split; [eapply pinv_same; eauto|]. destruct E as (_ & _ & _ & -> & ->). auto. Qed.

Lemma keep_remove : forall i s s', removeFromList i s = Ok s' -> s_force s' = s_force s /\ s_yfirst s' = s_yfirst s.
Proof.
  intros i s s' E. unfold removeFromList in E. cbv zeta in E.
  set (s1 := if ptr_is (s_pfirst s) i then s <| s_pfirst := v_anext (s_resp s i) |> else s) in *.
  assert (A1 : s_force s1 = s_force s /\ s_yfirst s1 = s_yfirst s) by (unfold s1; destruct (ptr_is _ _); auto).
  set (s2 := if ptr_is (s_plast s1) i then s1 <| s_plast := v_aprev (s_resp s1 i) |> else s1) in *.
  assert (A2 : s_force s2 = s_force s /\ s_yfirst s2 = s_yfirst s) by (clearbody s1; unfold s2; destruct (ptr_is _ _); exact A1).
  set (s3 := match v_anext (s_resp s2 i) with Some n => upd_resp s2 n (fun q => q <| v_aprev := v_aprev (s_resp s2 i) |>) | None => s2 end) in *.
  assert (A3 : s_force s3 = s_force s /\ s_yfirst s3 = s_yfirst s) by (clearbody s2; unfold s3; destruct (v_anext (s_resp s2 i)); exact A2).
  clearbody s3. destruct (v_prev (s_resp s3 i)); [destruct (v_aprev (s_resp s3 i)); [|discriminate E]|]; apply Ok_inj in E; subst s'; exact A3.
Qed.
Lemma keep_add : forall i s s', addToList i s = Ok s' -> s_force s' = s_force s /\ s_yfirst s' = s_yfirst s.
Proof.
  intros i s s' E. unfold addToList in E. apply bind_ok in E. destruct E as (s1 & E1 & E). apply Ok_inj in E. subst s'. cbn.
  destruct (s_pfirst s); [destruct (s_plast s); [|discriminate]|]; apply Ok_inj in E1; subst s1; auto.
Qed.

Lemma keep_trigger : forall i st s s', v_type (s_resp s i) = (if v_polled (s_resp s i) then TImmediate else TDetached) ->
  triggerEvent i st s = Ok s' -> s_force s' = s_force s /\ s_yfirst s' = s_yfirst s.
Proof.
  intros i st s s' R E. unfold triggerEvent in E. apply bind_ok in E. destruct E as (s2 & E & E2). apply Ok_inj in E2.
  assert (K : s_force s2 = s_force s /\ s_yfirst s2 = s_yfirst s).
  { destruct (v_polled (s_resp s i)).
    - cbv zeta in E. destruct (v_trig _); [apply Ok_inj in E; subst s2; auto|]. apply bind_ok in E. destruct E as (s3 & E3 & E). apply Ok_inj in E. subst s2.
      apply keep_add in E3. exact E3.
    - unfold base_trigger in E. cbv zeta in E. rewrite upd_same in E. change (v_type (s_resp s i <| v_status := st |>)) with (v_type (s_resp s i)) in E. rewrite R in E.
      destruct (v_trig _); [apply Ok_inj in E; subst s2; auto|]. cbn [bind] in E. apply Ok_inj in E. subst s2. auto. }
  subst s'. destruct (is_detached _); destruct K as [K1 K2]; cbn; rewrite ?K1, ?K2; auto.
Qed.
Lemma keep_run : forall s v e s', runPolled s = Ok (v, e, s') -> s_force s' = s_force s /\ s_yfirst s' = s_yfirst s.
Proof.
  intros s v e s' E. unfold runPolled in E. destruct (s_pfirst s) as [i|]; [|apply Ok_inj in E; apply pair_equal_spec in E; destruct E as [_ <-]; auto].
  apply bind_ok in E. destruct E as (s2 & E2 & E). apply keep_remove in E2. apply Ok_inj in E. apply pair_equal_spec in E. destruct E as [_ <-]. exact E2.
Qed.

Lemma pst_trigger : forall s a q i st, pst s a q -> exists s', triggerEvent i st s = Ok s' /\ pst s' a (if a i then q_trigger q i st else q).
Proof.
  intros s a q i st (P & F & Y). destruct (p_step (PTrigger i st) s (a, q) P I) as (s' & E & P').
  cbn [pop_run pop_spec fst snd] in *. apply bind_ok in E. destruct E as (s1 & E & E1). apply Ok_inj in E1. apply pair_equal_spec in E1. destruct E1 as [_ ->].
  exists s'. split; [exact E|]. split; [exact P'|]. pose proof (pi_resp _ _ P i) as (R1 & R2 & _). cbn [fst] in *.
  destruct (keep_trigger _ _ _ _ ltac:(rewrite R1; exact R2) E) as [-> ->]. auto.
Qed.

Lemma pst_clear : forall s a q i, pst s a q -> pending q i = false -> pst (clearEvent i s) a q.
Proof.
  intros s a q i (P & F & Y) N. split; [now apply p_clear_inv|]. pose proof (pi_resp _ _ P i) as (_ & R2 & _). cbn [fst] in *.
  unfold clearEvent. destruct (v_trig _); [|auto]. rewrite R2. destruct (a i); auto.
Qed.

Lemma pst_attach : forall s a q i, pst s a q -> pending q i = false ->
  exists s', attachPolled i (clearEvent i s) = Ok s' /\ pst s' (att_set a i true) q.
Proof.
  intros s a q i P N. destruct (p_step (PPlay i) s (a, q) (proj1 P) N) as (s' & E & P').
  pose proof (pst_clear s a q i P N) as (PC & FC & YC).
  cbn [pop_run pop_spec fst snd] in *. apply bind_ok in E. destruct E as (s1 & E & E1). apply Ok_inj in E1. apply pair_equal_spec in E1. destruct E1 as [_ ->].
  exists s'. split; [exact E|]. rewrite remove_out in P' by exact N. split; [exact P'|]. unfold attachPolled in E. apply bind_ok in E. destruct E as (s2 & E & E1).
  apply Ok_inj in E1. subst s'. cbn.
  set (s0 := clearEvent i s) in *. pose proof (pi_resp _ _ PC i) as (R1 & R2 & _). cbn [fst] in *. unfold detach in E. destruct (v_polled (s_resp s0 i)) eqn:VP.
  - cbv zeta in E. destruct (v_trig _).
    + apply keep_remove in E. destruct E as [-> ->]. auto.
    + apply Ok_inj in E. subst s2. auto.
  - apply Ok_inj in E. subst s2. unfold base_detach. rewrite R2, <- R1. auto.
Qed.

Lemma pst_run : forall s a q, pst s a q -> exists v e s', runPolled s = Ok (v, e, s') /\
  match q with [] => v = -1 /\ e = None /\ s' = s
  | p :: q' => e = Some p /\ (v <= 0 -> q' = []) /\ pst s' a q' end.
Proof.
  intros s a q (P & F & Y). destruct (p_step PRun s (a, q) P I) as (s' & E & P'). cbn [pop_run pop_spec] in *.
  apply bind_ok in E. destruct E as ([[v e] s1] & E & E1). apply Ok_inj in E1.
  destruct q as [|p q']; cbn [fst snd] in *; apply pair_equal_spec in E1; destruct E1 as [E1 ->]; injection E1 as -> ->.
  - do 3 eexists. split; [exact E|]. split; [reflexivity|]. split; [reflexivity|].
    destruct P as [(PF & _) _ _]. cbn in PF. unfold runPolled in E. rewrite PF in E. apply Ok_inj in E. now apply pair_equal_spec in E.
  - do 3 eexists. split; [exact E|]. split; [reflexivity|]. split; [destruct q'; [auto|lia]|].
    split; [exact P'|]. destruct (keep_run _ _ _ _ E) as [-> ->]. auto.
Qed.

(* ---- updates ---- *)

Lemma ps_update : forall fuel j alloc w a q acts w', pst (w_sys w) a q -> w_update fuel j alloc w = Ok (acts, w') ->
  exists ev r', p_update fuel alloc (w_rd w j) = Ok (acts, ev, r') /\ (forall i, w_rd w' i = if Nat.eqb i j then r' else w_rd w i) /\
    pst (w_sys w') a (match ev with Some st => if a j then q_trigger q j st else q | None => q end).
Proof.
  intros fuel j alloc w a q acts w' P E. apply w_update_inv in E. destruct E as (ev & r' & E & R & S).
  exists ev, r'. split; [exact E|]. split; [exact R|]. destruct ev as [st|]; [|now rewrite S].
  destruct (pst_trigger _ _ _ j st P) as (s' & T & P'). rewrite S in T. apply Ok_inj in T. now subst s'.
Qed.

Lemma ps_updates : forall fuel l w a q acts w', pst (w_sys w) a q -> w_updates fuel l w = Ok (acts, w') ->
  exists q', pst (w_sys w') a q' /\ (forall j, r_playing (w_rd w' j) = r_playing (w_rd w j)) /\
    (forall j, pending q' j = true -> pending q j = true \/ updated w l j = true) /\
    (forall i, done (w_rd w i) -> done (w_rd w' i) /\ qstep i q q').
Proof.
  intros fuel. induction l as [|[j alloc] l IH]; intros w a q acts w' Y E; cbn [w_updates] in E.
  - apply Ok_inj in E. apply pair_equal_spec in E. destruct E as [_ <-]. exists q. split; [exact Y|]. split; [auto|]. split; [auto|].
    intros i D. split; [exact D|constructor].
  - apply bind_ok in E. destruct E as ([b w1] & E1 & E). apply bind_ok in E. destruct E as ([m w2] & E2 & E).
    apply Ok_inj in E. apply pair_equal_spec in E. destruct E as [_ <-].
    destruct (ps_update _ _ _ _ _ _ _ _ Y E1) as (ev & r' & U & R & Y1).
    destruct (IH _ _ _ _ _ Y1 E2) as (q' & Y2 & P2 & W2 & D2). exists q'. split; [exact Y2|].
    assert (PL : forall k, r_playing (w_rd w1 k) = r_playing (w_rd w k)).
    { intro k. rewrite R. destruct (Nat.eqb_spec k j) as [->|]; [|reflexivity]. eapply update_no_new; eauto. }
    split; [intro k; now rewrite P2, PL|]. split.
    + intros k K. unfold updated in *. cbn [existsb fst]. destruct (W2 k K) as [Q|Q].
      * destruct ev as [st|]; [|now left]. destruct (a j); [|now left]. rewrite pending_trigger in Q. apply orb_true_iff in Q. destruct Q as [Q|Q]; [now left|].
        right. rewrite Nat.eqb_sym in Q. rewrite Q. cbn. apply Nat.eqb_eq in Q. subst k.
        destruct (r_playing (w_rd w j)) eqn:PJ; [reflexivity|]. exfalso. apply stopped_update in U; [|exact PJ]. destruct U as (_ & U & _). discriminate.
      * right. rewrite PL in Q. apply andb_true_iff in Q. destruct Q as [-> ->]. now rewrite orb_true_r.
    + intros i D. assert (D1 : done (w_rd w1 i)).
      { rewrite R. destruct (Nat.eqb_spec i j) as [->|]; [|exact D]. eapply done_update; eauto. }
      destruct (D2 i D1) as [D3 Q]. split; [exact D3|].
      destruct ev as [st|]; [|exact Q]. destruct (a j); [|exact Q].
      destruct (Nat.eq_dec j i) as [->|NE]; [|eapply qs_trigger; [exact Q|exact NE]].
      apply qs_close. destruct (done_update _ _ _ _ _ _ D U) as (_ & [EV|EV] & _); [discriminate|]. injection EV as ->. exact Q.
Qed.

(* ---- the invariant ---- *)

Record pmode (kinds : nat -> rkind) (F : nat -> Prop) (w : world) (wt : nat -> bool) (a : nat -> bool) (q : queue) : Prop := mkPmode {
  pm_alive : alive kinds w;
  pm_state : pst (w_sys w) a q;
  pm_att : forall j, a j = true -> F j;
  pm_play : forall j, kinds j <> KArray -> r_playing (w_rd w j) = true -> a j = true;
  pm_wait : forall j, wt j = false -> pending q j = false }.

(* An exhausted player's close request moves up, or it stops *)
Definition closer (o : wop) (w w' : world) (q q' : queue) : Prop := forall i k, leaves_p i o -> exhausted (w_rd w i) -> closing i q k ->
  r_playing (w_rd w' i) = false \/ (exhausted (w_rd w' i) /\ closing i q' (if is_poll o then Nat.pred k else k)).

Lemma closer_other : forall o j w w' q, (forall i, leaves_p i o -> i <> j) -> is_poll o = false -> (forall i, i <> j -> w_rd w' i = w_rd w i) -> closer o w w' q q.
Proof. intros o j w w' q L P R i k LI X C. right. rewrite R, P by auto. auto. Qed.

Lemma pst_stop : forall w a q i, pst (w_sys w) a q -> pending q i = false -> pst (w_sys (p_stop i w)) a q.
Proof.
  intros w a q i P N. unfold p_stop. cbn. eapply pst_same; [apply sp_enable|]. apply pst_clear; [|exact N]. eapply pst_same; [apply sp_disable|exact P].
Qed.

Lemma pmode_step : forall kinds F fuel o w wt a q x w', pmode kinds F w wt a q -> wop_ok kinds o -> polled_mode o -> files_in F o -> calm_op o wt ->
  wop_run fuel o w = Ok (x, w') -> exists a' q', pmode kinds F w' (wait_step w o x wt) a' q' /\ (forall j, a j = true -> a' j = true) /\ closer o w w' q q'.
Proof.
  intros kinds F fuel o w wt a q x w' [HA HS HT HP HW] K PM FI CA E.
  pose proof (wop_alive _ _ _ _ _ _ HA K E) as HA'. unfold wop_run in E.
  destruct o as [i fo wv n st g|i m off len nch|i m off len|i m|i mid|i c|i alloc| | |b];
    cbv beta iota in E; cbn [wop_ok] in K; cbn [files_in] in FI; cbn [calm_op] in CA; cbn [wait_step].
  - apply bind_ok in E. destruct E as ([b w1] & E & E2). apply Ok_inj in E2. apply pair_equal_spec in E2. destruct E2 as [_ <-].
    apply p_play_file_inv in E. destruct E as (r & E & R & s2 & A & S). cbv zeta in A.
    assert (P0 : pst (w_sys (on_sys w disableResponse)) a q) by (eapply pst_same; [apply sp_disable|exact HS]).
    pose proof (pst_stop _ _ _ i P0 (HW i CA)) as P1. rewrite (proj1 (proj2 P1)) in A.
    (* stop() has cleared the event already *)
    destruct (pst_attach _ _ _ i P1 (HW i CA)) as (s3 & A3 & P3).
    assert (CL : clearEvent i (w_sys (p_stop i (on_sys w disableResponse))) = w_sys (p_stop i (on_sys w disableResponse))).
    { assert (V : v_trig (s_resp (w_sys (p_stop i (on_sys w disableResponse))) i) = false).
      { assert (PD : pinv (disableResponse (w_sys (on_sys w disableResponse))) (a, q)) by (eapply pinv_same; [apply sp_disable|apply P0]).
        pose proof (proj2 (p_clear_inv _ _ _ i PD (HW i CA))) as V. unfold p_stop. cbn [w_sys on_sys].
        destruct (sp_enable (clearEvent i (disableResponse (disableResponse (w_sys w))))) as (_ & _ & RE & _). cbn. rewrite RE. exact V. }
      unfold clearEvent at 1. rewrite V. reflexivity. }
    rewrite CL, A in A3. apply Ok_inj in A3. subst s3.
    exists (att_set a i true), q. split; [constructor|split].
    + exact HA'.
    + rewrite S. eapply pst_same; [apply sp_enable|]. eapply pst_same; [apply sp_update|exact P3].
    + intros j AJ. unfold att_set in AJ. destruct (Nat.eqb_spec j i) as [e|]; [rewrite e; exact FI|auto].
    + intros j KJ PJ. unfold att_set. rewrite R in PJ. destruct (Nat.eqb j i); auto.
    + exact HW.
    + intros j AJ. unfold att_set. destruct (Nat.eqb j i); auto.
    + apply (closer_other _ i); [intros k L; cbn in L; auto|reflexivity|]. intros k NK. rewrite R. now rewrite (proj2 (Nat.eqb_neq k i)).
  - apply bind_ok in E. destruct E as ([b w1] & E & E2). apply Ok_inj in E2. apply pair_equal_spec in E2. destruct E2 as [_ <-].
    apply p_play_array_inv in E. destruct E as (r & E & R & S). exists a, q. split; [constructor|split]; auto.
    + rewrite S. apply pst_stop; auto.
    + intros j KJ PJ. rewrite R in PJ. destruct (Nat.eqb_spec j i) as [->|]; [contradiction|auto].
    + apply (closer_other _ i); [intros k L; cbn in L; auto|reflexivity|]. intros k NK. rewrite R. now rewrite (proj2 (Nat.eqb_neq k i)).
  - apply bind_ok in E. destruct E as ([b w1] & E & E2). apply Ok_inj in E2. apply pair_equal_spec in E2. destruct E2 as [_ <-].
    apply p_play_array_inv in E. destruct E as (r & E & R & S). exists a, q. split; [constructor|split]; auto.
    + rewrite S. apply pst_stop; auto.
    + intros j KJ PJ. rewrite R in PJ. destruct (Nat.eqb_spec j i) as [->|]; [contradiction|auto].
    + apply (closer_other _ i); [intros k L; cbn in L; auto|reflexivity|]. intros k NK. rewrite R. now rewrite (proj2 (Nat.eqb_neq k i)).
  - apply bind_ok in E. destruct E as ([b w1] & E & E2). apply Ok_inj in E2. apply pair_equal_spec in E2. destruct E2 as [_ <-].
    apply p_play_array_inv in E. destruct E as (r & E & R & S). exists a, q. split; [constructor|split]; auto.
    + rewrite S. apply pst_stop; auto.
    + intros j KJ PJ. rewrite R in PJ. destruct (Nat.eqb_spec j i) as [->|]; [contradiction|auto].
    + apply (closer_other _ i); [intros k L; cbn in L; auto|reflexivity|]. intros k NK. rewrite R. now rewrite (proj2 (Nat.eqb_neq k i)).
  - apply bind_ok in E. destruct E as ([b w1] & E & E2). apply Ok_inj in E2. apply pair_equal_spec in E2. destruct E2 as [_ <-].
    apply w_stop_inv in E. destruct E as (w2 & E & ->).
    assert (P0 : pst (w_sys (on_sys (on_sys w disableResponse) (clearEvent i))) a q).
    { cbn. apply pst_clear; [|auto]. eapply pst_same; [apply sp_disable|exact HS]. }
    destruct (ps_updates _ _ _ _ _ _ _ P0 E) as (q' & P2 & PL & W2 & D2). exists a, q'. split; [constructor|split]; auto.
    + cbn. eapply pst_same; [apply sp_enable|exact P2].
    + intros j KJ PJ. rewrite rd_sys, rd_set in PJ. destruct (Nat.eqb j i); [discriminate|]. rewrite PL in PJ. auto.
    + intros j WJ. apply orb_false_iff in WJ. destruct WJ as [W1 W3]. destruct (pending q' j) eqn:PJ; [|reflexivity]. exfalso.
      destruct (W2 j PJ) as [Q|Q]; [rewrite HW in Q; [discriminate|exact W1]|]. unfold updated in *. cbn in Q. congruence.
    + intros k n L X C. cbn in L. cbn [is_poll]. rewrite rd_sys, rd_set. rewrite (proj2 (Nat.eqb_neq k i)) by auto.
      destruct (D2 k (or_intror X)) as [[D|D] Q]; [now left|right]. split; [exact D|]. eapply closing_qstep; eauto.
  - apply bind_ok in E. destruct E as (r & E & E2). apply Ok_inj in E2. apply pair_equal_spec in E2. destruct E2 as [_ <-].
    exists a, q. split; [constructor|split]; auto.
    + intros j KJ PJ. rewrite rd_set in PJ. destruct (Nat.eqb_spec j i) as [->|]; [|auto]. apply HP; [exact KJ|].
      destruct (r_playing (w_rd w i)) eqn:P; [reflexivity|]. rewrite (call_stopped _ _ _ _ _ (HA i) P E) in PJ. discriminate.
    + apply (closer_other _ i); [intros k L; cbn in L; auto|reflexivity|]. intros k NK. now rewrite rd_other.
  - apply bind_ok in E. destruct E as ([b w1] & E & E2). apply Ok_inj in E2. apply pair_equal_spec in E2. destruct E2 as [_ <-].
    assert (E1 : w_updates fuel [(i, alloc)] w = Ok ([(i, b)], w1)) by (cbn [w_updates]; rewrite E; reflexivity).
    destruct (ps_updates _ _ _ _ _ _ _ HS E1) as (q' & P2 & PL & W2 & D2). exists a, q'. split; [constructor|split]; auto.
    + intros j KJ PJ. rewrite PL in PJ. auto.
    + intros j WJ. apply orb_false_iff in WJ. destruct WJ as [W1 W3]. destruct (pending q' j) eqn:PJ; [|reflexivity]. exfalso.
      destruct (W2 j PJ) as [Q|Q]; [rewrite HW in Q; [discriminate|exact W1]|]. congruence.
    + intros k n L X C. cbn [is_poll]. destruct (D2 k (or_intror X)) as [[D|D] Q]; [now left|right]. split; [exact D|]. eapply closing_qstep; eauto.
  - apply bind_ok in E. destruct E as (w1 & E & E2). apply Ok_inj in E2. apply pair_equal_spec in E2. destruct E2 as [_ <-].
    unfold w_yield in E. assert (EY : w1 = w).
    { destruct (Z.testbit _ 2); [|now apply Ok_inj in E]. unfold y_pop in E. rewrite (proj2 (proj2 HS)) in E. now apply Ok_inj in E. }
    subst w1. exists a, q. split; [constructor|split]; auto. intros i k _ X C. now right.
  - apply bind_ok in E. destruct E as ([v w1] & E & E2). apply Ok_inj in E2. apply pair_equal_spec in E2. destruct E2 as [<- <-].
    unfold w_poll in E. apply bind_ok in E. destruct E as ([[v1 e] s1] & E0 & E).
    destruct (pst_run _ _ _ HS) as (v2 & e2 & s2 & RP & Q). rewrite RP in E0. apply Ok_inj in E0. apply pair_equal_spec in E0. destruct E0 as [E0 <-].
    apply pair_equal_spec in E0. destruct E0 as [<- <-]. cbv beta iota in E.
    destruct q as [|[i st] q'].
    + destruct Q as (-> & -> & ->). apply Ok_inj in E. apply pair_equal_spec in E. destruct E as [<- <-]. cbn [Z.leb Z.compare].
      exists a, []. split; [constructor|split]; auto. intros i k _ X (p & r & C & _). destruct p; discriminate.
    + destruct Q as (-> & V0 & P2). apply bind_ok in E. destruct E as (w2 & EV & E). apply Ok_inj in E. apply pair_equal_spec in E. destruct E as [-> ->].
      pose proof (event_no_new _ _ _ _ _ EV) as NN. apply event_response_inv in EV. destruct EV as (r & EV & RR & SS). cbn [w_sys w_rd] in *.
      exists a, q'. split; [constructor|split]; auto.
      * rewrite SS. eapply pst_same; [apply sp_enable|]. eapply pst_same; [apply sp_disable|exact P2].
      * intros j KJ PJ. apply HP; [exact KJ|]. exact (NN j PJ).
      * destruct (Z.leb_spec v 0) as [LV|LV].
        -- intros j _. now rewrite V0.
        -- intros j WJ. specialize (HW j WJ). cbn [pending existsb fst] in HW. apply orb_false_iff in HW. apply HW.
      * intros j k _ X C. cbn [is_poll]. rewrite (RR j).
        assert (TAIL : forall (NE : (i, st) <> (j, evClose)), closing j q' (Nat.pred k)).
        { intros NE. destruct C as (p & r0 & Q & Lp). destruct p as [|e p]; [injection Q as Q1 Q2; congruence|]. injection Q as _ ->.
          exists p, r0. split; [reflexivity|]. cbn in Lp. lia. }
        destruct (Nat.eqb_spec j i) as [<-|NE].
        -- destruct (Z.eqb_spec st evReload) as [->|NR].
           ++ right. apply reload_exhausted in EV; [|exact X]. split; [exact EV|]. apply TAIL. intro Q. injection Q as Q. discriminate.
           ++ destruct (Z.eqb_spec st evClose) as [->|NC].
              ** left. apply Ok_inj in EV. subst r. unfold r_close. destruct (r_kind _); reflexivity.
              ** right. apply Ok_inj in EV. subst r. split; [exact X|]. apply TAIL. congruence.
        -- right. split; [exact X|]. apply TAIL. congruence.
  - apply Ok_inj in E. apply pair_equal_spec in E. destruct E as [_ <-]. cbn in PM. subst b. exists a, q. split; [constructor|split]; auto.
    + destruct HS as (P & FO & Y). split; [|auto]. eapply pinv_same; [|exact P]. repeat split. cbn. now rewrite FO.
    + intros i k _ X C. now right.
Qed.

Lemma pmode0 : forall kinds F flags, pmode kinds F (on_sys (world0 kinds flags) (setForceResponse true)) (fun _ => false) (fun _ => false) [].
Proof.
  intros kinds F flags. constructor.
  - intro i. apply life_new.
  - split; [|split; reflexivity]. destruct (pinv0 flags) as [L ST R]. constructor; [|exact ST|exact R].
    eapply p_list_ext; [exact L|reflexivity|reflexivity|auto].
  - discriminate.
  - intros j _ H. cbn in H. discriminate.
  - reflexivity.
Qed.

(* histories: the invariant, and an exhausted player with its close request ahead *)
Lemma pmode_wops : forall kinds F fuel l w wt a q xs w', pmode kinds F w wt a q -> Forall (wop_ok kinds) l -> Forall polled_mode l ->
  Forall (files_in F) l -> forall l2, drained fuel (l ++ l2) w wt -> wops fuel l w = Ok (xs, w') ->
  exists wt' a' q', pmode kinds F w' wt' a' q' /\ drained fuel l2 w' wt'.
Proof.
  intros kinds F fuel. induction l as [|o l IH]; intros w wt a q xs w' H K M FI l2 D E; cbn [wops] in E.
  - apply Ok_inj in E. apply pair_equal_spec in E. destruct E as [_ <-]. exists wt, a, q. auto.
  - apply bind_ok in E. destruct E as ([x w1] & E1 & E). apply bind_ok in E. destruct E as ([ys w2] & E2 & E).
    apply Ok_inj in E. apply pair_equal_spec in E. destruct E as [_ <-].
    apply Forall_cons_iff in K, M, FI. destruct K as [K1 K2], M as [M1 M2], FI as [F1 F2].
    cbn [app drained] in D. destruct D as [C D]. rewrite E1 in D.
    destruct (pmode_step _ _ _ _ _ _ _ _ _ _ H K1 M1 F1 C E1) as (a' & q' & H' & _ & _). eapply IH; eauto.
Qed.

Definition pending_end (i k : nat) (w : world) (q : queue) : Prop := r_playing (w_rd w i) = false \/ (exhausted (w_rd w i) /\ closing i q k).

Lemma leaves_p_mode : forall i o, leaves_p i o -> polled_mode o.
Proof. intros i []; cbn; auto. Qed.
Lemma leaves_p_started : forall i fuel o w x w', leaves_p i o -> wop_run fuel o w = Ok (x, w') -> not_started i x.
Proof.
  intros i fuel o w x w' L E. unfold wop_run in E. destruct o; cbv beta iota in E; cbn [leaves_p] in L.
  1-4: apply bind_ok in E; destruct E as ([b w1] & _ & E); apply Ok_inj in E; apply pair_equal_spec in E; destruct E as [<- _];
       destruct b; [exact L|exact I].
  1,3: apply bind_ok in E; destruct E as ([b w1] & _ & E); apply Ok_inj in E; apply pair_equal_spec in E; destruct E as [<- _]; exact I.
  1,2: apply bind_ok in E; destruct E as (w1 & _ & E); apply Ok_inj in E; apply pair_equal_spec in E; destruct E as [<- _]; exact I.
  - apply bind_ok in E; destruct E as ([b w1] & _ & E); apply Ok_inj in E; apply pair_equal_spec in E; destruct E as [<- _]; exact I.
  - apply Ok_inj in E; apply pair_equal_spec in E; destruct E as [<- _]; exact I.
Qed.

Lemma pending_end_wops : forall kinds fuel i l k w wt a q xs w', pmode kinds (fun _ => True) w wt a q -> pending_end i k w q ->
  Forall (wop_ok kinds) l -> Forall (leaves_p i) l -> drained fuel l w wt -> wops fuel l w = Ok (xs, w') ->
  exists q', pending_end i (k - polls l) w' q'.
Proof.
  intros kinds fuel i. induction l as [|o l IH]; intros k w wt a q xs w' H P K L D E; cbn [wops] in E.
  - apply Ok_inj in E. apply pair_equal_spec in E. destruct E as [_ <-]. exists q. cbn. now rewrite Nat.sub_0_r.
  - apply bind_ok in E. destruct E as ([x w1] & E1 & E). apply bind_ok in E. destruct E as ([ys w2] & E2 & E).
    apply Ok_inj in E. apply pair_equal_spec in E. destruct E as [_ <-].
    apply Forall_cons_iff in K, L. destruct K as [K1 K2], L as [L1 L2]. cbn [drained] in D. destruct D as [C D]. rewrite E1 in D.
    assert (FI : files_in (fun _ => True) o) by (destruct o; exact I).
    destruct (pmode_step _ _ _ _ _ _ _ _ _ _ H K1 (leaves_p_mode _ _ L1) FI C E1) as (a' & q' & H' & _ & CL).
    assert (P' : pending_end i (if is_poll o then Nat.pred k else k) w1 q').
    { destruct P as [P|[X CQ]]; [left|].
      - exact (proj1 (stopped_step _ _ _ _ _ _ i (pm_alive _ _ _ _ _ _ H) K1 P E1 (leaves_p_started _ _ _ _ _ _ L1 E1))).
      - destruct (CL i k L1 X CQ) as [P'|P']; [now left|now right]. }
    destruct (IH _ _ _ _ _ _ _ H' P' K2 L2 D E2) as (q2 & R). exists q2. unfold polls in *. cbn [filter].
    destruct (is_poll o); [|exact R]. cbn [length]. fold (polls l) in *. now replace (k - S (polls l))%nat with (Nat.pred k - polls l)%nat by lia.
Qed.

Lemma pqueue_bound : forall N s (a : nat -> bool) q, pinv s (a, q) -> (forall j, a j = true -> (j < N)%nat) -> (length q <= N)%nat.
Proof.
  intros N s a q Y A. rewrite <- (map_length fst q), <- (seq_length N 0). apply NoDup_incl_length; [apply (pi_list _ _ Y)|].
  intros j J. apply in_seq. cbn. split; [lia|]. apply A.
  exact (proj2 (proj2 (proj2 (pi_resp _ _ Y j))) (proj2 (pending_in _ _) J)).
Qed.

(* C96 *)
Theorem polled_stops : forall kinds flags N l1 fuel xs1 w i alloc frames r1 acts w1 l2 xs2 w2,
  Forall (wop_ok kinds) l1 -> Forall polled_mode l1 -> (forall o j, In o l1 -> plays_file o j -> (j < N)%nat) ->
  wops fuel (WForce true :: l1) (world0 kinds flags) = Ok (xs1, w) ->
  kinds i <> KArray -> r_playing (w_rd w i) = true ->
  r_read fuel (w_rd w i) 128 = Ok (frames, r1) -> (length frames < 128)%nat ->
  (forall c, alloc c <> None) -> w_update fuel i alloc w = Ok (acts, w1) ->
  Forall (wop_ok kinds) l2 -> Forall (leaves_p i) l2 -> wops fuel l2 w1 = Ok (xs2, w2) ->
  drained fuel (WForce true :: l1 ++ WUpdate i alloc :: l2) (world0 kinds flags) (fun _ => false) ->
  (N <= polls l2)%nat -> r_playing (w_rd w2 i) = false.
Proof.
  intros kinds flags N l1 fuel xs1 w i alloc frames r1 acts w1 l2 xs2 w2 K1 M1 PN E1 KI PL RD SH AL U K2 L2 E2 DR Y.
  assert (FI : Forall (files_in (fun j => (j < N)%nat)) l1).
  { apply Forall_forall. intros o IN. destruct o; try exact I. cbn. exact (PN _ _ IN eq_refl). }
  cbn [wops] in E1. apply bind_ok in E1. destruct E1 as ([x0 w0] & E0 & E1). apply bind_ok in E1. destruct E1 as ([ys w0'] & E1 & E3).
  apply Ok_inj in E3. apply pair_equal_spec in E3. destruct E3 as [_ ->]. cbn [drained] in DR. destruct DR as [_ DR]. rewrite E0 in DR.
  cbn in E0. apply Ok_inj in E0. apply pair_equal_spec in E0. destruct E0 as [<- <-]. cbn [wait_step] in DR.
  destruct (pmode_wops _ _ _ _ _ _ _ _ _ _ (pmode0 kinds (fun j => (j < N)%nat) flags) K1 M1 FI _ DR E1) as (wt & a & q & H & D2).
  assert (AI : a i = true) by (eapply pm_play; eauto).
  destruct (short_update _ _ _ _ _ _ _ _ PL AL RD SH U) as [P0 X'].
  destruct (ps_update _ _ _ _ _ _ _ _ (pm_state _ _ _ _ _ _ H) U) as (ev & r' & P & R & Y1).
  rewrite P in P0. apply Ok_inj in P0. apply pair_equal_spec in P0. destruct P0 as [P0 _]. apply pair_equal_spec in P0.
  destruct P0 as [_ ->]. rewrite AI in Y1.
  assert (QL : (length q <= N)%nat) by (eapply pqueue_bound; [exact (proj1 (pm_state _ _ _ _ _ _ H))|apply H]).
  assert (QB : (length (q_trigger q i evClose) <= N)%nat) by (eapply pqueue_bound; [exact (proj1 Y1)|apply H]).
  assert (CQ : closing i (q_trigger q i evClose) N).
  { apply trigger_closing; [exact QL|]. intro NP. unfold q_trigger in QB. rewrite NP, app_length in QB. cbn in QB. lia. }
  cbn [drained] in D2. destruct D2 as [_ D2]. cbn [wop_run] in D2. rewrite U in D2. cbn [bind wait_step] in D2.
  assert (H1 : pmode kinds (fun _ => True) w1 (fun j => wt j || updated w [(i, alloc)] j) a (q_trigger q i evClose)).
  { constructor; auto.
    - eapply w_update_alive; [apply H|exact U].
    - intros j KJ PJ. rewrite R in PJ. destruct (Nat.eqb_spec j i) as [->|]; [exact AI|]. now apply (pm_play _ _ _ _ _ _ H).
    - intros j WJ. apply orb_false_iff in WJ. destruct WJ as [W1 W2]. rewrite pending_trigger, (pm_wait _ _ _ _ _ _ H j W1). cbn.
      unfold updated in W2. cbn in W2. rewrite orb_false_r in W2. apply Nat.eqb_neq. intros ->. rewrite Nat.eqb_refl, PL in W2. discriminate. }
  destruct (pending_end_wops _ _ _ _ N _ _ _ _ _ _ H1 (or_intror (conj X' CQ)) K2 L2 D2 E2) as (q2 & [Q|(_ & p & r & _ & LL)]); [exact Q|lia].
Qed.

(* ---- C97: without the discipline ---- *)

Lemma starved_same : forall j s s' l, same_polled s s' -> starved j s l -> starved j s' l.
Proof.
  intros j s s' l (A & B & C & _) [L O T P Y N]. constructor; rewrite ?C; auto.
  eapply p_list_ext; [exact L|exact A|exact B|]. intro k. rewrite C. auto.
Qed.

(* exhausted, its event lost *)
Definition lost (i : nat) (w : world) : Prop := (exists l, starved i (w_sys w) l) /\ s_yfirst (w_sys w) = None /\ exhausted (w_rd w i).

Lemma lost_step : forall i fuel o w x w', lost i w -> idle_op o -> wop_run fuel o w = Ok (x, w') -> lost i w'.
Proof.
  intros i fuel o w x w' ((l & S) & Y & X) ID E. unfold wop_run in E.
  destruct o as [ | | | | | |j alloc| | | ]; try contradiction; cbv beta iota in E.
  - apply bind_ok in E. destruct E as ([b w1] & E & E2). apply Ok_inj in E2. apply pair_equal_spec in E2. destruct E2 as [_ <-].
    apply w_update_inv in E. destruct E as (ev & r' & U & R & T).
    assert (X1 : exhausted (w_rd w1 i)).
    { rewrite R. destruct (Nat.eqb_spec i j) as [->|]; [|exact X]. destruct (done_update _ _ _ _ _ _ (or_intror X) U) as ([D|D] & _ & PL); [|exact D].
      destruct X as [X _]. congruence. }
    destruct ev as [st|]; [|unfold lost; rewrite T; eauto].
    destruct (starved_trigger _ _ _ j st S) as (s' & l' & T' & S'). rewrite T in T'. apply Ok_inj in T'. subst s'.
    destruct (keep_trigger _ _ _ _ (sv_types _ _ _ S j) T) as [_ K]. unfold lost. rewrite K. eauto.
  - apply bind_ok in E. destruct E as (w1 & E & E2). apply Ok_inj in E2. apply pair_equal_spec in E2. destruct E2 as [_ <-].
    unfold w_yield in E. assert (EY : w1 = w).
    { destruct (Z.testbit _ 2); [|now apply Ok_inj in E]. unfold y_pop in E. rewrite Y in E. now apply Ok_inj in E. }
    subst w1. unfold lost. eauto.
  - apply bind_ok in E. destruct E as ([v w1] & E & E2). apply Ok_inj in E2. apply pair_equal_spec in E2. destruct E2 as [_ <-].
    unfold w_poll in E. apply bind_ok in E. destruct E as ([[v1 e] s1] & E0 & E).
    destruct (starved_run _ _ _ S) as (v2 & e2 & s2 & l2 & RP & S2 & NE). rewrite RP in E0. apply Ok_inj in E0. apply pair_equal_spec in E0. destruct E0 as [E0 <-].
    apply pair_equal_spec in E0. destruct E0 as [<- <-]. destruct (keep_run _ _ _ _ RP) as [_ K]. rewrite Y in K. cbv beta iota in E.
    destruct e2 as [[j st]|].
    + apply bind_ok in E. destruct E as (w2 & EV & E). apply Ok_inj in E. apply pair_equal_spec in E. destruct E as [_ <-].
      apply event_response_inv in EV. destruct EV as (r & _ & RR & SS). cbn in SS.
      split; [|split].
      * exists l2. rewrite SS. eapply starved_same; [apply sp_enable|]. eapply starved_same; [apply sp_disable|exact S2].
      * rewrite SS. destruct (sp_enable (disableResponse s2)) as (_ & _ & _ & _ & ->). destruct (sp_disable s2) as (_ & _ & _ & _ & ->). exact K.
      * rewrite RR. destruct (Nat.eqb_spec i j) as [->|]; [|exact X]. now elim (NE j st eq_refl).
    + apply Ok_inj in E. apply pair_equal_spec in E. destruct E as [_ <-]. unfold lost. cbn. eauto.
Qed.

Theorem lost_forever : forall i fuel l w xs w', lost i w -> Forall idle_op l -> wops fuel l w = Ok (xs, w') -> lost i w'.
Proof.
  intros i fuel. induction l as [|o l IH]; intros w xs w' H ID E; cbn [wops] in E.
  - apply Ok_inj in E. apply pair_equal_spec in E. destruct E as [_ <-]. exact H.
  - apply bind_ok in E. destruct E as ([x w1] & E1 & E). apply bind_ok in E. destruct E as ([ys w2] & E2 & E).
    apply Ok_inj in E. apply pair_equal_spec in E. destruct E as [_ <-]. apply Forall_cons_iff in ID. destruct ID as [I1 I2].
    eapply IH; [eapply lost_step|exact I2|exact E2]; eauto.
Qed.
