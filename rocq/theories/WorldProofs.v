(* Several players: lifecycle (C30), memory (C40), stopping at the end under every
   schedule (C35). *)

From Coq Require Import ZArith Lia List Bool.
From RecordUpdate Require Import RecordUpdate.
From Flocq Require Import IEEE754.BinarySingleNaN.
From Verif Require Import Machine Floats WavModel InterpModel CacheModel ReaderModel ReaderFacts ResponderModel ResponderSpec
  ResponderProofs QueueProofs PlayerModel CacheFacts CacheSpec CacheProofs CacheFinal LifeSpec UpdateProofs LifeProofs.
Import ListNotations.
Local Open Scope Z_scope.

Definition alive (kinds : nat -> rkind) (w : world) : Prop := forall i, life (kinds i) (w_rd w i).

Lemma rd_set : forall w i r j, w_rd (set_rd w i r) j = if Nat.eqb j i then r else w_rd w j.
Proof. reflexivity. Qed.
Lemma rd_same : forall w i r, w_rd (set_rd w i r) i = r.
Proof. intros. rewrite rd_set, Nat.eqb_refl. reflexivity. Qed.
Lemma rd_other : forall w i r j, j <> i -> w_rd (set_rd w i r) j = w_rd w j.
Proof. intros w i r j N. rewrite rd_set. destruct (Nat.eqb_spec j i); [contradiction|reflexivity]. Qed.
Lemma rd_sys : forall w g i, w_rd (on_sys w g) i = w_rd w i.
Proof. reflexivity. Qed.

Lemma alive_set : forall kinds w i r, alive kinds w -> life (kinds i) r -> alive kinds (set_rd w i r).
Proof. intros kinds w i r A L j. rewrite rd_set. destruct (Nat.eqb_spec j i) as [->|]; auto. Qed.

Lemma alive_sys : forall kinds w g, alive kinds w -> alive kinds (on_sys w g).
Proof. intros kinds w g A i. apply A. Qed.
Lemma alive_sys' : forall kinds w s, alive kinds w -> alive kinds (w <| w_sys := s |>).
Proof. intros kinds w s A i. apply A. Qed.

Lemma update_life : forall k fuel alloc r acts ev r', life k r -> p_update fuel alloc r = Ok (acts, ev, r') -> life k r'.
Proof.
  intros k fuel alloc r acts ev r' L E. apply update_cases in E. cbv zeta in E.
  destruct E as [(_ & _ & _ & ->)|(_ & _ & _ & _ & [(_ & _ & _ & ->)|(_ & frames & E & _)])]; auto.
  eapply life_read; eauto.
Qed.

(* w_update changes only reader i, by p_update, and the responder, by triggerEvent *)
Lemma w_update_inv : forall fuel i alloc w acts w', w_update fuel i alloc w = Ok (acts, w') ->
  exists ev r', p_update fuel alloc (w_rd w i) = Ok (acts, ev, r') /\
    (forall j, w_rd w' j = if Nat.eqb j i then r' else w_rd w j) /\
    match ev with None => w_sys w' = w_sys w | Some st => triggerEvent i st (w_sys w) = Ok (w_sys w') end.
Proof.
  intros fuel i alloc w acts w' E. unfold w_update in E. apply bind_ok in E. destruct E as ([[a ev] r'] & E1 & E).
  exists ev, r'. cbv zeta in E. destruct ev as [st|].
  - apply bind_ok in E. destruct E as (s & E2 & E). apply Ok_inj in E. apply pair_equal_spec in E. destruct E as [<- <-].
    split; [exact E1|]. split; [reflexivity|]. exact E2.
  - apply Ok_inj in E. apply pair_equal_spec in E. destruct E as [<- <-]. auto.
Qed.

Lemma w_update_alive : forall kinds fuel i alloc w acts w', alive kinds w -> w_update fuel i alloc w = Ok (acts, w') -> alive kinds w'.
Proof.
  intros kinds fuel i alloc w acts w' A E. apply w_update_inv in E. destruct E as (ev & r' & E & R & _).
  intro j. rewrite R. destruct (Nat.eqb_spec j i) as [->|]; [|apply A]. eapply update_life; eauto.
Qed.

Lemma w_updates_alive : forall kinds fuel l w acts w', alive kinds w -> w_updates fuel l w = Ok (acts, w') -> alive kinds w'.
Proof.
  intros kinds fuel. induction l as [|[i alloc] l IH]; intros w acts w' A E; cbn [w_updates] in E.
  - apply Ok_inj in E. apply pair_equal_spec in E. destruct E as [_ <-]. exact A.
  - apply bind_ok in E. destruct E as ([a w1] & E1 & E). apply bind_ok in E. destruct E as ([m w2] & E2 & E).
    apply Ok_inj in E. apply pair_equal_spec in E. destruct E as [_ <-]. eapply IH; [|exact E2]. eapply w_update_alive; eauto.
Qed.

Lemma w_stop_inv : forall fuel i mid w acts w', w_stop fuel i mid w = Ok (acts, w') ->
  exists w2, w_updates fuel mid (on_sys (on_sys w disableResponse) (clearEvent i)) = Ok (acts, w2) /\
    w' = on_sys (set_rd w2 i (r_stop (w_rd w2 i))) enableResponse.
Proof.
  intros fuel i mid w acts w' E. unfold w_stop in E. apply bind_ok in E. destruct E as ([a w2] & E1 & E).
  apply Ok_inj in E. apply pair_equal_spec in E. destruct E as [<- <-]. eauto.
Qed.

Lemma p_stop_rd : forall i w j, w_rd (p_stop i w) j = if Nat.eqb j i then r_stop (w_rd w i) else w_rd w j.
Proof. reflexivity. Qed.
Lemma p_stop_alive : forall kinds i w, alive kinds w -> alive kinds (p_stop i w).
Proof. intros kinds i w A j. rewrite p_stop_rd. destruct (Nat.eqb_spec j i) as [->|]; [apply life_stop|]; apply A. Qed.

(* A play call: reader i by the reader's function applied to the stopped reader *)
Lemma p_play_file_inv : forall i fo wv n st g w b w', p_play_file i fo wv n st g w = Ok (b, w') ->
  exists r, r_play_file (r_stop (w_rd w i)) fo wv n st g = Ok (b, r) /\
    (forall j, w_rd w' j = if Nat.eqb j i then r else w_rd w j) /\
    exists s2, (let s1 := w_sys (p_stop i (on_sys w disableResponse)) in
                if s_force s1 then attachPolled i s1 else Ok (attach i s1)) = Ok s2 /\
               w_sys w' = enableResponse (updateResponse s2).
Proof.
  intros i fo wv n st g w b w' E. unfold p_play_file in E. cbv zeta in E. apply bind_ok in E. destruct E as (s2 & E2 & E).
  apply bind_ok in E. destruct E as ([ok r] & E3 & E). apply Ok_inj in E. apply pair_equal_spec in E. destruct E as [<- <-].
  assert (R0 : forall j, w_rd (on_sys (p_stop i (on_sys w disableResponse) <| w_sys := s2 |>) updateResponse) j
     = if Nat.eqb j i then r_stop (w_rd w i) else w_rd w j) by reflexivity.
  exists r. split; [|split].
  - rewrite R0, Nat.eqb_refl in E3. exact E3.
  - intro j. rewrite rd_sys, rd_set. destruct (Nat.eqb j i) eqn:J; [reflexivity|]. rewrite R0, J. reflexivity.
  - exists s2. split; [exact E2|reflexivity].
Qed.

Lemma p_play_array_inv : forall i play w b w', p_play_array i play w = Ok (b, w') ->
  exists r, play (r_stop (w_rd w i)) = Ok (b, r) /\
    (forall j, w_rd w' j = if Nat.eqb j i then r else w_rd w j) /\ w_sys w' = w_sys (p_stop i w).
Proof.
  intros i play w b w' E. unfold p_play_array in E. cbv zeta in E. apply bind_ok in E. destruct E as ([ok r] & E3 & E).
  apply Ok_inj in E. apply pair_equal_spec in E. destruct E as [<- <-]. exists r. split; [|split].
  - rewrite p_stop_rd, Nat.eqb_refl in E3. exact E3.
  - intro j. rewrite rd_set. destruct (Nat.eqb j i) eqn:J; [reflexivity|]. rewrite p_stop_rd, J. reflexivity.
  - reflexivity.
Qed.

Lemma event_response_inv : forall fuel i st w w', event_response fuel i st w = Ok w' ->
  exists r, (if st =? evReload then r_triggerReload fuel (w_rd w i) else if st =? evClose then Ok (r_close (w_rd w i)) else Ok (w_rd w i)) = Ok r /\
    (forall j, w_rd w' j = if Nat.eqb j i then r else w_rd w j) /\ w_sys w' = enableResponse (disableResponse (w_sys w)).
Proof.
  intros fuel i st w w' E. unfold event_response in E. cbv zeta in E. apply bind_ok in E. destruct E as (r & E1 & E).
  apply Ok_inj in E. subst w'. exists r. split; [exact E1|]. split; reflexivity.
Qed.

Lemma event_life : forall k fuel (st : Z) r r', life k r ->
  (if st =? evReload then r_triggerReload fuel r else if st =? evClose then Ok (r_close r) else Ok r) = Ok r' ->
  life k r' /\ (r_playing r = false -> r_playing r' = false).
Proof.
  intros k fuel st r r' L E. destruct (st =? evReload).
  - split; [eapply life_reload; eauto|]. unfold r_triggerReload in E. destruct (r_src r); try (apply Ok_inj in E; now subst).
    apply bind_ok in E. destruct E as (f' & _ & E). apply Ok_inj in E. subst. auto.
  - destruct (st =? evClose); apply Ok_inj in E; subst; [|auto]. destruct (life_close k r L) as (A & B & _). auto.
Qed.

Lemma w_yield_inv : forall fuel w w', w_yield fuel w = Ok w' ->
  w' = w \/ exists i st, Z.testbit (s_flags (w_sys w)) 2 = true /\ fst (y_pop (w_sys w)) = Some (i, st) /\
     event_response fuel i st (w <| w_sys := snd (y_pop (w_sys w)) |>) = Ok w'.
Proof.
  intros fuel w w' E. unfold w_yield in E. destruct (Z.testbit _ 2); [|apply Ok_inj in E; auto].
  destruct (y_pop (w_sys w)) as [[[i st]|] s]; [|apply Ok_inj in E; auto]. right. exists i, st. auto.
Qed.

Lemma w_poll_inv : forall fuel w v w', w_poll fuel w = Ok (v, w') ->
  (forall i, w_rd w' i = w_rd w i) \/ exists i st s, event_response fuel i st (w <| w_sys := s |>) = Ok w'.
Proof.
  intros fuel w v w' E. unfold w_poll in E. apply bind_ok in E. destruct E as ([[v0 e] s] & _ & E).
  destruct e as [[i st]|].
  - apply bind_ok in E. destruct E as (w1 & E & E2). apply Ok_inj in E2. apply pair_equal_spec in E2. destruct E2 as [_ <-]. right. eauto.
  - apply Ok_inj in E. apply pair_equal_spec in E. destruct E as [_ <-]. left. reflexivity.
Qed.

Lemma event_alive : forall kinds fuel i st w w', alive kinds w -> event_response fuel i st w = Ok w' -> alive kinds w'.
Proof.
  intros kinds fuel i st w w' A E. apply event_response_inv in E. destruct E as (r & E & R & _).
  intro j. rewrite R. destruct (Nat.eqb_spec j i) as [->|]; [|apply A]. exact (proj1 (event_life _ _ _ _ _ (A i) E)).
Qed.

Lemma always_inv : forall A (x : res A) b a, always x = Ok (b, a) -> x = Ok a /\ b = true.
Proof.
  intros A x b a E. unfold always in E. apply bind_ok in E. destruct E as (y & -> & E). apply Ok_inj in E.
  apply pair_equal_spec in E. destruct E as [<- <-]. auto.
Qed.

(* One array play *)
Lemma array_play_alive : forall kinds i play w b w', alive kinds w -> kinds i = KArray ->
  (forall r b r', life KArray r -> play r = Ok (b, r') -> life KArray r') ->
  p_play_array i play w = Ok (b, w') -> alive kinds w'.
Proof.
  intros kinds i play w b w' A K P E. apply p_play_array_inv in E. destruct E as (r & E & R & _).
  intro j. rewrite R. destruct (Nat.eqb_spec j i) as [->|]; [|apply A]. rewrite K. eapply P; [|exact E].
  apply life_stop. rewrite <- K. apply A.
Qed.

Lemma raw_alive : forall m off len nch r b r', life KArray r -> always (playRaw_array r m off len nch) = Ok (b, r') -> life KArray r'.
Proof. intros m off len nch r b r' L E. apply always_inv in E. exact (proj1 (life_playRaw _ _ _ _ _ _ L (proj1 E))). Qed.
Lemma wav_len_raw : forall r m off len, playWav_array_len r m off len = playRaw_array r m off 0 1.
Proof. intros. unfold playWav_array_len, playRaw_array2. reflexivity. Qed.
Lemma raw_len_alive : forall m off len r b r', life KArray r -> always (playWav_array_len r m off len) = Ok (b, r') -> life KArray r'.
Proof. intros m off len r b r' L E. rewrite wav_len_raw in E. exact (raw_alive m off 0 1 r b r' L E). Qed.
Lemma wav_alive : forall m r b r', life KArray r -> playWav_array r m = Ok (b, r') -> life KArray r'.
Proof. intros m r b r' L E. exact (proj1 (life_playWav _ _ _ _ L E)). Qed.

Lemma wop_alive : forall kinds fuel o w x w', alive kinds w -> wop_ok kinds o -> wop_run fuel o w = Ok (x, w') -> alive kinds w'.
Proof.
  intros kinds fuel o w x w' A K E. unfold wop_run in E.
  destruct o as [i fo wv n st g|i m off len nch|i m off len|i m|i mid|i c|i alloc| | |b]; cbv beta iota in E; cbn [wop_ok] in K.
  - apply bind_ok in E. destruct E as ([b w1] & E & E2). apply Ok_inj in E2. apply pair_equal_spec in E2. destruct E2 as [_ <-].
    apply p_play_file_inv in E. destruct E as (r & E & R & _). intro j. rewrite R. destruct (Nat.eqb_spec j i) as [->|]; [|apply A].
    apply life_play_file with (k := kinds i) in E; [tauto|]. apply life_stop, A.
  - apply bind_ok in E. destruct E as ([b w1] & E & E2). apply Ok_inj in E2. apply pair_equal_spec in E2. destruct E2 as [_ <-].
    eapply array_play_alive; [exact A|exact K| |exact E]. exact (raw_alive m off len nch).
  - apply bind_ok in E. destruct E as ([b w1] & E & E2). apply Ok_inj in E2. apply pair_equal_spec in E2. destruct E2 as [_ <-].
    eapply array_play_alive; [exact A|exact K| |exact E]. exact (raw_len_alive m off len).
  - apply bind_ok in E. destruct E as ([b w1] & E & E2). apply Ok_inj in E2. apply pair_equal_spec in E2. destruct E2 as [_ <-].
    eapply array_play_alive; [exact A|exact K| |exact E]. exact (wav_alive m).
  - apply bind_ok in E. destruct E as ([a w1] & E & E2). apply Ok_inj in E2. apply pair_equal_spec in E2. destruct E2 as [_ <-].
    apply w_stop_inv in E. destruct E as (w2 & E & ->). apply alive_sys. apply w_updates_alive with (kinds := kinds) in E.
    + apply alive_set; [exact E|]. apply life_stop, E.
    + now do 2 apply alive_sys.
  - apply bind_ok in E. destruct E as (r & E & E2). apply Ok_inj in E2. apply pair_equal_spec in E2. destruct E2 as [_ <-].
    apply alive_set; [exact A|]. eapply life_call; [apply A|exact E].
  - apply bind_ok in E. destruct E as ([a w1] & E & E2). apply Ok_inj in E2. apply pair_equal_spec in E2. destruct E2 as [_ <-].
    eapply w_update_alive; eauto.
  - apply bind_ok in E. destruct E as (w1 & E & E2). apply Ok_inj in E2. apply pair_equal_spec in E2. destruct E2 as [_ <-].
    apply w_yield_inv in E. destruct E as [->|(i & st & _ & _ & E)]; [exact A|].
    eapply event_alive; [|exact E]. now apply alive_sys'.
  - apply bind_ok in E. destruct E as ([v w1] & E & E2). apply Ok_inj in E2. apply pair_equal_spec in E2. destruct E2 as [_ <-].
    apply w_poll_inv in E. destruct E as [E|(i & st & s & E)]; [intro i; rewrite E; apply A|].
    eapply event_alive; [|exact E]. now apply alive_sys'.
  - apply Ok_inj in E. apply pair_equal_spec in E. destruct E as [_ <-]. now apply alive_sys.
Qed.

Lemma reach_alive : forall kinds flags w, wreach kinds flags w -> alive kinds w.
Proof.
  intros kinds flags w H. induction H as [|fuel o w x w' _ IH K E].
  - intro i. apply life_new.
  - eapply wop_alive; eauto.
Qed.

(* ---- C30 ---- *)

Theorem source_exists : forall kinds flags w i, wreach kinds flags w -> r_playing (w_rd w i) = true -> r_src (w_rd w i) <> SNull.
Proof. intros kinds flags w i H. exact (li_src _ _ (reach_alive _ _ _ H i)). Qed.

Theorem no_null : forall kinds flags w i, wreach kinds flags w ->
  (forall fuel alloc, p_update fuel alloc (w_rd w i) <> UB UbNull) /\ (forall fuel, r_triggerReload fuel (w_rd w i) <> UB UbNull).
Proof.
  intros kinds flags w i H. split; intros; [apply update_nonnull|apply reload_nonnull].
  exact (li_src _ _ (reach_alive _ _ _ H i)).
Qed.

(* A stopped player does nothing *)
Lemma stopped_update : forall fuel alloc r acts ev r', r_playing r = false -> p_update fuel alloc r = Ok (acts, ev, r') ->
  acts = [] /\ ev = None /\ r' = r.
Proof.
  intros fuel alloc r acts ev r' P E. apply update_cases in E. cbv zeta in E.
  destruct E as [(_ & E)|(P2 & _)]; [exact E|congruence].
Qed.

Lemma stopped_w_update : forall fuel j alloc w acts w' i, r_playing (w_rd w i) = false -> w_update fuel j alloc w = Ok (acts, w') ->
  r_playing (w_rd w' i) = false /\ (j = i -> acts = []).
Proof.
  intros fuel j alloc w acts w' i P E. apply w_update_inv in E. destruct E as (ev & r' & E & R & _). rewrite R.
  destruct (Nat.eqb_spec i j) as [->|N]; [|split; [exact P|congruence]].
  apply stopped_update in E; [|exact P]. destruct E as (-> & _ & ->). auto.
Qed.

Lemma stopped_w_updates : forall fuel l w acts w' i, r_playing (w_rd w i) = false -> w_updates fuel l w = Ok (acts, w') ->
  r_playing (w_rd w' i) = false /\ (forall a, In (i, a) acts -> a = []).
Proof.
  intros fuel. induction l as [|[j alloc] l IH]; intros w acts w' i P E; cbn [w_updates] in E.
  - apply Ok_inj in E. apply pair_equal_spec in E. destruct E as [<- <-]. split; [exact P|intros a []].
  - apply bind_ok in E. destruct E as ([a w1] & E1 & E). apply bind_ok in E. destruct E as ([m w2] & E2 & E).
    apply Ok_inj in E. apply pair_equal_spec in E. destruct E as [<- <-].
    apply stopped_w_update with (i := i) in E1; [|exact P]. destruct E1 as [P1 A1].
    apply (IH _ _ _ i P1) in E2. destruct E2 as [P2 A2]. split; [exact P2|].
    intros a' [I|I]; [|auto]. apply pair_equal_spec in I. destruct I as [J <-]. auto.
Qed.

Lemma call_stopped : forall k fuel c r r', life k r -> r_playing r = false -> call_run fuel c r = Ok r' -> r_playing r' = false.
Proof.
  intros k fuel c r r' L P E. destruct c; cbn [call_run] in E; try (apply Ok_inj in E; subst r'); auto.
  - apply rate_same in E. destruct E as ((_ & _ & E & _) & _). destruct (r_playing r'); auto. now rewrite P in E; specialize (E eq_refl).
  - unfold setLoopType. destruct (r_src r); exact P.
  - unfold setLoopStart. destruct (r_src _); exact P.
  - unfold setLoopFinish. destruct (r_src _); exact P.
  - unfold r_triggerReload in E. destruct (r_src r); try (apply Ok_inj in E; now subst).
    apply bind_ok in E. destruct E as (f' & _ & E). apply Ok_inj in E. subst. auto.
Qed.

Lemma event_stopped : forall kinds fuel j st w w' i, alive kinds w -> r_playing (w_rd w i) = false ->
  event_response fuel j st w = Ok w' -> r_playing (w_rd w' i) = false.
Proof.
  intros kinds fuel j st w w' i A P E. apply event_response_inv in E. destruct E as (r & E & R & _). rewrite R.
  destruct (Nat.eqb_spec i j) as [->|N]; [|exact P]. exact (proj2 (event_life _ _ _ _ _ (A j) E) P).
Qed.

(* Player i stays stopped unless a play call of it succeeds, and its updates do nothing *)
Lemma stopped_step : forall kinds fuel o w x w' i, alive kinds w -> wop_ok kinds o -> r_playing (w_rd w i) = false ->
  wop_run fuel o w = Ok (x, w') -> not_started i x -> r_playing (w_rd w' i) = false /\ silent i x.
Proof.
  intros kinds fuel o w x w' i A K P E NS. unfold wop_run in E.
  destruct o as [j fo wv n st g|j m off len nch|j m off len|j m|j mid|j c|j alloc| | |b]; cbv beta iota in E; cbn [wop_ok] in K.
  - apply bind_ok in E. destruct E as ([b w1] & E & E2). apply Ok_inj in E2. apply pair_equal_spec in E2. destruct E2 as [<- <-].
    apply p_play_file_inv in E. destruct E as (r & E & R & _). split; [|exact I]. rewrite R.
    destruct (Nat.eqb_spec i j) as [->|]; [|exact P].
    destruct b; [now elim NS|]. apply life_play_file with (k := kinds j) in E; [now apply E|]. apply life_stop, A.
  - apply bind_ok in E. destruct E as ([b w1] & E & E2). apply Ok_inj in E2. apply pair_equal_spec in E2. destruct E2 as [<- <-].
    apply p_play_array_inv in E. destruct E as (r & E & R & _). split; [|exact I]. rewrite R.
    destruct (Nat.eqb_spec i j) as [->|]; [|exact P]. apply always_inv in E. destruct E as [_ ->]. now elim NS.
  - apply bind_ok in E. destruct E as ([b w1] & E & E2). apply Ok_inj in E2. apply pair_equal_spec in E2. destruct E2 as [<- <-].
    apply p_play_array_inv in E. destruct E as (r & E & R & _). split; [|exact I]. rewrite R.
    destruct (Nat.eqb_spec i j) as [->|]; [|exact P]. apply always_inv in E. destruct E as [_ ->]. now elim NS.
  - apply bind_ok in E. destruct E as ([b w1] & E & E2). apply Ok_inj in E2. apply pair_equal_spec in E2. destruct E2 as [<- <-].
    apply p_play_array_inv in E. destruct E as (r & E & R & _). split; [|exact I]. rewrite R.
    destruct (Nat.eqb_spec i j) as [->|]; [|exact P]. destruct b; [now elim NS|].
    apply life_playWav in E; [|rewrite <- K; apply life_stop, A]. destruct E as [_ E]. rewrite (E eq_refl). reflexivity.
  - apply bind_ok in E. destruct E as ([a w1] & E & E2). apply Ok_inj in E2. apply pair_equal_spec in E2. destruct E2 as [<- <-].
    apply w_stop_inv in E. destruct E as (w2 & E & ->). apply stopped_w_updates with (i := i) in E; [|exact P]. destruct E as [P2 S].
    split; [|exact S]. rewrite rd_sys, rd_set. destruct (Nat.eqb_spec i j); [reflexivity|exact P2].
  - apply bind_ok in E. destruct E as (r & E & E2). apply Ok_inj in E2. apply pair_equal_spec in E2. destruct E2 as [<- <-].
    split; [|exact I]. rewrite rd_set. destruct (Nat.eqb_spec i j) as [->|]; [|exact P]. eapply call_stopped; eauto.
  - apply bind_ok in E. destruct E as ([a w1] & E & E2). apply Ok_inj in E2. apply pair_equal_spec in E2. destruct E2 as [<- <-].
    apply stopped_w_update with (i := i) in E; [|exact P]. destruct E as [P2 S]. split; [exact P2|].
    intros a' [X|[]]. apply pair_equal_spec in X. destruct X as [X <-]. auto.
  - apply bind_ok in E. destruct E as (w1 & E & E2). apply Ok_inj in E2. apply pair_equal_spec in E2. destruct E2 as [<- <-].
    split; [|exact I]. apply w_yield_inv in E. destruct E as [->|(j & st & _ & _ & E)]; [exact P|].
    eapply event_stopped; [|  |exact E]; [apply alive_sys'; exact A|exact P].
  - apply bind_ok in E. destruct E as ([v w1] & E & E2). apply Ok_inj in E2. apply pair_equal_spec in E2. destruct E2 as [<- <-].
    split; [|exact I]. apply w_poll_inv in E. destruct E as [E|(j & st & s & E)]; [rewrite E; exact P|].
    eapply event_stopped; [|  |exact E]; [apply alive_sys'; exact A|exact P].
  - apply Ok_inj in E. apply pair_equal_spec in E. destruct E as [<- <-]. split; [exact P|exact I].
Qed.

Theorem stays_stopped : forall kinds flags fuel l w xs w' i, wreach kinds flags w -> Forall (wop_ok kinds) l ->
  r_playing (w_rd w i) = false -> wops fuel l w = Ok (xs, w') -> Forall (not_started i) xs ->
  r_playing (w_rd w' i) = false /\ Forall (silent i) xs.
Proof.
  intros kinds flags fuel l w xs w' i H. apply reach_alive in H. revert w xs w' H.
  induction l as [|o l IH]; intros w xs w' A K P E NS; cbn [wops] in E.
  - apply Ok_inj in E. apply pair_equal_spec in E. destruct E as [<- <-]. auto.
  - apply bind_ok in E. destruct E as ([x w1] & E1 & E). apply bind_ok in E. destruct E as ([ys w2] & E2 & E).
    apply Ok_inj in E. apply pair_equal_spec in E. destruct E as [<- <-].
    apply Forall_cons_iff in NS. destruct NS as [N1 N2]. apply Forall_cons_iff in K. destruct K as [K1 K2].
    destruct (stopped_step _ _ _ _ _ _ i A K1 P E1 N1) as [P1 S1].
    pose proof (wop_alive _ _ _ _ _ _ A K1 E1) as A1. destruct (IH _ _ _ A1 K2 P1 E2 N2) as [P2 S2]. auto.
Qed.

(* stop() itself *)
Theorem stop_stops : forall fuel i mid w acts w', w_stop fuel i mid w = Ok (acts, w') -> r_playing (w_rd w' i) = false.
Proof.
  intros fuel i mid w acts w' E. apply w_stop_inv in E. destruct E as (w2 & _ & ->). rewrite rd_sys, rd_same. reflexivity.
Qed.

(* ---- C40 ---- *)

Theorem close_frees : forall kinds flags w i, wreach kinds flags w -> r_live (r_close (w_rd w i)) = 0.
Proof. intros kinds flags w i H. exact (proj2 (proj2 (proj2 (life_close _ _ (reach_alive _ _ _ H i))))). Qed.

Lemma life_bound : forall k r, life k r -> 0 <= r_live r <= 3 + 2 * Z.of_nat (c_nbuf (cfg_of k)).
Proof.
  intros k r L. rewrite (li_live _ _ L). unfold name_blocks. destruct (r_src r) as [|m o|f] eqn:S; cbn [src_blocks].
  - destruct (r_fname r); lia.
  - destruct (r_fname r); lia.
  - destruct (li_open _ _ L f S) as [_ (fl & R)]. apply creach_length in R. destruct (r_fname r); lia.
Qed.

Theorem bounded_memory : forall kinds flags w i, wreach kinds flags w ->
  0 <= r_live (w_rd w i) <= 3 + 2 * Z.of_nat (c_nbuf (cfg_of (kinds i))).
Proof. intros kinds flags w i H. apply life_bound. exact (reach_alive _ _ _ H i). Qed.

(* ---- C60: a player with an open source leaks it when destroyed ---- *)

Theorem destroy_leaks : forall kinds flags w i, wreach kinds flags w ->
  (p_destroy (w_rd w i) = 0 <-> (forall f, r_src (w_rd w i) <> SFile f) /\ r_fname (w_rd w i) = false).
Proof.
  intros kinds flags w i H. unfold p_destroy. pose proof (reach_alive _ _ _ H i) as L. rewrite (li_live _ _ L). unfold name_blocks.
  destruct (r_src (w_rd w i)) as [|m o|f] eqn:S; cbn [src_blocks]; destruct (r_fname (w_rd w i)).
  - split; [lia|intros []; discriminate].
  - split; [split; [discriminate|reflexivity]|lia].
  - split; [lia|intros []; discriminate].
  - split; [split; [discriminate|reflexivity]|lia].
  - split; [lia|intros []; discriminate].
  - split; [lia|intros [X _]; now elim (X f)].
Qed.
