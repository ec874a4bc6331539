(* C85: playback from the file to the outputs, in yield mode with any other players. *)

From Coq Require Import ZArith Lia List Bool Reals.
From RecordUpdate Require Import RecordUpdate.
From Flocq Require Import Core.Core IEEE754.BinarySingleNaN.
From Verif Require Import Machine Floats FloatFacts WavModel InterpModel CacheModel ReaderModel ReaderFacts ResponderModel ResponderSpec
  ResponderProofs QueueProofs PlayerModel CacheFacts CacheSpec CacheProofs CacheFinal ReaderSpec FileSpec LifeSpec UpdateProofs LifeProofs
  WorldProofs ScheduleProofs FileProofs WavSpec WavPlayProofs FilePlay FileForward StageSpec.
Import ListNotations.
Local Open Scope Z_scope.

(* What other players do to the queue *)
Inductive qother (i : nat) : queue -> queue -> Prop :=
| qo_same : forall q, qother i q q
| qo_trigger : forall q j st q', qother i (q_trigger q j st) q' -> j <> i -> qother i q q'
| qo_remove : forall q j q', qother i (q_remove q j) q' -> j <> i -> qother i q q'.

(* The event (i,st) is among the first k *)
Definition waits (i : nat) (st : Z) (q : queue) (k : nat) : Prop := exists p r, q = p ++ (i, st) :: r /\ (length p < k)%nat.

Lemma waits_trigger : forall i st q k j s, waits i st q k -> j <> i -> waits i st (q_trigger q j s) k.
Proof.
  intros i st q k j s (p & r & -> & L) C. unfold q_trigger. destruct (pending _ j).
  - rewrite map_app. cbn [map fst]. set (g := fun e : nat * Z => if Nat.eqb (fst e) j then (j, s) else e).
    exists (map g p), (map g r). split; [|now rewrite map_length].
    destruct (Nat.eqb_spec i j) as [->|]; [contradiction|reflexivity].
  - exists p, (r ++ [(j, s)]). split; [now rewrite <- app_assoc|exact L].
Qed.
Lemma waits_remove : forall i st q k j, waits i st q k -> j <> i -> waits i st (q_remove q j) k.
Proof.
  intros i st q k j (p & r & -> & L) N. unfold q_remove. rewrite filter_app. cbn [filter fst].
  destruct (Nat.eqb_spec i j) as [->|]; [contradiction|]. cbn [negb].
  exists (filter (fun e => negb (Nat.eqb (fst e) j)) p), (filter (fun e => negb (Nat.eqb (fst e) j)) r). split; [reflexivity|].
  pose proof (filter_length (fun e => negb (Nat.eqb (fst e) j)) p). lia.
Qed.
Lemma waits_other : forall i q q' st k, qother i q q' -> waits i st q k -> waits i st q' k.
Proof. intros i q q' st k H. induction H; intro C; auto using waits_trigger, waits_remove. Qed.

Lemma pending_remove : forall q i j, j <> i -> pending (q_remove q j) i = pending q i.
Proof.
  intros q i j N. unfold pending, q_remove. induction q as [|e q IH]; [reflexivity|]. cbn [filter existsb].
  destruct (Nat.eqb_spec (fst e) j) as [E|]; cbn [negb].
  - rewrite IH. destruct (Nat.eqb_spec (fst e) i); [congruence|reflexivity].
  - cbn [existsb]. now rewrite IH.
Qed.
Lemma pending_other : forall i q q', qother i q q' -> pending q' i = pending q i.
Proof.
  intros i q q' H. induction H; [reflexivity| |].
  - rewrite IHqother, pending_trigger. destruct (Nat.eqb_spec i j); [congruence|apply orb_false_r].
  - now rewrite IHqother, pending_remove.
Qed.

(* Updates of other players *)
Lemma others_update : forall fuel i l w a q d v acts w', ystate w a q d v -> w_updates fuel l w = Ok (acts, w') ->
  (forall e, In e l -> fst e <> i) ->
  exists q', ystate w' a q' d v /\ (forall j, r_playing (w_rd w' j) = r_playing (w_rd w j)) /\ w_rd w' i = w_rd w i /\ qother i q q' /\
    heard1 i (WoActs acts) = [].
Proof.
  intros fuel i. induction l as [|[j alloc] l IH]; intros w a q d v acts w' Y E NI; cbn [w_updates] in E.
  - apply Ok_inj in E. apply pair_equal_spec in E. destruct E as [<- <-]. exists q. split; [exact Y|]. split; [auto|]. split; [auto|]. split; [constructor|auto].
  - apply bind_ok in E. destruct E as ([b w1] & E1 & E). apply bind_ok in E. destruct E as ([m w2] & E2 & E).
    apply Ok_inj in E. apply pair_equal_spec in E. destruct E as [<- <-].
    destruct (ys_update _ _ _ _ _ _ _ _ _ _ Y E1) as (ev & r' & U & R & Y1).
    destruct (IH _ _ _ _ _ _ _ Y1 E2) as (q' & Y2 & P2 & R2 & Q2 & H2); [intros e I; apply NI; now right|].
    assert (NJ : j <> i) by (exact (NI (j, alloc) (or_introl eq_refl))).
    exists q'. split; [exact Y2|]. split; [|split; [|split]].
    + intro k. rewrite P2, R. destruct (Nat.eqb_spec k j) as [->|]; [|reflexivity]. eapply update_no_new; eauto.
    + rewrite R2, R. destruct (Nat.eqb_spec i j); [congruence|reflexivity].
    + destruct ev as [st|]; [|exact Q2]. destruct (a j); [|exact Q2]. eapply qo_trigger; eauto.
    + cbn [heard1 flat_map fst]. destruct (Nat.eqb_spec j i); [contradiction|]. exact H2.
Qed.

(* One operation that does not concern player i *)
Definition response (fuel : nat) (st : Z) (r : reader) : res reader :=
  if st =? evReload then r_triggerReload fuel r else if st =? evClose then Ok (r_close r) else Ok r.

Lemma quiet_step : forall kinds N i fuel o w a q v x w', ymode kinds (fun j => (j < N)%nat) w a q v -> wop_ok kinds o -> quiet N i o ->
  a i = true -> wop_run fuel o w = Ok (x, w') ->
  exists a' q' v', ymode kinds (fun j => (j < N)%nat) w' a' q' v' /\ a' i = true /\ heard1 i x = [] /\
    ((w_rd w' i = w_rd w i /\ (qother i q q' /\ (is_yield o = true -> q = []) \/
       (exists e, q = e :: q' /\ fst e <> i) /\ is_yield o = true)) \/
     is_yield o = true /\ exists st, q = (i, st) :: q' /\ response fuel st (w_rd w i) = Ok (w_rd w' i)).
Proof.
  intros kinds N i fuel o w a q v x w' YM K Q AI E. pose proof YM as [HA HS HT HP].
  pose proof (wop_alive _ _ _ _ _ _ HA K E) as HA'. unfold wop_run in E.
  destruct o as [j fo wv n st g|j m off len nch|j m off len|j m|j mid|j c|j alloc| | |b]; try contradiction;
    cbv beta iota in E; cbn [wop_ok] in K; cbn [quiet] in Q; cbn [is_yield].
  - destruct Q as [NJ JN]. apply bind_ok in E. destruct E as ([b w1] & E & E2). apply Ok_inj in E2. apply pair_equal_spec in E2. destruct E2 as [<- <-].
    apply p_play_file_inv in E. destruct E as (r & E & R & s2 & A & S).
    pose proof (ys_disable _ _ _ _ _ HS ltac:(lia)) as Y1. pose proof (ys_stop _ _ _ _ _ j Y1 ltac:(lia)) as Y2.
    destruct (proj2 Y2) as (FO & _). cbv zeta in A. rewrite FO in A. apply Ok_inj in A. subst s2.
    pose proof (ys_attach _ _ _ _ _ j Y2 ltac:(lia)) as Y3. pose proof (ys_enable _ _ _ 0 _ Y3 ltac:(lia)) as Y4.
    exists (att_set a j true), (q_remove (q_remove q j) j), (Z.lor v EVR). split; [|split; [|split; [reflexivity|]]].
    + constructor; [exact HA'|eapply ys_rd; [exact Y4|exact S]| |].
      * intros k AK. unfold att_set in AK. split.
        -- destruct (Nat.eqb_spec k j) as [EQ|NE]; [now rewrite EQ|]. now apply HT.
        -- rewrite Z.lor_spec. apply orb_true_r.
      * intros k KJ PJ. unfold att_set. rewrite R in PJ. destruct (Nat.eqb k j); auto.
    + unfold att_set. destruct (Nat.eqb i j); auto.
    + left. rewrite R. destruct (Nat.eqb_spec i j); [congruence|]. split; [reflexivity|]. left. split; [|discriminate].
      eapply qo_remove; [eapply qo_remove; [constructor|]|]; auto.
  - apply bind_ok in E. destruct E as ([b w1] & E & E2). apply Ok_inj in E2. apply pair_equal_spec in E2. destruct E2 as [<- <-].
    apply p_play_array_inv in E. destruct E as (r & E & R & S). exists a, (q_remove q j), v. split; [|split; [exact AI|split; [reflexivity|]]].
    + constructor; [exact HA'|eapply ys_rd; [apply (ys_stop _ _ _ _ _ j HS); lia|exact S]|exact HT|].
      intros k KJ PJ. rewrite R in PJ. destruct (Nat.eqb_spec k j) as [->|]; [contradiction|auto].
    + left. rewrite R. destruct (Nat.eqb_spec i j); [congruence|]. split; [reflexivity|]. left. split; [|discriminate].
      eapply qo_remove; [constructor|auto].
  - apply bind_ok in E. destruct E as ([b w1] & E & E2). apply Ok_inj in E2. apply pair_equal_spec in E2. destruct E2 as [<- <-].
    apply p_play_array_inv in E. destruct E as (r & E & R & S). exists a, (q_remove q j), v. split; [|split; [exact AI|split; [reflexivity|]]].
    + constructor; [exact HA'|eapply ys_rd; [apply (ys_stop _ _ _ _ _ j HS); lia|exact S]|exact HT|].
      intros k KJ PJ. rewrite R in PJ. destruct (Nat.eqb_spec k j) as [->|]; [contradiction|auto].
    + left. rewrite R. destruct (Nat.eqb_spec i j); [congruence|]. split; [reflexivity|]. left. split; [|discriminate].
      eapply qo_remove; [constructor|auto].
  - apply bind_ok in E. destruct E as ([b w1] & E & E2). apply Ok_inj in E2. apply pair_equal_spec in E2. destruct E2 as [<- <-].
    apply p_play_array_inv in E. destruct E as (r & E & R & S). exists a, (q_remove q j), v. split; [|split; [exact AI|split; [reflexivity|]]].
    + constructor; [exact HA'|eapply ys_rd; [apply (ys_stop _ _ _ _ _ j HS); lia|exact S]|exact HT|].
      intros k KJ PJ. rewrite R in PJ. destruct (Nat.eqb_spec k j) as [->|]; [contradiction|auto].
    + left. rewrite R. destruct (Nat.eqb_spec i j); [congruence|]. split; [reflexivity|]. left. split; [|discriminate].
      eapply qo_remove; [constructor|auto].
  - destruct Q as [NJ NM]. apply bind_ok in E. destruct E as ([b w1] & E & E2). apply Ok_inj in E2. apply pair_equal_spec in E2. destruct E2 as [<- <-].
    apply w_stop_inv in E. destruct E as (w2 & E & ->).
    pose proof (ys_disable _ _ _ _ _ HS ltac:(lia)) as Y1. pose proof (ys_clear _ _ _ _ _ j Y1) as Y2.
    destruct (others_update _ i _ _ _ _ _ _ _ _ Y2 E NM) as (q' & Y3 & P3 & R3 & Q3 & H3). exists a, q', v.
    split; [|split; [exact AI|split; [exact H3|]]].
    + constructor; [exact HA'| |exact HT|].
      * apply ys_enable; [|lia]. eapply ys_rd; [exact Y3|reflexivity].
      * intros k KJ PJ. rewrite rd_sys, rd_set in PJ. destruct (Nat.eqb k j); [discriminate|]. rewrite P3 in PJ. auto.
    + left. rewrite rd_sys, rd_set. destruct (Nat.eqb_spec i j); [congruence|]. split; [exact R3|]. left. split; [|discriminate].
      eapply qo_remove; [exact Q3|exact NJ].
  - apply bind_ok in E. destruct E as (r & E & E2). apply Ok_inj in E2. apply pair_equal_spec in E2. destruct E2 as [<- <-].
    exists a, q, v. split; [|split; [exact AI|split; [reflexivity|]]].
    + constructor; [exact HA'|eapply ys_rd; [exact HS|reflexivity]|exact HT|].
      intros k KJ PJ. rewrite rd_set in PJ. destruct (Nat.eqb_spec k j) as [->|]; [|auto]. apply HP; [exact KJ|].
      destruct (r_playing (w_rd w j)) eqn:P; [reflexivity|]. rewrite (call_stopped _ _ _ _ _ (HA j) P E) in PJ. discriminate.
    + left. rewrite rd_set. destruct (Nat.eqb_spec i j); [congruence|]. split; [reflexivity|]. left. split; [constructor|discriminate].
  - apply bind_ok in E. destruct E as ([b w1] & E & E2). apply Ok_inj in E2. apply pair_equal_spec in E2. destruct E2 as [<- <-].
    assert (E1 : w_updates fuel [(j, alloc)] w = Ok ([(j, b)], w1)) by (cbn [w_updates]; rewrite E; reflexivity).
    destruct (others_update _ i _ _ _ _ _ _ _ _ HS E1) as (q' & Y3 & P3 & R3 & Q3 & H3); [intros e [<-|[]]; exact Q|]. exists a, q', v.
    split; [|split; [exact AI|split; [exact H3|]]].
    + constructor; [exact HA'|exact Y3|exact HT|]. intros k KJ PJ. rewrite P3 in PJ. auto.
    + left. split; [exact R3|]. left. split; [exact Q3|discriminate].
  - apply bind_ok in E. destruct E as (w1 & E & E2). apply Ok_inj in E2. apply pair_equal_spec in E2. destruct E2 as [<- <-].
    destruct (HT i AI) as [_ BIT].
    destruct (ys_yield _ _ _ _ _ _ HS E) as [[B _]|[[-> ->]|(j & st & q' & -> & Y1 & w2 & EV & R)]]; [congruence| |].
    + exists a, [], v. split; [exact YM|]. split; [exact AI|]. split; [reflexivity|]. left. split; [reflexivity|]. left. split; [constructor|auto].
    + exists a, q', v. split; [|split; [exact AI|split; [reflexivity|]]].
      * constructor; [exact HA'|exact Y1|exact HT|]. intros k' KJ PJ. apply HP; [exact KJ|]. rewrite <- R. exact (event_no_new _ _ _ _ _ EV k' PJ).
      * apply event_response_inv in EV. destruct EV as (r & EV & RR & _). rewrite (RR i), ?R.
        destruct (Nat.eqb_spec i j) as [<-|NE].
        -- right. split; [reflexivity|]. exists st. split; [reflexivity|]. rewrite R in EV. exact EV.
        -- left. split; [reflexivity|]. right. split; [|reflexivity]. exists (j, st). split; [reflexivity|cbn; auto].
Qed.

(* Player i attached, with reader r and no event pending *)
Definition idle (kinds : nat -> rkind) (N i : nat) (r : reader) (w : world) : Prop :=
  exists a q v, ymode kinds (fun j => (j < N)%nat) w a q v /\ a i = true /\ w_rd w i = r /\ pending q i = false.
(* ... with event st among the first k *)
Definition due (kinds : nat -> rkind) (N i : nat) (st : Z) (k : nat) (r : reader) (w : world) : Prop :=
  exists a q v, ymode kinds (fun j => (j < N)%nat) w a q v /\ a i = true /\ w_rd w i = r /\ waits i st q k.

Lemma idle_step : forall kinds N i fuel o r w x w', idle kinds N i r w -> wop_ok kinds o -> quiet N i o -> wop_run fuel o w = Ok (x, w') ->
  idle kinds N i r w' /\ heard1 i x = [].
Proof.
  intros kinds N i fuel o r w x w' (a & q & v & YM & AI & R & NP) K Q E.
  destruct (quiet_step _ _ _ _ _ _ _ _ _ _ _ YM K Q AI E) as (a' & q' & v' & YM' & AI' & H & C). split; [|exact H].
  exists a', q', v'. split; [exact YM'|]. split; [exact AI'|]. destruct C as [[R' C]|(_ & st & -> & _)].
  - split; [congruence|]. destruct C as [[C _]|[(e & -> & NE) _]].
    + now rewrite (pending_other _ _ _ C).
    + cbn in NP. apply orb_false_elim in NP. apply NP.
  - cbn in NP. rewrite Nat.eqb_refl in NP. discriminate.
Qed.

Lemma idle_wops : forall kinds N i fuel l r w xs w', idle kinds N i r w -> Forall (wop_ok kinds) l -> Forall (quiet N i) l ->
  wops fuel l w = Ok (xs, w') -> idle kinds N i r w' /\ heard i xs = [].
Proof.
  intros kinds N i fuel. induction l as [|o l IH]; intros r w xs w' H K Q E; cbn [wops] in E.
  - apply Ok_inj in E. apply pair_equal_spec in E. destruct E as [<- <-]. auto.
  - apply bind_ok in E. destruct E as ([x w1] & E1 & E). apply bind_ok in E. destruct E as ([ys w2] & E2 & E).
    apply Ok_inj in E. apply pair_equal_spec in E. destruct E as [<- <-].
    apply Forall_cons_iff in K, Q. destruct K as [K1 K2], Q as [Q1 Q2].
    destruct (idle_step _ _ _ _ _ _ _ _ _ H K1 Q1 E1) as [H1 S1]. destruct (IH _ _ _ _ H1 K2 Q2 E2) as [H2 S2].
    split; [exact H2|]. unfold heard in *. cbn [flat_map]. now rewrite S1, S2.
Qed.

(* Once only: the queue holds a player at most once *)
Lemma served : forall s a q i st q', yinv s (a, q) -> q = (i, st) :: q' -> pending q' i = false.
Proof.
  intros s a q i st q' Y ->. apply pending_out. pose proof (yi_nodup _ _ Y) as ND. cbn in ND. inversion ND; auto.
Qed.

Lemma due_wops : forall kinds N i fuel st l k r w xs w', due kinds N i st k r w -> Forall (wop_ok kinds) l -> Forall (quiet N i) l ->
  wops fuel l w = Ok (xs, w') -> (k <= yields l)%nat ->
  exists r', response fuel st r = Ok r' /\ idle kinds N i r' w' /\ heard i xs = [].
Proof.
  intros kinds N i fuel st. induction l as [|o l IH]; intros k r w xs w' (a & q & v & YM & AI & R & p & t & -> & L) K Q E Y; cbn [wops] in E.
  - cbn in Y. lia.
  - apply bind_ok in E. destruct E as ([x w1] & E1 & E). apply bind_ok in E. destruct E as ([ys w2] & E2 & E).
    apply Ok_inj in E. apply pair_equal_spec in E. destruct E as [<- <-].
    apply Forall_cons_iff in K, Q. destruct K as [K1 K2], Q as [Q1 Q2].
    destruct (quiet_step _ _ _ _ _ _ _ _ _ _ _ YM K1 Q1 AI E1) as (a' & q' & v' & YM' & AI' & H & C).
    unfold yields in Y. cbn [filter] in Y. fold (yields l) in Y.
    destruct C as [[R' [[C NY]|[(e & EQ & NE) IY]]]|(IY & st' & EQ & RS)].
    + assert (IY : is_yield o = false) by (destruct (is_yield o); [specialize (NY eq_refl); destruct p; discriminate|reflexivity]).
      rewrite IY in Y. destruct (IH k r w1 ys w2) as (r' & A & B & D); auto.
      * exists a', q', v'. split; [exact YM'|]. split; [exact AI'|]. split; [congruence|].
        eapply waits_other; [exact C|]. exists p, t. auto.
      * exists r'. split; [exact A|]. split; [exact B|]. unfold heard in *. cbn [flat_map]. now rewrite H, D.
    + rewrite IY in Y. cbn [length] in Y. fold (yields l) in Y.
      destruct p as [|e' p]; [injection EQ as <- _; cbn in NE; congruence|]. injection EQ as _ <-. cbn [length] in L.
      destruct (IH (Nat.pred k) r w1 ys w2) as (r' & A & B & D); auto; [|lia|].
      * exists a', (p ++ (i, st) :: t), v'. split; [exact YM'|]. split; [exact AI'|]. split; [congruence|]. exists p, t. split; [reflexivity|lia].
      * exists r'. split; [exact A|]. split; [exact B|]. unfold heard in *. cbn [flat_map]. now rewrite H, D.
    + pose proof (served _ _ _ _ _ _ (proj1 (ym_state _ _ _ _ _ _ YM)) EQ) as NP.
      assert (st' = st /\ q' = p ++ t \/ True) as _ by auto.
      assert (ST : st' = st).
      { destruct p as [|e' p]; [now injection EQ as <- _|]. injection EQ as _ EQ. rewrite <- EQ in NP.
        apply pending_out in NP. exfalso. apply NP. rewrite map_app. apply in_or_app. right. now left. }
      subst st'. rewrite R in RS. exists (w_rd w1 i). split; [exact RS|].
      assert (ID : idle kinds N i (w_rd w1 i) w1) by (exists a', q', v'; auto).
      destruct (idle_wops _ _ _ _ _ _ _ _ _ ID K2 Q2 E2) as [ID2 H2]. split; [exact ID2|].
      unfold heard in *. cbn [flat_map]. now rewrite H, H2.
Qed.

(* An update of player i *)
Lemma idle_update : forall kinds N i fuel alloc r w acts w', (i < N)%nat -> idle kinds N i r w -> w_update fuel i alloc w = Ok (acts, w') ->
  exists ev r', p_update fuel alloc r = Ok (acts, ev, r') /\
    match ev with None => idle kinds N i r' w' | Some st => due kinds N i st N r' w' end.
Proof.
  intros kinds N i fuel alloc r w acts w' IN (a & q & v & [HA HS HT HP] & AI & R & NP) U.
  destruct (ys_update _ _ _ _ _ _ _ _ _ _ HS U) as (ev & r' & P & RR & Y1). rewrite R in P. exists ev, r'. split; [exact P|].
  assert (A' : alive kinds w') by (eapply w_update_alive; eauto).
  assert (HP' : forall j, kinds j <> KArray -> r_playing (w_rd w' j) = true -> a j = true).
  { intros j KJ PJ. rewrite RR in PJ. destruct (Nat.eqb_spec j i) as [->|]; auto. }
  rewrite AI in Y1. destruct ev as [st|].
  - assert (QB : (length (q_trigger q i st) <= N)%nat) by (eapply queue_bound; [exact (proj1 Y1)|intros j J; now apply HT]).
    exists a, (q_trigger q i st), v. split; [now constructor|]. split; [exact AI|]. split; [now rewrite RR, Nat.eqb_refl|].
    unfold q_trigger in *. rewrite NP in *. exists q, []. split; [reflexivity|]. rewrite app_length in QB. cbn in QB. lia.
  - exists a, q, v. split; [now constructor|]. split; [exact AI|]. split; [now rewrite RR, Nat.eqb_refl|exact NP].
Qed.

(* ---- the reader's side ---- *)

(* After k frames of the stream; every session goes on from there *)
Definition playing_at (out : stream) (k : nat) (r : reader) : Prop :=
  forall ns, Forall (fun n => (n <= 128)%nat) ns -> exists fuel r', serviced fuel r ns = Ok (blocks_spec out k ns, r').

Lemma read_same : forall f1 f2 r n x y, r_read f1 r n = Ok x -> r_read f2 r n = Ok y -> x = y.
Proof.
  intros f1 f2 r n x y H1 H2. apply (r_read_fuel f1 (f1 + f2)) in H1; [|lia]. apply (r_read_fuel f2 (f1 + f2)) in H2; [|lia]. congruence.
Qed.
Lemma reload_same : forall f1 f2 r x y, r_triggerReload f1 r = Ok x -> r_triggerReload f2 r = Ok y -> x = y.
Proof.
  intros f1 f2 r x y H1 H2. apply (r_reload_fuel cfg_sd f1 (f1 + f2)) in H1; [|lia]. apply (r_reload_fuel cfg_sd f2 (f1 + f2)) in H2; [|lia]. congruence.
Qed.

Lemma playing_read : forall out k r fuel frames r1, playing_at out k r -> r_read fuel r 128 = Ok (frames, r1) -> frames = pulls out k 128.
Proof.
  intros out k r fuel frames r1 H E. destruct (H [128%nat]) as (f & r' & S); [repeat constructor|].
  cbn [serviced] in S. apply bind_ok in S. destruct S as ([b q1] & S1 & S). apply bind_ok in S. destruct S as (q2 & S2 & S).
  apply bind_ok in S. destruct S as ([bs q3] & S3 & S). apply Ok_inj in S. apply pair_equal_spec in S. destruct S as [S _].
  pose proof (read_same _ _ _ _ _ _ E S1) as Q. apply pair_equal_spec in Q. destruct Q as [-> _].
  cbn [blocks_spec] in S. congruence.
Qed.

Lemma playing_on : forall out k r fuel frames r1 fuel' r2, playing_at out k r -> r_read fuel r 128 = Ok (frames, r1) ->
  r_triggerReload fuel' r1 = Ok r2 -> playing_at out (k + length frames) r2.
Proof.
  intros out k r fuel frames r1 fuel' r2 H E T ns FN. destruct (H (128%nat :: ns)) as (f & r' & S); [now constructor|].
  cbn [serviced] in S. apply bind_ok in S. destruct S as ([b q1] & S1 & S). apply bind_ok in S. destruct S as (q2 & S2 & S).
  apply bind_ok in S. destruct S as ([bs q3] & S3 & S). apply Ok_inj in S. apply pair_equal_spec in S. destruct S as [S <-].
  pose proof (read_same _ _ _ _ _ _ E S1) as Q. apply pair_equal_spec in Q. destruct Q as [<- <-].
  pose proof (reload_same _ _ _ _ _ T S2) as Q. subst q2. cbn [blocks_spec] in S. injection S as S S'.
  exists f, q3. rewrite S3. rewrite S', S. reflexivity.
Qed.

(* ---- what an update sends ---- *)

Lemma map_seq_nth : forall (f : nat -> Z) n k, (k < n)%nat -> nth k (map f (seq 0 n)) 0 = f k.
Proof.
  intros f n k K. rewrite (nth_indep (map f (seq 0 n)) 0 (f 0%nat)) by (now rewrite map_length, seq_length).
  now rewrite map_nth, seq_nth by exact K.
Qed.
Lemma block_padded : forall frames c, (length frames <= 128)%nat -> block_data frames c = padded frames c.
Proof.
  intros frames c L. apply (nth_ext _ _ 0 0).
  - rewrite block_length by (unfold ABS; lia). unfold padded. now rewrite map_length, seq_length.
  - intros k K. rewrite block_length in K by (unfold ABS; lia). rewrite block_nth. unfold padded.
    now rewrite map_seq_nth by exact K.
Qed.

Lemma sent_padded : forall bs frames ch, (length frames <= 128)%nat ->
  map (fun t : nat * list Z * Z => (snd t, snd (fst t))) (sent_from bs frames ch) =
  map (fun c => (Z.of_nat c, padded frames c)) (seq ch (length bs)).
Proof.
  induction bs as [|b bs IH]; intros frames ch L; [reflexivity|]. cbn [sent_from map length seq fst snd].
  now rewrite block_padded, IH.
Qed.

Lemma gets_alloc : forall nch alloc, gets nch (alloc, []) = true <-> forall c, 0 <= c < Z.of_nat nch -> alloc (Z.to_nat c) <> None.
Proof.
  intros nch alloc. unfold gets. cbn [fst]. rewrite forallb_forall. split.
  - intros H c C. specialize (H (Z.to_nat c) ltac:(apply in_seq; lia)). now destruct (alloc (Z.to_nat c)).
  - intros H c C. apply in_seq in C. specialize (H (Z.of_nat c) ltac:(lia)). rewrite Nat2Z.id in H. now destruct (alloc c).
Qed.

Lemma player_update : forall fuel alloc r acts ev r' nch, p_update fuel alloc r = Ok (acts, ev, r') -> r_playing r = true ->
  r_nch r = Z.of_nat nch -> (1 <= nch)%nat ->
  if gets nch (alloc, []) then
    exists frames, r_read fuel r 128 = Ok (frames, r') /\ (length frames <= 128)%nat /\
      map (fun t => (snd t, snd (fst t))) (sent acts) = sends nch frames /\
      ev = Some (if Nat.eqb (length frames) 128 then evReload else evClose)
  else sent acts = [] /\ ev = None /\ r' = r.
Proof.
  intros fuel alloc r acts ev r' nch E P NC N1. apply update_cases in E. cbv zeta in E.
  destruct E as [([C|C] & _)|(_ & _ & _ & _ & [(C & S & EV & R)|(A & frames & E & S & L & EV)])]; [congruence|lia| |].
  - destruct C as (c & CB & CN). destruct (gets nch (alloc, [])) eqn:G; [|auto]. rewrite NC in CB.
    exfalso. exact (proj1 (gets_alloc _ _) G c CB CN).
  - rewrite NC in A. rewrite (proj2 (gets_alloc nch alloc) A). change ABS with 128 in *. exists frames.
    pose proof (read_len _ _ 128 _ _ ltac:(lia) E) as LL. assert (L128 : (length frames <= 128)%nat) by lia.
    split; [exact E|]. split; [exact L128|]. split.
    + rewrite S, map_app, sent_padded, L, NC, Nat2Z.id by exact L128. unfold sends.
      destruct (Nat.eqb_spec nch 1) as [->|NE].
      * change (Z.of_nat 1 =? 1) with true. cbv iota. rewrite NC in L. change (Z.to_nat (Z.of_nat 1)) with 1%nat in L.
        destruct (somes (map alloc (seq 0 1))) as [|b [|]]; try discriminate.
        cbn [map app fst snd seq Z.of_nat]. now rewrite block_padded by exact L128.
      * destruct (Z.eqb_spec (Z.of_nat nch) 1); [lia|]. apply app_nil_r.
    + rewrite EV. f_equal. destruct (Nat.eqb_spec (length frames) 128), (Z.eqb_spec (Z.of_nat (length frames)) 128); auto; lia.
Qed.

Lemma wops_app : forall fuel a b w xs w', wops fuel (a ++ b) w = Ok (xs, w') ->
  exists x1 w1 x2, wops fuel a w = Ok (x1, w1) /\ wops fuel b w1 = Ok (x2, w') /\ xs = x1 ++ x2.
Proof.
  intros fuel. induction a as [|o a IH]; intros b w xs w' E.
  - exists [], w, xs. auto.
  - cbn [app wops] in *. apply bind_ok in E. destruct E as ([x w1] & E1 & E). apply bind_ok in E. destruct E as ([ys w2] & E2 & E).
    apply Ok_inj in E. apply pair_equal_spec in E. destruct E as [<- <-].
    destruct (IH _ _ _ _ E2) as (x1 & w3 & x2 & A & B & ->). exists (x :: x1), w3, x2. rewrite E1. cbn [bind]. rewrite A. auto.
Qed.

Lemma gets_round : forall nch (r : round), gets nch r = gets nch (fst r, []).
Proof. reflexivity. Qed.

(* Once stopped *)
Lemma stopped_rounds : forall kinds N i fuel l r w xs w', (i < N)%nat -> idle kinds N i r w -> r_playing r = false ->
  Forall (round_ok kinds N i) l -> wops fuel (rounds_ops i l) w = Ok (xs, w') ->
  heard i xs = map (fun _ => []) l /\ idle kinds N i r w'.
Proof.
  intros kinds N i fuel. induction l as [|[alloc ops] l IH]; intros r w xs w' IN ID P RO E.
  - cbn in E. apply Ok_inj in E. apply pair_equal_spec in E. destruct E as [<- <-]. split; [reflexivity|exact ID].
  - apply Forall_cons_iff in RO. destruct RO as [(K & Q & _) RO]. cbn [snd] in *.
    unfold rounds_ops in E. cbn [flat_map fst snd] in E. cbn [app wops] in E.
    apply bind_ok in E. destruct E as ([x w1] & E1 & E). apply bind_ok in E. destruct E as ([ys w2] & E2 & E).
    apply Ok_inj in E. apply pair_equal_spec in E. destruct E as [<- <-].
    apply wops_app in E2. destruct E2 as (y1 & w3 & y2 & E2 & E3 & ->).
    cbn [wop_run] in E1. apply bind_ok in E1. destruct E1 as ([acts w1'] & U & E1). apply Ok_inj in E1. apply pair_equal_spec in E1.
    destruct E1 as [<- ->]. destruct (idle_update _ _ _ _ _ _ _ _ _ IN ID U) as (ev & r' & PU & D).
    apply stopped_update in PU; [|exact P]. destruct PU as (-> & -> & ->).
    destruct (idle_wops _ _ _ _ _ _ _ _ _ D K Q E2) as [ID3 H3].
    destruct (IH _ _ _ _ IN ID3 P RO E3) as [H4 P4]. split; [|exact P4].
    unfold heard in *. cbn [flat_map heard1 fst snd map sent]. rewrite flat_map_app, H3, H4, Nat.eqb_refl. reflexivity.
Qed.

Lemma reload_nch : forall fuel r r', r_triggerReload fuel r = Ok r' -> r_nch r' = r_nch r /\ r_playing r' = r_playing r.
Proof.
  intros fuel r r' E. unfold r_triggerReload in E. destruct (r_src r); try (apply Ok_inj in E; now subst).
  apply bind_ok in E. destruct E as (f2 & _ & E). apply Ok_inj in E. now subst.
Qed.
Lemma close_stops : forall r, r_playing (r_close r) = false.
Proof. intro r. unfold r_close. now destruct (r_kind r). Qed.

(* The next update of a player that has stopped, or goes on with the stream *)
Definition sound (kinds : nat -> rkind) (N i : nat) (r : reader) (w : world) : Prop :=
  idle kinds N i r w /\ (r_playing r = false /\ (r_nch r = -1 \/ 0 <= r_nch r) \/ r_playing r = true /\ 0 <= r_nch r /\ exists fuel x, r_read fuel r 128 = Ok x).
Lemma next_update : forall kinds N i r w, sound kinds N i r w -> forall alloc, exists fuel x, w_update fuel i alloc w = Ok x.
Proof.
  intros kinds N i r w ((a & q & v & [HA HS HT HP] & AI & R & NP) & D) alloc.
  assert (P : exists fuel acts ev r', p_update fuel alloc (w_rd w i) = Ok (acts, ev, r')).
  { rewrite R. unfold p_update. destruct (Z.eqb_spec (r_nch r) (-1)) as [|NE]; [exists 0%nat; eauto|].
    destruct (Z.ltb_spec (r_nch r) 0) as [LT|GE]; [lia|].
    destruct (r_playing r) eqn:PL; cbn [negb]; [|exists 0%nat; eauto].
    destruct (forallb got _); [|exists 0%nat; eauto]. destruct D as [[? _]|(_ & _ & fuel & [fr r'] & E)]; [discriminate|].
    exists fuel. change ABS with 128. rewrite E. cbn [bind]. eauto. }
  destruct P as (fuel & acts & ev & r' & P). exists fuel. unfold w_update. rewrite P. cbn [bind].
  destruct ev as [st|]; [|eauto]. destruct HS as [Y _]. destruct (y_trigger_inv _ _ _ i st Y) as (s' & T & _).
  change (w_sys (set_rd w i r')) with (w_sys w). rewrite T. cbn [bind]. eauto.
Qed.

Lemma playing_next : forall out k r, playing_at out k r -> exists fuel x, r_read fuel r 128 = Ok x.
Proof.
  intros out k r H. destruct (H [128%nat]) as (f & r' & S); [repeat constructor|].
  cbn [serviced] in S. apply bind_ok in S. destruct S as (x & S1 & _). eauto.
Qed.
Lemma close_nch : forall r, r_nch (r_close r) = r_nch r.
Proof. intro r. unfold r_close. now destruct (r_kind r). Qed.

Theorem rounds_play : forall kinds N i fuel out nch l k r w xs w', (i < N)%nat -> idle kinds N i r w -> r_playing r = true ->
  r_nch r = Z.of_nat nch -> (1 <= nch)%nat -> playing_at out k r -> Forall (round_ok kinds N i) l ->
  wops fuel (rounds_ops i l) w = Ok (xs, w') ->
  heard i xs = transmissions out nch k (map (gets nch) l) /\
  exists r', sound kinds N i r' w' /\ r_playing r' = going out k (map (gets nch) l).
Proof.
  intros kinds N i fuel out nch. induction l as [|[alloc ops] l IH]; intros k r w xs w' IN ID P NC N1 PA RO E.
  - cbn in E. apply Ok_inj in E. apply pair_equal_spec in E. destruct E as [<- <-]. split; [reflexivity|].
    exists r. split; [|exact P]. split; [exact ID|]. right. split; [exact P|]. split; [lia|]. now apply (playing_next out k).
  - apply Forall_cons_iff in RO. destruct RO as [(K & Q & Y) RO]. cbn [snd] in *.
    unfold rounds_ops in E. cbn [flat_map fst snd] in E. cbn [app wops] in E.
    apply bind_ok in E. destruct E as ([x w1] & E1 & E). apply bind_ok in E. destruct E as ([ys w2] & E2 & E).
    apply Ok_inj in E. apply pair_equal_spec in E. destruct E as [<- <-].
    apply wops_app in E2. destruct E2 as (y1 & w3 & y2 & E2 & E3 & ->).
    cbn [wop_run] in E1. apply bind_ok in E1. destruct E1 as ([acts w1'] & U & E1). apply Ok_inj in E1. apply pair_equal_spec in E1.
    destruct E1 as [<- ->]. destruct (idle_update _ _ _ _ _ _ _ _ _ IN ID U) as (ev & r' & PU & D).
    pose proof (player_update _ _ _ _ _ _ _ PU P NC N1) as PL.
    cbn [map transmissions going]. rewrite (gets_round nch (alloc, ops)). cbn [fst].
    unfold heard. cbn [flat_map heard1 fst snd]. rewrite flat_map_app, Nat.eqb_refl. fold (heard i y1). fold (heard i y2).
    destruct (gets nch (alloc, [])).
    + destruct PL as (frames & RD & LE & SD & ->). pose proof (playing_read _ _ _ _ _ _ PA RD) as FR.
      destruct (due_wops _ _ _ _ _ _ _ _ _ _ _ D K Q E2 Y) as (r2 & RS & ID3 & H3). rewrite H3, SD, <- FR. cbn [app].
      destruct (Nat.eqb_spec (length frames) 128) as [L|L].
      * unfold response in RS. cbn [Z.eqb evReload] in RS. pose proof (playing_on _ _ _ _ _ _ _ _ PA RD RS) as PA2. rewrite L in PA2.
        destruct (reload_nch _ _ _ RS) as [NC2 P2]. pose proof (r_read_statics _ _ _ _ _ RD) as ST.
        rewrite <- (statics_playing _ _ ST), P in P2. 
        assert (NC3 : r_nch r2 = Z.of_nat nch) by (rewrite NC2; rewrite <- NC; symmetry; apply (statics_nch _ _ ST)).
        destruct (IH _ _ _ _ _ IN ID3 P2 NC3 N1 PA2 RO E3) as [H4 P4]. rewrite H4. auto.
      * unfold response in RS. cbn [Z.eqb evClose evReload] in RS. apply Ok_inj in RS. subst r2.
        destruct (stopped_rounds _ _ _ _ _ _ _ _ _ IN ID3 (close_stops _) RO E3) as [H4 P4]. rewrite H4. split; [now rewrite map_map|].
        exists (r_close r'). split; [|apply close_stops]. split; [exact P4|]. left. split; [apply close_stops|]. right.
        rewrite close_nch, <- (statics_nch _ _ (r_read_statics _ _ _ _ _ RD)). lia.
    + destruct PL as (SD & -> & ->). rewrite SD. cbn [map app].
      destruct (idle_wops _ _ _ _ _ _ _ _ _ D K Q E2) as [ID3 H3].
      destruct (IH _ _ _ _ _ IN ID3 P NC N1 PA RO E3) as [H4 P4]. rewrite H3, H4. auto.
Qed.

(* ---- from play() ---- *)

Lemma remove_pending : forall q i, pending (q_remove q i) i = false.
Proof.
  intros q i. apply pending_out. unfold q_remove. intro H. apply in_map_iff in H. destruct H as ([j st] & F & H).
  apply filter_In in H. destruct H as [_ H]. cbn [fst] in *. subst j. now rewrite Nat.eqb_refl in H.
Qed.

Lemma history_ymode : forall kinds flags N w, history kinds flags N w -> exists a q v, ymode kinds (fun j => (j < N)%nat) w a q v.
Proof.
  intros kinds flags N w (fuel & l & xs & FL & K & YM & FB & E).
  exact (ymode_wops _ _ _ _ _ _ _ _ _ _ (ymode0 kinds (fun j => (j < N)%nat) flags FL) K YM FB E).
Qed.

Lemma stage : forall kinds flags N i fl isWave nraw stack garbage nch out w r1 p r2, history kinds flags N w -> (i < N)%nat -> kinds i <> KArray ->
  (1 <= nch)%nat -> r_nch r1 = Z.of_nat nch ->
  r_play_file (r_stop (w_rd w i)) (Some fl) isWave nraw stack garbage = play_open r1 fl p garbage ->
  r_play_file (r_stop (w_rd w i)) (Some fl) isWave nraw stack garbage = Ok (true, r2) -> file_delivers 128 r2 out ->
  plays_out kinds N i fl isWave nraw stack garbage nch out w.
Proof.
  intros kinds flags N i fl isWave nraw stack garbage nch out w r1 p r2 H IN KI N1 NC EO E FD.
  destruct (history_ymode _ _ _ _ H) as (a & q & v & [HA HS HT HP]).
  rewrite EO in E. destruct (play_open_result _ _ _ _ _ _ E) as (_ & PL & NC2). rewrite <- EO in E.
  assert (PF : exists w0, p_play_file i (Some fl) isWave nraw stack garbage w = Ok (true, w0)).
  { unfold p_play_file. cbv zeta. pose proof (ys_disable _ _ _ _ _ HS ltac:(lia)) as Y1.
    pose proof (ys_stop _ _ _ _ _ i Y1 ltac:(lia)) as Y2. destruct (proj2 Y2) as (FO & _). rewrite FO. cbn [bind].
    match goal with |- context [r_play_file (w_rd ?x i)] => assert (R0 : w_rd x i = r_stop (w_rd w i)) end.
    { rewrite rd_sys. unfold p_stop. cbv zeta. cbn. now rewrite Nat.eqb_refl. }
    rewrite R0, E. cbn [bind]. eauto. }
  destruct PF as (w0 & PF). exists w0. split; [exact PF|]. intros fuel l xs w' RO EW.
  assert (ID : idle kinds N i r2 w0).
  { assert (HA' : alive kinds w0).
    { eapply (wop_alive kinds 0 (WPlayFile i (Some fl) isWave nraw stack garbage) w); [exact HA|exact I|]. cbn [wop_run]. rewrite PF. reflexivity. }
    apply p_play_file_inv in PF. destruct PF as (r & E2 & R & s2 & A & S). rewrite E in E2. apply Ok_inj in E2. apply pair_equal_spec in E2.
    destruct E2 as [_ <-].
    pose proof (ys_disable _ _ _ _ _ HS ltac:(lia)) as Y1. pose proof (ys_stop _ _ _ _ _ i Y1 ltac:(lia)) as Y2.
    destruct (proj2 Y2) as (FO & _). cbv zeta in A. rewrite FO in A. apply Ok_inj in A. subst s2.
    pose proof (ys_attach _ _ _ _ _ i Y2 ltac:(lia)) as Y3. pose proof (ys_enable _ _ _ 0 _ Y3 ltac:(lia)) as Y4.
    exists (att_set a i true), (q_remove (q_remove q i) i), (Z.lor v EVR). split; [constructor|split; [|split]].
    - exact HA'.
    - eapply ys_rd; [exact Y4|]. exact S.
    - intros j AJ. unfold att_set in AJ. split.
      + destruct (Nat.eqb_spec j i) as [EQ|NE]; [now rewrite EQ|]. now apply HT.
      + rewrite Z.lor_spec. apply orb_true_r.
    - intros j KJ PJ. unfold att_set. rewrite R in PJ. destruct (Nat.eqb j i); auto.
    - unfold att_set. now rewrite Nat.eqb_refl.
    - now rewrite R, Nat.eqb_refl.
    - apply remove_pending. }
  assert (PA : playing_at out 0 r2).
  { intros ns FN. destruct (FD ns FN) as (f & r' & S & _). eauto. }
  destruct (rounds_play _ _ _ _ _ _ _ _ _ _ _ _ IN ID PL (eq_trans NC2 NC) N1 PA RO EW) as (HE & r' & SD & P').
  split; [exact HE|]. split; [|now apply (next_update kinds N i r')].
  destruct SD as ((a' & q' & v' & _ & _ & -> & _) & _). exact P'.
Qed.

Lemma stage_wav : forall kinds flags N i w fl nch tags n nraw stack garbage ps pb, history kinds flags N w -> (i < N)%nat -> kinds i <> KArray ->
  basic_settings (w_rd w i) LNone ps pb -> bytes_ok stack -> wav_file fl nch tags n -> Z.of_nat nch < 2 ^ 15 ->
  let len := n / 2 / Z.of_nat nch in
  (ps = PArbitrary -> 0 <= pb <= len) ->
  let x := r_rate (w_rd w i) in
  grid_rate x -> (0 <= R64 x)%R -> ((R64 x + 1) * INR nch <= IZR (2 ^ 30))%R -> keeps_up (cfg_of (kinds i)) nch 128 (R64 x) ->
  plays_out kinds N i fl true nraw stack garbage nch (file_pitch fl ((44 + tags) / 2) len nch (start_frame ps pb) (R64 x)) w.
Proof.
  intros kinds flags N i w fl nch tags n nraw stack garbage ps pb H IN KI BS0 BO WF NB len PB x G P U KU.
  destruct (history_ymode _ _ _ _ H) as (a & q & v & [HA _ _ _]). destruct (HA i) as [LK LC _ _ _ _ _].
  destruct (play_wav_open (r_stop (w_rd w i)) fl nch tags n nraw stack garbage) as (r1 & EO & _ & NC & _); auto; [cbn; congruence|].
  destruct (wav_forward (r_stop (w_rd w i)) fl nch tags n nraw stack garbage ps pb 128) as (r2 & E & D); auto.
  - cbn. rewrite LC. apply cfg_of_ok.
  - cbn. congruence.
  - cbn. now rewrite LC.
  - eapply stage; eauto. apply WF.
Qed.

Lemma stage_raw : forall kinds flags N i w fl nch stack garbage ps pb, history kinds flags N w -> (i < N)%nat -> kinds i <> KArray ->
  basic_settings (w_rd w i) LNone ps pb -> r_hdr (w_rd w i) = 0 -> (1 <= nch)%nat -> Z.of_nat nch < 2 ^ 15 -> 0 < fsize fl < 2 ^ 31 ->
  let len := fsize fl / 2 / Z.of_nat nch in
  (ps = PArbitrary -> 0 <= pb <= len) ->
  let x := r_rate (w_rd w i) in
  grid_rate x -> (0 <= R64 x)%R -> ((R64 x + 1) * INR nch <= IZR (2 ^ 30))%R -> keeps_up (cfg_of (kinds i)) nch 128 (R64 x) ->
  plays_out kinds N i fl false (Z.of_nat nch) stack garbage nch (file_pitch fl 0 len nch (start_frame ps pb) (R64 x)) w.
Proof.
  intros kinds flags N i w fl nch stack garbage ps pb H IN KI BS0 HH N1 NB S len PB x G P U KU.
  destruct (history_ymode _ _ _ _ H) as (a & q & v & [HA _ _ _]). destruct (HA i) as [LK LC _ _ _ _ _].
  destruct (play_raw_open (r_stop (w_rd w i)) fl (Z.of_nat nch) stack garbage) as (r1 & EO & _ & NC & _); auto; try lia; [cbn; congruence|].
  destruct (raw_forward (r_stop (w_rd w i)) fl nch stack garbage ps pb 128) as (r2 & E & D); auto.
  - cbn. rewrite LC. apply cfg_of_ok.
  - cbn. congruence.
  - cbn. now rewrite LC.
  - eapply stage; eauto.
Qed.
