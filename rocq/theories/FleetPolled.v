(* Any number of players of all four kinds used forwards in polled mode (C126). *)

From Coq Require Import ZArith Lia List Bool.
From RecordUpdate Require Import RecordUpdate.
From Verif Require Import Machine Floats CacheModel CacheFacts WindowProofs ReaderModel ReaderFacts ReaderSpec LifeProofs ResponderModel ResponderSpec ResponderProofs
  QueueProofs PlayerModel LifeSpec WorldProofs ScheduleProofs StageProofs PolledSpec PolledProofs SketchProofs SketchCases ManySpec ManyProofs FleetSpec FleetProofs.
Import ListNotations.
Local Open Scope Z_scope.

(* ---- more fuel changes nothing ---- *)

Lemma reload_more : forall f1 f2 r x, (f1 <= f2)%nat -> r_triggerReload f1 r = Ok x -> r_triggerReload f2 r = Ok x.
Proof.
  intros f1 f2 r x L E. unfold r_triggerReload in *. destruct (r_src r) as [|m o|g]; try exact E.
  apply bind_ok in E. destruct E as (g' & E & E2). unfold triggerReload in *. apply bind_ok in E. destruct E as (h & E & E3).
  replace f2 with (f1 + (f2 - f1))%nat by lia. rewrite (reload_loop_fuel _ _ _ _ (f2 - f1) E). cbn [bind]. cbv zeta in *. apply Ok_inj in E3. rewrite E3. exact E2.
Qed.
Lemma update_more : forall f1 f2 g r x, (f1 <= f2)%nat -> p_update f1 g r = Ok x -> p_update f2 g r = Ok x.
Proof.
  intros f1 f2 g r x L E. unfold p_update in *. destruct (_ =? _); [exact E|]. destruct (_ <? _); [exact E|]. destruct (negb _); [exact E|]. cbv zeta in *.
  destruct (forallb _ _); [|exact E]. apply bind_ok in E. destruct E as ([fr r'] & E & E2). rewrite (r_read_fuel f1 f2 _ _ _ L E). exact E2.
Qed.
Lemma wupdate_more : forall f1 f2 i g w x, (f1 <= f2)%nat -> w_update f1 i g w = Ok x -> w_update f2 i g w = Ok x.
Proof.
  intros f1 f2 i g w x L E. unfold w_update in *. apply bind_ok in E. destruct E as ([[a e] r] & E & E2). rewrite (update_more f1 f2 _ _ _ L E). exact E2.
Qed.
Lemma wupdates_more : forall f1 f2, (f1 <= f2)%nat -> forall l w x, w_updates f1 l w = Ok x -> w_updates f2 l w = Ok x.
Proof.
  intros f1 f2 L. induction l as [|[i g] l IH]; intros w x E; cbn [w_updates] in *; [exact E|].
  apply bind_ok in E. destruct E as ([a w1] & E & E2). rewrite (wupdate_more f1 f2 _ _ _ _ L E). cbn [bind].
  apply bind_ok in E2. destruct E2 as ([b w2] & E2 & E3). rewrite (IH _ _ E2). exact E3.
Qed.
Lemma event_more : forall f1 f2 i st w x, (f1 <= f2)%nat -> event_response f1 i st w = Ok x -> event_response f2 i st w = Ok x.
Proof.
  intros f1 f2 i st w x L E. unfold event_response in *. cbv zeta in *. destruct (st =? evReload); [|exact E].
  apply bind_ok in E. destruct E as (r & E & E2). rewrite (reload_more f1 f2 _ _ L E). exact E2.
Qed.
Lemma call_more : forall f1 f2 c r x, (f1 <= f2)%nat -> call_run f1 c r = Ok x -> call_run f2 c r = Ok x.
Proof.
  intros f1 f2 c r x L E. destruct c; cbn [call_run] in *.
  all: match type of E with r_triggerReload _ _ = _ => exact (reload_more f1 f2 _ _ L E) | _ => exact E end.
Qed.
Lemma yield_more : forall f1 f2 w x, (f1 <= f2)%nat -> w_yield f1 w = Ok x -> w_yield f2 w = Ok x.
Proof.
  intros f1 f2 w x L E. unfold w_yield in *. destruct (Z.testbit _ 2); [|exact E].
  destruct (y_pop _) as [[[i st]|] s]; [exact (event_more f1 f2 _ _ _ _ L E)|exact E].
Qed.
Lemma poll_more : forall f1 f2 w x, (f1 <= f2)%nat -> w_poll f1 w = Ok x -> w_poll f2 w = Ok x.
Proof.
  intros f1 f2 w x L E. unfold w_poll in *. apply bind_ok in E. destruct E as ([[v1 e] s] & E & E3). rewrite E. cbn [bind].
  destruct e as [[i st]|]; [|exact E3]. apply bind_ok in E3. destruct E3 as (w2 & E3 & E4). rewrite (event_more f1 f2 _ _ _ _ L E3). exact E4.
Qed.
(* The calls that take the fuel, with what they do *)
Definition fueled (f : nat) (o : wop) (w : world) : option (res (wout * world)) :=
  match o with
  | WStop i mid => Some ('(a, w') <- w_stop f i mid w ;; Ok (WoActs a, w'))
  | WCall i c => Some (r <- call_run f c (w_rd w i) ;; Ok (WoNone, set_rd w i r))
  | WUpdate i g => Some ('(a, w') <- w_update f i g w ;; Ok (WoActs [(i, a)], w'))
  | WYield => Some (w' <- w_yield f w ;; Ok (WoNone, w'))
  | WPoll => Some ('(v, w') <- w_poll f w ;; Ok (WoPoll v, w'))
  | _ => None
  end.
Lemma fueled_run : forall f o w, wop_run f o w = match fueled f o w with Some x => x | None => wop_run 0 o w end.
Proof. intros f o w. destruct o; cbn [wop_run fueled]; reflexivity. Qed.
Lemma stop_more : forall f1 f2 i mid w x, (f1 <= f2)%nat -> w_stop f1 i mid w = Ok x -> w_stop f2 i mid w = Ok x.
Proof.
  intros f1 f2 i mid w x L E. unfold w_stop in *. apply bind_ok in E. destruct E as ([b w2] & E & E3). rewrite (wupdates_more f1 f2 L _ _ _ E). exact E3.
Qed.
Lemma bind_more : forall (A B : Type) (e1 e2 : res A) (k : A -> res B) x, (forall y, e1 = Ok y -> e2 = Ok y) -> bind e1 k = Ok x -> bind e2 k = Ok x.
Proof. intros A B e1 e2 k x H E. apply bind_ok in E. destruct E as (y & E & E2). rewrite (H y E). exact E2. Qed.
Lemma wop_more : forall f1 f2 o w x, (f1 <= f2)%nat -> wop_run f1 o w = Ok x -> wop_run f2 o w = Ok x.
Proof.
  intros f1 f2 o w x L E. rewrite fueled_run in E |- *. remember (wop_run 0 o w) as z eqn:Z. clear Z.
  destruct o; cbn [fueled] in *; try exact E; (eapply bind_more; [|exact E]); intros y Q.
  - exact (stop_more f1 f2 _ _ _ _ L Q).
  - exact (call_more f1 f2 _ _ _ L Q).
  - exact (wupdate_more f1 f2 _ _ _ _ L Q).
  - exact (yield_more f1 f2 _ _ L Q).
  - exact (poll_more f1 f2 _ _ L Q).
Qed.
Local Opaque wop_run.
Lemma drained_any : forall f l w wt y, drained f l w wt -> wops f l w = Ok y -> forall fuel, drained fuel l w wt.
Proof.
  intros f. induction l as [|o l IH]; intros w wt y D E fuel; [exact I|]. cbn [wops drained] in *. destruct D as [C D]. split; [exact C|].
  apply bind_ok in E. destruct E as ([x w1] & E1 & E). rewrite E1 in D. apply bind_ok in E. destruct E as ([xs w2] & E2 & _).
  destruct (wop_run fuel o w) as [[x' w']| |] eqn:Q; [|exact I|exact I].
  assert (S : Ok (x', w') = Ok (x, w1)).
  { pose proof (wop_more fuel (f + fuel) o w _ ltac:(lia) Q) as Q1. pose proof (wop_more f (f + fuel) o w _ ltac:(lia) E1) as Q2. congruence. }
  apply Ok_inj, pair_equal_spec in S. destruct S as [-> ->]. eapply IH; eauto.
Qed.

Section Polled.
Variables (kinds : nat -> rkind) (slow : nat -> bool).
Local Notation kinv := (kinv kinds slow).
Local Notation pm := (pmode kinds (fun _ => True)).

(* The readers after the call *)
Definition runs (o : wop) (w : world) : Prop := exists x w', total (fun f => wop_run f o w) (x, w') /\ forall i, kinv i (w_rd w' i).

Lemma pl_update : forall i g w a q, pst (w_sys w) a q -> (forall i, kinv i (w_rd w i)) ->
  exists acts w', total (fun f => w_update f i g w) (acts, w') /\ (exists q', pst (w_sys w') a q') /\ forall i, kinv i (w_rd w' i).
Proof.
  intros i g w a q P A. destruct (k_update kinds slow i g w A) as (acts & ev & r' & [F T] & H').
  assert (Q : exists w', (forall f, (F <= f)%nat -> w_update f i g w = Ok (acts, w')) /\ w_rd w' = w_rd (set_rd w i r')).
  { destruct ev as [st|].
    - destruct (pst_trigger _ _ _ i st P) as (s' & TE & _).
      exists (set_rd w i r' <| w_sys := s' |>). split; [|reflexivity]. intros f L. unfold w_update. rewrite T by exact L. cbn [bind].
      change (w_sys (set_rd w i r')) with (w_sys w). rewrite TE. reflexivity.
    - exists (set_rd w i r'). split; [|reflexivity]. intros f L. unfold w_update. rewrite T by exact L. reflexivity. }
  destruct Q as (w' & E & R). exists acts, w'. split; [exists F; exact E|]. split.
  - destruct (ps_update F i g w a q acts w' P (E F (le_n F))) as (ev2 & r2 & _ & _ & P'). eauto.
  - intros j. rewrite R, rd_set. destruct (Nat.eqb_spec j i); [subst j; exact H'|apply A].
Qed.
Lemma pl_updates : forall l w a q, pst (w_sys w) a q -> (forall i, kinv i (w_rd w i)) ->
  exists acts w', total (fun f => w_updates f l w) (acts, w') /\ forall i, kinv i (w_rd w' i).
Proof.
  induction l as [|[i g] l IH]; intros w a q P A; [exists [], w; split; [apply total_ok|exact A]|].
  destruct (pl_update i g w a q P A) as (a1 & w1 & T1 & (q1 & P1) & A1). destruct (IH w1 a q1 P1 A1) as (a2 & w2 & T2 & A2).
  exists ((i, a1) :: a2), w2. split; [|exact A2]. cbn [w_updates]. eapply total_bind; [exact T1|]. cbv beta. eapply total_bind; [exact T2|]. apply total_ok.
Qed.

Lemma pl_event : forall i st w, (forall i, kinv i (w_rd w i)) -> exists w', total (fun f => event_response f i st w) w' /\ forall i, kinv i (w_rd w' i).
Proof.
  intros i st w A. destruct (k_response kinds slow i st _ (A i)) as (r' & T & H').
  eexists. split.
  - unfold event_response. eapply total_bind; [exact T|]. apply total_ok.
  - intros j. rewrite rd_sys, rd_set. destruct (Nat.eqb_spec j i); [subst j; exact H'|apply A].
Qed.

Lemma pl_array : forall i play o w, kinds i = KArray -> (forall i, kinv i (w_rd w i)) ->
  (forall f, wop_run f o w = ('(b, w') <- p_play_array i play w ;; Ok (WoPlay i b, w'))) ->
  (forall r, ainv (slow i) r -> exists b r', play r = Ok (b, r') /\ ainv (slow i) r') -> runs o w.
Proof.
  intros i play o w K A E P. pose proof (k_stop kinds slow i _ (A i)) as HS. rewrite kinv_arr in HS by exact K.
  destruct (P _ HS) as (b & r' & Q & H'). exists (WoPlay i b), (set_rd (p_stop i w) i r'). split.
  - exists O. intros f _. rewrite E. unfold p_play_array. cbv zeta. rewrite p_stop_rd, Nat.eqb_refl, Q. reflexivity.
  - intros j. rewrite rd_set. destruct (Nat.eqb_spec j i) as [->|N]; [rewrite kinv_arr by exact K; exact H'|].
    rewrite p_stop_rd. destruct (Nat.eqb_spec j i); [contradiction|apply A].
Qed.

Lemma pl_file : forall i fo b n st g w wt a q, mild_any kinds slow (WPlayFile i fo b n st g) -> pm w wt a q -> (forall i, kinv i (w_rd w i)) -> wt i = false ->
  runs (WPlayFile i fo b n st g) w.
Proof.
  intros i fo isW n st g w wt a q (K & BS & NR & FO) [HA HS HT HP HW] A CA.
  pose proof (k_stop kinds slow i _ (A i)) as KS. rewrite kinv_file in KS by exact K.
  destruct (m_play (kinds i) (r_stop (w_rd w i)) fo isW n st g K KS BS NR FO) as (b & r' & E & H').
  assert (P0 : pst (w_sys (on_sys w disableResponse)) a q) by (eapply pst_same; [apply sp_disable|exact HS]).
  pose proof (pst_stop _ _ _ i P0 (HW i CA)) as P1.
  destruct (pst_attach _ _ _ i P1 (HW i CA)) as (s3 & A3 & P3).
  assert (CL : clearEvent i (w_sys (p_stop i (on_sys w disableResponse))) = w_sys (p_stop i (on_sys w disableResponse))).
  { assert (V : v_trig (s_resp (w_sys (p_stop i (on_sys w disableResponse))) i) = false).
    { assert (PD : pinv (disableResponse (w_sys (on_sys w disableResponse))) (a, q)) by (eapply pinv_same; [apply sp_disable|apply P0]).
      pose proof (proj2 (p_clear_inv _ _ _ i PD (HW i CA))) as V. unfold p_stop. cbn [w_sys on_sys].
      destruct (sp_enable (clearEvent i (disableResponse (disableResponse (w_sys w))))) as (_ & _ & RE & _). cbn. rewrite RE. exact V. }
    unfold clearEvent at 1. rewrite V. reflexivity. }
  rewrite CL in A3.
  assert (PF : exists w', p_play_file i fo isW n st g w = Ok (b, w')).
  { unfold p_play_file. cbv zeta. rewrite (proj1 (proj2 P1)), A3. cbn [bind].
    match goal with |- context [r_play_file (w_rd ?x i)] => assert (R0 : w_rd x i = r_stop (w_rd w i)) end.
    { rewrite rd_sys. change (w_rd (p_stop i (on_sys w disableResponse)) i = r_stop (w_rd w i)). rewrite p_stop_rd, Nat.eqb_refl. reflexivity. }
    rewrite R0, E. cbn [bind]. eauto. }
  destruct PF as (w' & PF). exists (WoPlay i b), w'. split; [exists O; intros f _; rewrite file_run, PF; reflexivity|].
  apply p_play_file_inv in PF. destruct PF as (r2 & E2 & R & _). rewrite E in E2. apply Ok_inj, pair_equal_spec in E2. destruct E2 as [_ <-].
  intros j. rewrite R. destruct (Nat.eqb_spec j i); [subst j; rewrite kinv_file by exact K; exact H'|apply A].
Qed.
Local Transparent wop_run.

Lemma pl_op : forall o w wt a q, mild_polled kinds slow o -> calm_op o wt -> pm w wt a q -> (forall i, kinv i (w_rd w i)) -> runs o w.
Proof.
  intros o w wt a q M C PM A. pose proof (pm_state _ _ _ _ _ _ PM) as HS.
  destruct o as [i fo wv n st g|i m off len nch|i m off len|i m|i mid|i c|i alloc| | |b]; cbn [mild_polled] in M.
  - eapply pl_file; eauto.
  - destruct M as (K & n & -> & N8 & HA). eapply pl_array; [exact K|exact A|reflexivity|]. intros r I.
    destruct (arr_raw _ _ _ _ _ _ HA N8 I) as (r' & E & I'). exists true, r'. cbv beta. rewrite E. auto.
  - destruct M as (K & B). eapply pl_array; [exact K|exact A|reflexivity|]. intros r I.
    assert (HA : array_holds m off 0 1) by (repeat split; cbn; lia).
    destruct (arr_raw _ _ _ _ _ _ HA ltac:(lia) I) as (r' & E & I'). exists true, r'. cbv beta. rewrite wav_len_raw. change 1 with (Z.of_nat 1). rewrite E. auto.
  - destruct M as (K & MW). eapply pl_array; [exact K|exact A|reflexivity|]. intros r I. apply arr_wav; auto.
  - assert (P0 : pst (w_sys (on_sys (on_sys w disableResponse) (clearEvent i))) a q).
    { cbn. apply pst_clear; [eapply pst_same; [apply sp_disable|exact HS]|]. apply (pm_wait _ _ _ _ _ _ PM). exact C. }
    destruct (pl_updates mid _ a q P0 A) as (acts & w2 & T & A2).
    exists (WoActs acts). eexists. split.
    + cbn [wop_run]. unfold w_stop. eapply total_bind; [eapply total_bind; [exact T|]|]; apply total_ok.
    + intros j. rewrite rd_sys, rd_set. destruct (Nat.eqb_spec j i); [subst j; apply k_stop; apply A2|apply A2].
  - destruct (k_call kinds slow i c (w_rd w i) M (A i)) as (r' & T & H'). exists WoNone, (set_rd w i r'). split.
    + cbn [wop_run]. eapply total_bind; [exact T|]. apply total_ok.
    + intros j. rewrite rd_set. destruct (Nat.eqb_spec j i); [subst j; exact H'|apply A].
  - destruct (pl_update i alloc w a q HS A) as (acts & w' & T & _ & A'). exists (WoActs [(i, acts)]), w'. split; [|exact A'].
    cbn [wop_run]. eapply total_bind; [exact T|]. apply total_ok.
  - exists WoNone, w. split; [|exact A]. exists O. intros f _. cbn [wop_run]. unfold w_yield, y_pop. rewrite (proj2 (proj2 HS)). now destruct (Z.testbit _ 2).
  - destruct (pst_run _ _ _ HS) as (v & e & s' & E & _). destruct e as [[i st]|].
    + destruct (pl_event i st (mkWorld (w_rd w) s') A) as (w' & T & A'). exists (WoPoll v), w'. split; [|exact A'].
      cbn [wop_run]. unfold w_poll. rewrite E. cbn [bind]. eapply total_bind; [eapply total_bind; [exact T|]; apply total_ok|]. apply total_ok.
    + exists (WoPoll v), (mkWorld (w_rd w) s'). split; [|exact A]. exists O. intros f _. cbn [wop_run]. unfold w_poll. rewrite E. reflexivity.
  - exists WoNone. eexists. split; [exists O; reflexivity|]. exact A.
Qed.

Lemma mild_facts : forall o, mild_polled kinds slow o -> wop_ok kinds o /\ polled_mode o /\ files_in (fun _ => True) o.
Proof.
  intros o M. destruct o; cbn in M |- *; auto; try (destruct M; auto; fail).
Qed.

Local Opaque wop_run.
Lemma pl_ops : forall l w wt a q, Forall (mild_polled kinds slow) l -> (exists D, forall fuel, (D <= fuel)%nat -> drained fuel l w wt) -> pm w wt a q -> (forall i, kinv i (w_rd w i)) ->
  exists xs w', total (fun f => wops f l w) (xs, w').
Proof.
  induction l as [|o l IH]; intros w wt a q M [D0 D] PM A; [exists [], w; apply total_ok|].
  apply Forall_cons_iff in M. destruct M as [MO ML]. pose proof (proj1 (D D0 (le_n _))) as C.
  destruct (pl_op o w wt a q MO C PM A) as (x & w1 & [F T] & A1).
  destruct (mild_facts o MO) as (K & P & FI).
  destruct (pmode_step kinds (fun _ => True) F o w wt a q x w1 PM K P FI C (T F (le_n F))) as (a' & q' & PM' & _).
  destruct (IH w1 (wait_step w o x wt) a' q' ML) as (xs & w2 & T2); [|exact PM'|exact A1|].
  - exists (D0 + F)%nat. intros fuel L. pose proof (D fuel ltac:(lia)) as D1. cbn [drained] in D1. rewrite T in D1 by lia. apply D1.
  - exists (x :: xs), w2. cbn [wops]. eapply total_bind; [exists F; exact T|]. cbv beta. eapply total_bind; [exact T2|]. apply total_ok.
Qed.
End Polled.

Theorem all_kinds_polled : forall kinds slow flags l, Forall (mild_polled kinds slow) l -> (forall fuel, drained fuel (WForce true :: l) (world0 kinds flags) (fun _ => false)) ->
  exists F xs w, forall fuel, (F <= fuel)%nat -> wops fuel (WForce true :: l) (world0 kinds flags) = Ok (xs, w).
Proof.
  intros kinds slow flags l M D. set (w0 := on_sys (world0 kinds flags) (setForceResponse true)).
  assert (E0 : forall f, wop_run f (WForce true) (world0 kinds flags) = Ok (WoNone, w0)) by reflexivity.
  destruct (pl_ops kinds slow l w0 (fun _ => false) (fun _ => false) [] M) as (xs & w & [F T]).
  - exists O. intros fuel _. pose proof (D fuel) as Q. cbn [drained] in Q. rewrite E0 in Q. apply Q.
  - apply pmode0.
  - intros i. apply k_new.
  - exists F, (WoNone :: xs), w. intros fuel L. cbn [wops]. rewrite E0. cbn [bind]. rewrite T by exact L. reflexivity.
Qed.
