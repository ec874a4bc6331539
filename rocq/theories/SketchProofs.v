(* The example sketches: one player, whatever happens around its calls. *)

From Coq Require Import ZArith Lia List Bool.
From RecordUpdate Require Import RecordUpdate.
From Verif Require Import Machine Floats WavModel CacheModel CacheFacts ReaderModel ReaderFacts ResponderModel ResponderSpec QueueProofs
  PlayerModel LifeSpec WorldProofs ScheduleProofs StageProofs SketchModel SketchSpec.
Import ListNotations.
Local Open Scope Z_scope.

(* With fuel enough, the result is x *)
Definition total {A} (e : nat -> res A) (x : A) : Prop := exists F, forall f, (F <= f)%nat -> e f = Ok x.
Lemma total_ok : forall A (x : A), total (fun _ => Ok x) x. Proof. intros A x. exists O. auto. Qed.
Lemma total_eq : forall A (e e' : nat -> res A) x, (forall f, e' f = e f) -> total e x -> total e' x.
Proof. intros A e e' x E [F H]. exists F. intros f L. rewrite E. auto. Qed.
Lemma total_bind : forall A B (e : nat -> res A) (k : nat -> A -> res B) x y, total e x -> total (fun f => k f x) y ->
  total (fun f => a <- e f ;; k f a) y.
Proof. intros A B e k x y [F H] [G K]. exists (F + G)%nat. intros f L. rewrite H by lia. cbn [bind]. apply K. lia. Qed.

Section OnePlayer.
Variables (att : bool) (I : reader -> Prop) (pots : Z -> Prop) (start : starter).
Hypothesis HN : forall r, I r -> r_nch r = -1 \/ 0 <= r_nch r.
Hypothesis HR : forall r, I r -> r_playing r = true -> exists fr r', total (fun f => r_read f r ABS) (fr, r') /\ I r'.
Hypothesis HP : forall p r, pots p -> I r -> exists r', setPlaybackRate r (pot_rate p) = Ok r' /\ I r'.
Hypothesis HS : att = true -> forall st r, I r -> exists r', total (fun f => response f st r) r' /\ I r'.

Definition world_ok (w : world) : Prop :=
  exists a q v, ystate w a q 0 v /\ (forall j, a j = true -> j = O /\ att = true) /\ I (w_rd w 0).
Definition op_ok (o : wop) (w : world) : Prop := exists x w', total (fun f => wop_run f o w) (x, w') /\ world_ok w'.

Hypothesis HB : forall st g w, bytes_ok st -> world_ok w -> r_playing (w_rd w 0) = false -> op_ok (start st g) w.

Lemma update_op : forall g w, world_ok w -> op_ok (WUpdate 0 g) w.
Proof.
  intros g w (a & q & v & Y & A & H).
  assert (P : exists acts ev r', total (fun f => p_update f g (w_rd w 0)) (acts, ev, r') /\ I r').
  { unfold p_update. destruct (Z.eqb_spec (r_nch (w_rd w 0)) (-1)); [do 3 eexists; split; [apply total_ok|exact H]|].
    destruct (Z.ltb_spec (r_nch (w_rd w 0)) 0); [destruct (HN _ H); lia|].
    destruct (r_playing (w_rd w 0)) eqn:PL; cbn [negb]; [|do 3 eexists; split; [apply total_ok|exact H]].
    destruct (forallb got _); [|do 3 eexists; split; [apply total_ok|exact H]].
    destruct (HR _ H PL) as (fr & r' & T & H'). do 3 eexists. split; [|exact H'].
    eapply total_bind; [exact T|]. apply total_ok. }
  destruct P as (acts & ev & r' & [F T] & H').
  assert (Q : exists w', (forall f, (F <= f)%nat -> w_update f 0 g w = Ok (acts, w')) /\ w_rd w' 0 = r').
  { destruct ev as [st|].
    - destruct (y_trigger_inv _ _ _ 0%nat st (proj1 Y)) as (s' & TE & _).
      exists (set_rd w 0 r' <| w_sys := s' |>). split; [|reflexivity]. intros f L. unfold w_update. rewrite T by exact L. cbn [bind].
      change (w_sys (set_rd w 0 r')) with (w_sys w). rewrite TE. reflexivity.
    - exists (set_rd w 0 r'). split; [|reflexivity]. intros f L. unfold w_update. rewrite T by exact L. reflexivity. }
  destruct Q as (w' & E & R). exists (WoActs [(0%nat, acts)]), w'. split.
  - exists F. intros f L. cbn [wop_run]. rewrite E by exact L. reflexivity.
  - destruct (ys_update F 0 g w a q 0 v acts w' Y (E F ltac:(lia))) as (ev2 & r2 & _ & _ & Y').
    eexists a, _, v. split; [exact Y'|]. split; [exact A|]. now rewrite R.
Qed.

Lemma yield_op : forall w, world_ok w -> op_ok WYield w.
Proof.
  intros w (a & q & v & Y & A & H).
  assert (OK0 : world_ok w) by (exists a, q, v; auto).
  assert (Q : exists w', total (fun f => w_yield f w) w' /\ I (w_rd w' 0)).
  { unfold w_yield. destruct (Z.testbit (s_flags (w_sys w)) 2); [|exists w; split; [apply total_ok|exact H]].
    destruct (y_pop_inv _ _ _ (proj1 Y)) as [P _]. destruct (y_pop (w_sys w)) as [e s]. cbn [fst snd] in P. subst e.
    destruct q as [|[i st] q']; cbn [hd_error]; [exists w; split; [apply total_ok|exact H]|].
    assert (AI : a i = true).
    { apply (yi_resp _ _ (proj1 Y) i). cbn. now rewrite Nat.eqb_refl. }
    destruct (A i AI) as [-> AT]. destruct (HS AT st _ H) as (r' & T & H').
    eexists. split.
    - unfold event_response. eapply total_bind; [exact T|]. apply total_ok.
    - exact H'. }
  destruct Q as (w' & [F T] & H'). exists WoNone, w'. split.
  - exists F. intros f L. cbn [wop_run]. rewrite T by exact L. reflexivity.
  - destruct (ys_yield F w a q v w' Y (T F ltac:(lia))) as [[_ ->]|[[_ ->]|(i & st & q' & -> & Y' & _)]]; auto.
    exists a, q', v. auto.
Qed.

Lemma rate_op : forall p w, pots p -> world_ok w -> op_ok (WCall 0 (CRate (pot_rate p))) w.
Proof.
  intros p w PP (a & q & v & Y & A & H). destruct (HP p _ PP H) as (r' & E & H').
  exists WoNone, (set_rd w 0 r'). split.
  - exists O. intros f _. cbn [wop_run call_run]. rewrite E. reflexivity.
  - exists a, q, v. split; [eapply ys_rd; [exact Y|reflexivity]|]. split; [exact A|exact H'].
Qed.

Lemma wops_ok : forall l w, (forall o w, In o l -> world_ok w -> op_ok o w) -> world_ok w ->
  exists xs w', total (fun f => wops f l w) (xs, w') /\ world_ok w'.
Proof.
  induction l as [|o l IH]; intros w O H.
  - exists [], w. split; [apply total_ok|exact H].
  - destruct (O o w (or_introl eq_refl) H) as (x & w1 & T1 & H1). destruct (IH w1 (fun o' w' i => O o' w' (or_intror i)) H1) as (xs & w2 & T2 & H2).
    exists (x :: xs), w2. split; [|exact H2]. cbn [wops]. eapply total_bind; [exact T1|]. cbv beta. eapply total_bind; [exact T2|]. apply total_ok.
Qed.

Lemma turn_total : forall t w, turn_ok pots t -> world_ok w -> exists xs w', total (fun f => sketch_turn f start t w) (xs, w') /\ world_ok w'.
Proof.
  intros t w [TP TB] H. unfold sketch_turn.
  destruct (wops_ok (update_ops (t_before t) ++ [WCall 0 (CRate (pot_rate (t_pot t)))] ++ update_ops (t_after t)) w) as (x1 & w1 & T1 & H1); auto.
  { intros o w' IN W. apply in_app_iff in IN. destruct IN as [IN|IN]; [|apply in_app_iff in IN; destruct IN as [[<-|[]]|IN]].
    - apply in_map_iff in IN. destruct IN as (g & <- & _). now apply update_op.
    - now apply rate_op.
    - apply in_map_iff in IN. destruct IN as (g & <- & _). now apply update_op. }
  assert (Q : exists x2 w2, total (fun f => if t_due t && negb (r_playing (w_rd w1 0)) then wops f [start (t_stack t) (t_garbage t)] w1 else Ok ([], w1)) (x2, w2) /\ world_ok w2).
  { destruct (t_due t); cbn [andb]; [|exists [], w1; split; [apply total_ok|exact H1]].
    destruct (r_playing (w_rd w1 0)) eqn:PL; cbn [negb]; [exists [], w1; split; [apply total_ok|exact H1]|].
    destruct (HB (t_stack t) (t_garbage t) w1 TB H1 PL) as (x & w2 & T & H2). exists [x], w2. split; [|exact H2].
    cbn [wops]. eapply total_bind; [exact T|]. cbv beta. apply total_ok. }
  destruct Q as (x2 & w2 & T2 & H2).
  destruct (wops_ok (delay_ops (t_delay t) ++ [WYield]) w2) as (x3 & w3 & T3 & H3); auto.
  { intros o w' IN W. apply in_app_iff in IN. destruct IN as [IN|[<-|[]]]; [|now apply yield_op].
    apply in_map_iff in IN. destruct IN as ([g|] & <- & _); [now apply update_op|now apply yield_op]. }
  exists (x1 ++ x2 ++ x3), w3. split; [|exact H3].
  eapply total_bind; [exact T1|]. cbv beta. eapply total_bind; [exact T2|]. cbv beta. eapply total_bind; [exact T3|]. apply total_ok.
Qed.

Lemma turns_total : forall l w, Forall (turn_ok pots) l -> world_ok w -> exists xs w', total (fun f => sketch_turns f start l w) (xs, w') /\ world_ok w'.
Proof.
  induction l as [|t l IH]; intros w A H.
  - exists [], w. split; [apply total_ok|exact H].
  - inversion A as [|? ? TT AA]; subst. destruct (turn_total t w TT H) as (x1 & w1 & T1 & H1). destruct (IH w1 AA H1) as (x2 & w2 & T2 & H2).
    exists (x1 ++ x2), w2. split; [|exact H2]. cbn [sketch_turns]. eapply total_bind; [exact T1|]. cbv beta. eapply total_bind; [exact T2|]. apply total_ok.
Qed.

Lemma sketch_total : forall k flags analog l r0, 0 <= flags < 256 ->
  setPlaybackRate (setInterpolationType (new_reader k) IQuadratic) (pot_rate analog) = Ok r0 -> I r0 -> Forall (turn_ok pots) l ->
  exists xs w, total (fun f => sketch f k flags start analog l) (xs, w) /\ world_ok w.
Proof.
  intros k flags analog l r0 FL E H A.
  set (w0 := set_rd (world0 (fun _ => k) flags) 0 (setInterpolationType (new_reader k) IQuadratic)).
  set (w1 := set_rd w0 0 r0).
  assert (W1 : world_ok w1).
  { exists (fun _ => false), [], flags. split; [|split; [discriminate|exact H]].
    eapply ys_rd; [|reflexivity]. split; [apply yinv0|repeat split; auto; try apply FL; cbn; intros; lia]. }
  destruct (turns_total l w1 A W1) as (x2 & w2 & T2 & W2).
  exists ([WoNone; WoNone] ++ x2), w2. split; [|exact W2].
  unfold sketch. eapply (total_bind _ _ _ _ ([WoNone; WoNone], w1)).
  - unfold sketch_setup. cbn [wops]. eapply (total_bind _ _ _ _ (WoNone, w0)); [apply total_ok|]. cbv beta.
    eapply (total_bind _ _ _ _ ([WoNone], w1)); [|apply total_ok]. eapply (total_bind _ _ _ _ (WoNone, w1)); [|apply total_ok].
    exists O. intros f _. cbn [wop_run call_run]. change (w_rd w0 0) with (setInterpolationType (new_reader k) IQuadratic). rewrite E. reflexivity.
  - cbv beta. eapply total_bind; [exact T2|]. apply total_ok.
Qed.
End OnePlayer.
