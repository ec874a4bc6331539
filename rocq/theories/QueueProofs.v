(* The two event lists are the queues they should be. *)

From Coq Require Import ZArith Lia List Bool Arith.
From RecordUpdate Require Import RecordUpdate.
From Verif Require Import Machine ResponderModel ResponderSpec.
Import ListNotations.
Local Open Scope Z_scope.

(* ---- doubly linked lists ---- *)

Definition hdp (l : list nat) (q : option nat) : option nat := match l with [] => q | i :: _ => Some i end.
Fixpoint lstp (p : option nat) (l : list nat) : option nat := match l with [] => p | i :: l' => lstp (Some i) l' end.

Section Chain.
  Implicit Types nx pv : nat -> option nat.

  Fixpoint chain nx pv (p : option nat) (l : list nat) (q : option nat) : Prop :=
    match l with
    | [] => True
    | i :: l' => pv i = p /\ nx i = hdp l' q /\ chain nx pv (Some i) l' q
    end.

  Lemma hdp_app : forall a b q, hdp (a ++ b) q = hdp a (hdp b q).
  Proof. now intros [|x a] b q. Qed.
  Lemma lstp_app : forall a b p, lstp p (a ++ b) = lstp (lstp p a) b.
  Proof. induction a as [|x a IH]; intros b p; cbn; auto. Qed.

  Lemma chain_app : forall nx pv a p b q,
    chain nx pv p (a ++ b) q <-> chain nx pv p a (hdp b q) /\ chain nx pv (lstp p a) b q.
  Proof.
    intros nx pv. induction a as [|x a IH]; intros p b q; cbn [app chain lstp]; [tauto|].
    rewrite IH, hdp_app. tauto.
  Qed.

  Lemma chain_ext : forall nx pv nx' pv' l p q,
    (forall i, In i l -> nx' i = nx i /\ pv' i = pv i) -> chain nx pv p l q -> chain nx' pv' p l q.
  Proof.
    intros nx pv nx' pv'. induction l as [|x l IH]; intros p q E; cbn; [auto|]. intros (P & N & C).
    destruct (E x (or_introl eq_refl)) as [E1 E2]. rewrite E1, E2. repeat split; auto.
    apply IH; auto. intros i I. apply E. now right.
  Qed.

  (* The same list with another end *)
  Lemma chain_end : forall nx pv nx' pv' l p q q', NoDup l ->
    (forall i, In i l -> pv' i = pv i) ->
    (forall i, In i l -> nx' i = if ptr_is (lstp None l) i then q' else nx i) ->
    chain nx pv p l q -> chain nx' pv' p l q'.
  Proof.
    intros nx pv nx' pv'. induction l as [|x l IH]; intros p q q' ND EP EN; cbn; [auto|]. intros (P & N & C).
    inversion ND as [|x0 l0 NI ND']; subst. split; [rewrite EP by (now left); auto|].
    destruct l as [|y l].
    - cbn in *. split; [|exact I]. rewrite EN by (now left). cbn. now rewrite Nat.eqb_refl.
    - assert (LS : forall z, lstp (Some z) (y :: l) = lstp None (y :: l)) by reflexivity.
      split.
      + rewrite EN by (now left). cbn [lstp]. destruct (lstp (Some y) l) as [z|] eqn:Z; cbn [ptr_is]; [|exact N].
        destruct (Nat.eqb_spec z x); [|exact N]. exfalso. subst z. apply NI.
        clear - Z. revert y Z. induction l as [|w l IHl]; intros y Z; cbn in Z; [injection Z as ->; now left|].
        right. now apply IHl.
      + apply (IH (Some x) q q' ND'); auto.
        * intros i I. apply EP. now right.
        * intros i I. rewrite EN by (now right). reflexivity.
  Qed.

  (* The same list with another beginning *)
  Lemma chain_begin : forall nx pv nx' pv' l p p' q, NoDup l ->
    (forall i, In i l -> nx' i = nx i) ->
    (forall i, In i l -> pv' i = if ptr_is (hdp l None) i then p' else pv i) ->
    chain nx pv p l q -> chain nx' pv' p' l q.
  Proof.
    intros nx pv nx' pv' [|x l] p p' q ND EN EP; cbn; [auto|]. intros (P & N & C).
    inversion ND as [|x0 l0 NI ND']; subst.
    split; [rewrite EP by (now left); cbn; now rewrite Nat.eqb_refl|].
    split; [now rewrite EN by (now left)|].
    apply (chain_ext nx pv); auto. intros i I. split; [apply EN; now right|].
    rewrite EP by (now right). cbn. destruct (Nat.eqb_spec x i); [now subst|reflexivity].
  Qed.

  Lemma lstp_in : forall l p i, lstp p l = Some i -> p = Some i \/ In i l.
  Proof.
    induction l as [|x l IH]; intros p i H; cbn in *; [auto|].
    destruct (IH _ _ H) as [E|E]; [injection E as ->|]; auto.
  Qed.
  Lemma lstp_cons : forall l p, l <> [] -> exists i, lstp p l = Some i /\ In i l.
  Proof.
    induction l as [|x l IH]; intros p H; [congruence|]. cbn. destruct l as [|y l]; [exists x; cbn; auto|].
    destruct (IH (Some x) ltac:(discriminate)) as (i & E & I). exists i. auto.
  Qed.
  Lemma lstp_none : forall l p p', l <> [] -> lstp p l = lstp p' l.
  Proof. now intros [|x l] p p' H. Qed.
End Chain.

(* ---- field by field ---- *)

Lemma upd_get : forall s i g j, s_resp (upd_resp s i g) j = if Nat.eqb j i then g (s_resp s i) else s_resp s j.
Proof. reflexivity. Qed.
Lemma upd_same : forall s i g, s_resp (upd_resp s i g) i = g (s_resp s i).
Proof. intros. rewrite upd_get. now rewrite Nat.eqb_refl. Qed.
Lemma upd_other : forall s i g j, j <> i -> s_resp (upd_resp s i g) j = s_resp s j.
Proof. intros s i g j N. rewrite upd_get. now rewrite (proj2 (Nat.eqb_neq j i)). Qed.

(* [r'] is [r] but for the yield list's pointers / the polled list's *)
Definition same_but_y (r r' : resp) : Prop :=
  v_trig r' = v_trig r /\ v_status r' = v_status r /\ v_type r' = v_type r /\ v_fun r' = v_fun r /\ v_polled r' = v_polled r.
Definition same_but_p (r r' : resp) : Prop :=
  same_but_y r r' /\ v_prev r' = v_prev r.

Lemma y_unlink_get : forall i s, let s' := y_unlink i s in
  (forall j, same_but_y (s_resp s j) (s_resp s' j)) /\
  (forall j, v_next (s_resp s' j) = if ptr_is (v_prev (s_resp s i)) j then v_next (s_resp s i) else v_next (s_resp s j)) /\
  (forall j, v_prev (s_resp s' j) = if ptr_is (v_next (s_resp s i)) j then v_prev (s_resp s i) else v_prev (s_resp s j)) /\
  s_yfirst s' = (match v_prev (s_resp s i) with None => v_next (s_resp s i) | _ => s_yfirst s end) /\
  s_ylast s' = (match v_next (s_resp s i) with None => v_prev (s_resp s i) | _ => s_ylast s end).
Proof.
  intros i s. unfold y_unlink.
  destruct (v_prev (s_resp s i)) as [p|], (v_next (s_resp s i)) as [n|]; cbn [ptr_is s_yfirst s_ylast];
    repeat split; auto; intros; rewrite ?upd_get; cbn; rewrite ?upd_get;
    repeat match goal with |- context [Nat.eqb ?a ?b] => destruct (Nat.eqb_spec a b); subst end; cbn; auto; try congruence.
Qed.

(* ---- queues as lists ---- *)

Lemma pending_in : forall q i, pending q i = true <-> In i (map fst q).
Proof.
  intros q i. unfold pending. rewrite existsb_exists, in_map_iff. split.
  - intros (e & I & E). apply Nat.eqb_eq in E. eauto.
  - intros (e & E & I). exists e. split; auto. now apply Nat.eqb_eq.
Qed.
Lemma pending_out : forall q i, pending q i = false <-> ~ In i (map fst q).
Proof. intros q i. rewrite <- pending_in. now destruct (pending q i). Qed.

Lemma trigger_fst : forall q i st, map fst (q_trigger q i st) =
  if pending q i then map fst q else map fst q ++ [i].
Proof.
  intros q i st. unfold q_trigger. destruct (pending q i); [|now rewrite map_app].
  rewrite map_map. apply map_ext. intros [j x]. cbn. now destruct (Nat.eqb_spec j i).
Qed.
Lemma remove_out : forall q i, pending q i = false -> q_remove q i = q.
Proof.
  intros q i H. apply pending_out in H. unfold q_remove. induction q as [|[j x] q IH]; [reflexivity|]. cbn in *.
  destruct (Nat.eqb_spec j i); [tauto|]. cbn. rewrite IH; auto.
Qed.
Lemma remove_in : forall q i, pending q i = true -> NoDup (map fst q) ->
  exists a x b, q = a ++ (i, x) :: b /\ q_remove q i = a ++ b.
Proof.
  intros q i H ND. apply pending_in in H. induction q as [|[j x] q IH]; [destruct H|]. cbn in *.
  inversion ND as [|x0 l0 NI ND']; subst. destruct (Nat.eqb_spec j i) as [->|NE].
  - exists [], x, q. split; [reflexivity|]. cbn. apply remove_out. now apply pending_out.
  - destruct H as [H|H]; [congruence|]. destruct (IH H ND') as (a & y & b & -> & E).
    exists ((j, x) :: a), y, b. split; [reflexivity|]. unfold q_remove in *. cbn [filter fst app negb].
    f_equal. exact E.
Qed.

(* The status recorded for each pending event *)
Definition statuses_ok (s : rsys) (q : queue) : Prop := forall i x, In (i, x) q -> v_status (s_resp s i) = x.

(* ---- yield mode ---- *)

Record yinv (s : rsys) (x : att_queue) : Prop := mkYinv {
  yi_first : s_yfirst s = hdp (map fst (snd x)) None;
  yi_last : s_ylast s = lstp None (map fst (snd x));
  yi_chain : chain (fun i => v_next (s_resp s i)) (fun i => v_prev (s_resp s i)) None (map fst (snd x)) None;
  yi_nodup : NoDup (map fst (snd x));
  yi_stat : statuses_ok s (snd x);
  yi_resp : forall i, v_polled (s_resp s i) = false /\
              v_type (s_resp s i) = (if fst x i then TYield else TDetached) /\
              v_trig (s_resp s i) = pending (snd x) i /\ (pending (snd x) i = true -> fst x i = true) }.

(* Taking event i out of the list *)
Lemma y_unlink_inv : forall s a q i, yinv s (a, q) -> pending q i = true ->
  let s' := upd_resp (y_unlink i s) i (fun r => r <| v_trig := false |>) in
  yinv s' (a, q_remove q i).
Proof.
  intros s a q i [F L C ND ST R] P s'. cbn [fst snd] in *.
  destruct (remove_in q i P ND) as (u & x & v & -> & ->).
  rewrite map_app in *. cbn [map fst] in *.
  destruct (y_unlink_get i s) as (SB & UN & UP & UF & UL).
  apply chain_app in C. destruct C as [C1 C2]. cbn [hdp chain] in *. destruct C2 as (Pi & Ni & C2).
  rewrite Pi, Ni in *.
  pose proof (NoDup_remove_1 _ _ _ ND) as ND1. pose proof (NoDup_remove_2 _ _ _ ND) as NI.
  assert (NU : forall j, In j (map fst u) -> j <> i) by (intros j J ->; apply NI, in_or_app; auto).
  assert (NV : forall j, In j (map fst v) -> j <> i) by (intros j J ->; apply NI, in_or_app; auto).
  assert (G : forall j, same_but_y (s_resp s j) (s_resp (y_unlink i s) j)) by auto.
  assert (X : forall j, v_next (s_resp s' j) = v_next (s_resp (y_unlink i s) j) /\ v_prev (s_resp s' j) = v_prev (s_resp (y_unlink i s) j) /\
     v_status (s_resp s' j) = v_status (s_resp s j) /\ v_type (s_resp s' j) = v_type (s_resp s j) /\ v_polled (s_resp s' j) = v_polled (s_resp s j)
     /\ v_trig (s_resp s' j) = if Nat.eqb j i then false else v_trig (s_resp s j)).
  { intro j. destruct (G j) as (G1 & G2 & G3 & G4 & G5). unfold s'. rewrite upd_get.
    destruct (Nat.eqb_spec j i) as [->|]; cbn; auto 10. }
  assert (DJ : forall j, In j (map fst u) -> In j (map fst v) -> False).
  { intros j J1 J2. clear - ND1 J1 J2. induction (map fst u) as [|y l IH]; [destruct J1|]. cbn in ND1.
    inversion ND1 as [|x0 l0 N1 N2]; subst. destruct J1 as [->|J1]; [|auto]. apply N1, in_or_app; auto. }
  assert (NDU : NoDup (map fst u)).
  { clear - ND1. induction (map fst u) as [|y l IH]; [constructor|]. cbn in ND1. inversion ND1; subst.
    constructor; [intro; apply H1, in_or_app; auto|auto]. }
  assert (NDV : NoDup (map fst v)).
  { clear - ND1. induction (map fst u) as [|y l IH]; [exact ND1|]. cbn in ND1. inversion ND1; auto. }
  constructor; cbn [fst snd]; rewrite ?map_app.
  - change (s_yfirst s') with (s_yfirst (y_unlink i s)). rewrite UF, F.
    destruct u as [|[j y] u]; cbn [map fst lstp hdp app] in *; [reflexivity|].
    destruct (lstp (Some j) (map fst u)) eqn:E; [reflexivity|].
    destruct u as [|k u]; [discriminate|]. destruct (lstp_cons (map fst (k :: u)) (Some j) ltac:(discriminate)) as (? & E' & _). congruence.
  - change (s_ylast s') with (s_ylast (y_unlink i s)). rewrite UL, L, !lstp_app. cbn [lstp].
    destruct v as [|[j y] v]; cbn [map fst lstp hdp]; reflexivity.
  - apply chain_app. split.
    + eapply chain_end; [exact NDU| | |exact C1].
      * intros j J. cbn beta. destruct (X j) as (_ & -> & _). rewrite UP.
        destruct (hdp (map fst v) None) as [k|] eqn:E; [|reflexivity]. cbn [ptr_is].
        destruct (Nat.eqb_spec k j); [|reflexivity]. subst k. exfalso.
        destruct v as [|[k y] v]; [discriminate|]. injection E as ->. apply (DJ j J). now left.
      * intros j J. cbn beta. destruct (X j) as (-> & _). rewrite UN. reflexivity.
    + eapply chain_begin; [exact NDV| | |exact C2].
      * intros j J. cbn beta. destruct (X j) as (-> & _). rewrite UN.
        destruct (lstp None (map fst u)) as [k|] eqn:E; [|reflexivity]. cbn [ptr_is].
        destruct (Nat.eqb_spec k j); [|reflexivity]. subst k. exfalso.
        destruct (lstp_in _ _ _ E) as [|J']; [discriminate|]. exact (DJ j J' J).
      * intros j J. cbn beta. destruct (X j) as (_ & -> & _). rewrite UP.
        destruct (map fst v) as [|k w]; [destruct J|]. cbn [hdp ptr_is]. reflexivity.
  - exact ND1.
  - intros j y J. destruct (X j) as (_ & _ & -> & _). apply ST. apply in_app_or in J. apply in_or_app. cbn. tauto.
  - intro j. destruct (X j) as (_ & _ & _ & -> & -> & ->). destruct (R j) as (R1 & R2 & R3 & R4).
    split; [auto|]. split; [auto|].
    assert (PE : pending (u ++ v) j = if Nat.eqb j i then false else pending (u ++ (i, x) :: v) j).
    { destruct (Nat.eqb_spec j i) as [->|NE]; [apply pending_out; now rewrite map_app|].
      unfold pending. rewrite !existsb_app. cbn. destruct (Nat.eqb_spec i j); [congruence|reflexivity]. }
    rewrite PE. destruct (Nat.eqb_spec j i); [split; [auto|discriminate]|auto].
Qed.

Lemma yinv_ext : forall s s' a (a' : nat -> bool) q, yinv s (a, q) ->
  s_yfirst s' = s_yfirst s -> s_ylast s' = s_ylast s ->
  (forall j, v_next (s_resp s' j) = v_next (s_resp s j) /\ v_prev (s_resp s' j) = v_prev (s_resp s j) /\
             v_trig (s_resp s' j) = v_trig (s_resp s j) /\ v_polled (s_resp s' j) = v_polled (s_resp s j)) ->
  (forall j, pending q j = true -> v_status (s_resp s' j) = v_status (s_resp s j)) ->
  (forall j, v_type (s_resp s' j) = if a' j then TYield else TDetached) ->
  (forall j, pending q j = true -> a' j = true) -> yinv s' (a', q).
Proof.
  intros s s' a a' q [F L C ND ST R] EF EL E ES ET EA. cbn [fst snd] in *.
  constructor; cbn [fst snd].
  - congruence.
  - congruence.
  - eapply chain_ext; [|exact C]. intros j J. destruct (E j) as (E1 & E2 & _). now rewrite E1, E2.
  - exact ND.
  - intros j y J. rewrite ES; [now apply ST|]. apply pending_in. apply in_map_iff. now exists (j, y).
  - intro j. destruct (E j) as (_ & _ & -> & ->). destruct (R j) as (R1 & R2 & R3 & R4). auto.
Qed.

Lemma y_clear_inv : forall s a q i, yinv s (a, q) -> yinv (clearEvent i s) (a, q_remove q i).
Proof.
  intros s a q i H. pose proof H as [F L C ND ST R]. cbn [fst snd] in *. destruct (R i) as (R1 & R2 & R3 & R4).
  unfold clearEvent. rewrite R3. destruct (pending q i) eqn:P.
  - rewrite R2, (R4 eq_refl). now apply y_unlink_inv.
  - rewrite remove_out by exact P. exact H.
Qed.

Lemma remove_gone : forall q i, pending (q_remove q i) i = false.
Proof.
  intros q i. apply pending_out. rewrite in_map_iff. intros (e & E & I). apply filter_In in I. destruct I as [_ I].
  subst i. now rewrite Nat.eqb_refl in I.
Qed.

Lemma y_detach_inv : forall s a q i, yinv s (a, q) -> yinv (base_detach i s) (att_set a i false, q_remove q i).
Proof.
  intros s a q i H. pose proof H as [F L C ND ST R]. cbn [fst snd] in *. destruct (R i) as (R1 & R2 & R3 & R4).
  unfold base_detach. rewrite R2, R3. destruct (a i) eqn:A.
  - assert (K : yinv (if pending q i then upd_resp (y_unlink i s) i (fun r => r <| v_trig := false |>) else s) (a, q_remove q i)).
    { destruct (pending q i) eqn:P; [now apply y_unlink_inv|]. now rewrite remove_out. }
    set (s1 := if pending q i then _ else s) in *. clearbody s1.
    eapply yinv_ext; [exact K|reflexivity|reflexivity| | | |].
    + intro j. rewrite upd_get. destruct (Nat.eqb_spec j i) as [->|]; cbn; auto.
    + intros j _. rewrite upd_get. destruct (Nat.eqb_spec j i) as [->|]; cbn; auto.
    + intro j. rewrite upd_get. unfold att_set. destruct (Nat.eqb_spec j i) as [->|]; cbn; auto.
      apply (yi_resp _ _ K j).
    + intros j P. unfold att_set. destruct (Nat.eqb_spec j i) as [->|]; [now rewrite remove_gone in P|].
      now apply (yi_resp _ _ K j).
  - assert (P : pending q i = false) by (destruct (pending q i); [now specialize (R4 eq_refl)|auto]).
    rewrite remove_out by auto. eapply yinv_ext; [exact H|reflexivity|reflexivity| | | |]; auto.
    + intro j. unfold att_set. destruct (Nat.eqb_spec j i) as [->|]; [now rewrite R2, ?A|apply R].
    + intros j PJ. unfold att_set. destruct (Nat.eqb_spec j i) as [->|]; [congruence|]. now apply R.
Qed.

Lemma y_attach_inv : forall s a q i, yinv s (a, q) -> yinv (attach i s) (att_set a i true, q_remove q i).
Proof.
  intros s a q i H. unfold attach. pose proof (y_detach_inv s a q i H) as K.
  set (s1 := base_detach i s) in *. clearbody s1.
  eapply yinv_ext; [exact K|reflexivity|reflexivity| | | |].
  + intro j. cbn. destruct (Nat.eqb_spec j i) as [->|]; cbn; auto.
  + intros j _. cbn. destruct (Nat.eqb_spec j i) as [->|]; cbn; auto.
  + intro j. cbn. destruct (yi_resp _ _ K j) as (_ & T & _). cbn [fst] in T. unfold att_set in *.
    destruct (Nat.eqb j i); cbn; auto.
  + intros j P. destruct (yi_resp _ _ K j) as (_ & _ & _ & T). specialize (T P). cbn [fst] in T. unfold att_set in *.
    destruct (Nat.eqb j i); cbn; auto.
Qed.

Lemma y_pop_inv : forall s a q, yinv s (a, q) ->
  fst (y_pop s) = hd_error q /\ yinv (snd (y_pop s)) (a, tl q).
Proof.
  intros s a q H. pose proof H as [F L C ND ST R]. cbn [fst snd] in *. unfold y_pop.
  destruct q as [|[i x] q]; cbn [map fst hdp] in F; rewrite F; cbn [fst snd hd_error tl]; [auto|].
  split; [now rewrite (ST i x) by (now left)|].
  pose proof (y_unlink_inv s a ((i, x) :: q) i H) as K. cbn [map fst chain] in C. destruct C as (Pi & Ni & _).
  replace (q_remove ((i, x) :: q) i) with q in K.
  - unfold y_unlink in K. rewrite Pi in K. apply K. unfold pending. cbn. now rewrite Nat.eqb_refl.
  - unfold q_remove. cbn. rewrite Nat.eqb_refl. cbn. symmetry. apply remove_out. apply pending_out.
    now inversion ND.
Qed.

Lemma statuses_set : forall s q i st, NoDup (map fst q) -> statuses_ok s q ->
  statuses_ok (upd_resp s i (fun r => r <| v_status := st |>)) (map (fun e => if Nat.eqb (fst e) i then (i, st) else e) q).
Proof.
  intros s q i st ND ST j y J. apply in_map_iff in J. destruct J as ([k z] & E & I). cbn in E.
  rewrite upd_get. destruct (Nat.eqb_spec k i) as [->|NE].
  - injection E as <- <-. now rewrite Nat.eqb_refl.
  - injection E as <- <-. destruct (Nat.eqb_spec k i); [congruence|]. now apply ST.
Qed.

Lemma pending_trigger : forall q i st j, pending (q_trigger q i st) j = pending q j || Nat.eqb j i.
Proof.
  intros q i st j. apply eq_true_iff_eq. rewrite orb_true_iff, !pending_in, trigger_fst, Nat.eqb_eq.
  destruct (pending q i) eqn:P.
  - apply pending_in in P. split; [auto|intros [?| ->]; auto].
  - rewrite in_app_iff. cbn. intuition.
Qed.

(* Putting event i at the end of a list *)
Lemma chain_snoc : forall (nx pv nx' pv' : nat -> option nat) l i, NoDup l -> ~ In i l ->
  nx' i = None -> pv' i = lstp None l ->
  (forall j, In j l -> pv' j = pv j) ->
  (forall j, In j l -> nx' j = if ptr_is (lstp None l) j then Some i else nx j) ->
  chain nx pv None l None -> chain nx' pv' None (l ++ [i]) None.
Proof.
  intros nx pv nx' pv' l i ND NI N P EP EN C. apply chain_app. cbn [hdp chain]. split; [|auto].
  eapply chain_end; eauto.
Qed.

Lemma nodup_snoc : forall (l : list nat) i, NoDup l -> ~ In i l -> NoDup (l ++ [i]).
Proof.
  intros l i ND NI. rewrite <- (rev_involutive (l ++ [i])), rev_app_distr. apply NoDup_rev. cbn.
  constructor; [now rewrite <- in_rev|now apply NoDup_rev].
Qed.

Lemma hdp_snoc : forall l i, hdp (l ++ [i]) None = match l with [] => Some i | x :: _ => Some x end.
Proof. now intros [|x l] i. Qed.

Lemma y_trigger_inv : forall s a q i st, yinv s (a, q) ->
  exists s', triggerEvent i st s = Ok s' /\ yinv s' (a, if a i then q_trigger q i st else q).
Proof.
  intros s a q i st H. pose proof H as [F L C ND ST R]. cbn [fst snd] in *. destruct (R i) as (R1 & R2 & R3 & R4).
  unfold triggerEvent, base_trigger. rewrite R1.
  set (s1 := upd_resp s i (fun r => r <| v_status := st |>)).
  assert (G : forall j, v_next (s_resp s1 j) = v_next (s_resp s j) /\ v_prev (s_resp s1 j) = v_prev (s_resp s j) /\
             v_trig (s_resp s1 j) = v_trig (s_resp s j) /\ v_polled (s_resp s1 j) = v_polled (s_resp s j) /\
             v_type (s_resp s1 j) = v_type (s_resp s j)).
  { intro j. unfold s1. rewrite upd_get. destruct (Nat.eqb_spec j i) as [->|]; cbn; auto 10. }
  destruct (G i) as (Gn & Gp & Gt & Go & Gy). rewrite Gy, Gt, R2, R3.
  destruct (a i) eqn:A.
  - destruct (pending q i) eqn:P.
    + cbn [bind]. rewrite Gy, R2. cbn [is_detached]. eexists. split; [reflexivity|].
      unfold q_trigger. rewrite P.
      assert (FE : map fst (map (fun e => if Nat.eqb (fst e) i then (i, st) else e) q) = map fst q).
      { rewrite map_map. apply map_ext. intros [j x]. cbn. now destruct (Nat.eqb_spec j i). }
      assert (PE : forall j, pending (map (fun e => if Nat.eqb (fst e) i then (i, st) else e) q) j = pending q j).
      { intro j. apply eq_true_iff_eq. now rewrite !pending_in, FE. }
      constructor; cbn [fst snd]; rewrite ?FE; auto.
      * eapply chain_ext; [|exact C]. intros j _. destruct (G j) as (E1 & E2 & _). now rewrite E1, E2.
      * now apply statuses_set.
      * intro j. rewrite PE. destruct (G j) as (_ & _ & -> & -> & ->). apply R.
    + assert (NI : ~ In i (map fst q)) by (now apply pending_out).
      assert (Y : exists s2, y_link i s1 = Ok s2 /\ s_yfirst s2 = hdp (map fst q ++ [i]) None /\ s_ylast s2 = Some i /\
                  (forall j, same_but_y (s_resp s1 j) (s_resp s2 j)) /\
                  v_next (s_resp s2 i) = None /\ v_prev (s_resp s2 i) = lstp None (map fst q) /\
                  (forall j, In j (map fst q) -> v_prev (s_resp s2 j) = v_prev (s_resp s j)) /\
                  (forall j, In j (map fst q) -> v_next (s_resp s2 j) = if ptr_is (lstp None (map fst q)) j then Some i else v_next (s_resp s j))).
      { unfold y_link. change (s_yfirst s1) with (s_yfirst s). change (s_ylast s1) with (s_ylast s). rewrite F, L.
        rewrite hdp_snoc. destruct (map fst q) as [|x l] eqn:Q; cbn [hdp].
        - eexists. split; [reflexivity|]. split; [reflexivity|]. split; [reflexivity|]. split.
          { intro j. rewrite upd_get. destruct (Nat.eqb_spec j i) as [->|]; cbn; repeat split; reflexivity. }
          split; [now rewrite upd_same|]. split; [now rewrite upd_same|]. split; intros j [].
        - destruct (lstp_cons (x :: l) None ltac:(discriminate)) as (m & M & IM). rewrite M.
          assert (MI : m <> i) by congruence.
          eexists. split; [reflexivity|]. split; [exact F|]. split; [reflexivity|].
          assert (GG : forall j, let t := upd_resp (upd_resp s1 i (fun r => r <| v_next := None |> <| v_prev := Some m |>)) m (fun r => r <| v_next := Some i |>) in
             same_but_y (s_resp s1 j) (s_resp t j) /\
             v_next (s_resp t j) = (if Nat.eqb j m then Some i else if Nat.eqb j i then None else v_next (s_resp s1 j)) /\
             v_prev (s_resp t j) = (if Nat.eqb j i then Some m else v_prev (s_resp s1 j))).
          { intros j t. unfold t. rewrite !upd_get.
            destruct (Nat.eqb_spec j m), (Nat.eqb_spec j i), (Nat.eqb_spec m i); subst; cbn; try congruence; repeat split; reflexivity. }
          cbn [s_resp]. split; [intro j; apply GG|].
          split; [etransitivity; [apply GG|]; destruct (Nat.eqb_spec i m); [congruence|]; now rewrite Nat.eqb_refl|].
          split; [etransitivity; [apply GG|]; now rewrite Nat.eqb_refl|].
          split; intros j J; (etransitivity; [apply GG|]); (assert (j <> i) by congruence);
            rewrite (proj2 (Nat.eqb_neq j i)) by auto; destruct (G j) as (G1 & G2 & _); rewrite ?G1, ?G2; [reflexivity|].
          cbn [ptr_is]. now rewrite Nat.eqb_sym. }
      destruct Y as (s2 & E2 & Y1 & Y2 & Y3 & Y4 & Y5 & Y6 & Y7). rewrite E2. cbn [bind].
      rewrite upd_same. cbn [v_type set]. destruct (Y3 i) as (_ & _ & T & _). cbn. rewrite T, Gy, R2. cbn [is_detached].
      eexists. split; [reflexivity|].
      assert (X : forall j, let t := upd_resp s2 i (fun r => r <| v_trig := true |>) in
        v_next (s_resp t j) = v_next (s_resp s2 j) /\ v_prev (s_resp t j) = v_prev (s_resp s2 j) /\
        v_status (s_resp t j) = v_status (s_resp s1 j) /\ v_type (s_resp t j) = v_type (s_resp s1 j) /\
        v_polled (s_resp t j) = v_polled (s_resp s1 j) /\ v_trig (s_resp t j) = (v_trig (s_resp s1 j) || Nat.eqb j i)).
      { intros j t. unfold t. rewrite upd_get. destruct (Y3 j) as (T1 & T2 & T3 & T4 & T5).
        destruct (Nat.eqb_spec j i) as [->|]; cbn; rewrite ?orb_true_r, ?orb_false_r; auto 10. }
      set (t := upd_resp s2 i (fun r => r <| v_trig := true |>)) in *. cbn zeta in X.
      assert (TF : s_yfirst t = s_yfirst s2 /\ s_ylast t = s_ylast s2) by (split; reflexivity). destruct TF as [TF TL].
      change (set v_trig (fun _ => true)) with (fun r : resp => r <| v_trig := true |>). fold t. clearbody t.
      pose proof (trigger_fst q i st) as FE. rewrite P in FE.
      constructor; cbn [fst snd]; rewrite ?FE.
      * now rewrite TF.
      * rewrite TL, Y2, lstp_app. reflexivity.
      * eapply chain_snoc; [exact ND|exact NI| | | | |exact C].
        -- destruct (X i) as (-> & _). exact Y4.
        -- destruct (X i) as (_ & -> & _). exact Y5.
        -- intros j J. destruct (X j) as (_ & -> & _). auto.
        -- intros j J. destruct (X j) as (-> & _). auto.
      * now apply nodup_snoc.
      * intros j y J. destruct (X j) as (_ & _ & -> & _). unfold q_trigger in J. rewrite P in J. apply in_app_or in J.
        unfold s1. rewrite upd_get. destruct J as [J|[J|[]]].
        -- destruct (Nat.eqb_spec j i) as [->|]; [|now apply ST]. exfalso. apply NI. apply in_map_iff. now exists (i, y).
        -- injection J as <- <-. now rewrite Nat.eqb_refl.
      * intro j. rewrite pending_trigger. destruct (X j) as (_ & _ & _ & -> & -> & ->).
        destruct (G j) as (_ & _ & -> & -> & ->). destruct (R j) as (Q1 & Q2 & Q3 & Q4). rewrite Q3. repeat split; auto.
        intros PJ. apply orb_true_iff in PJ. destruct PJ as [PJ|PJ]; [auto|]. apply Nat.eqb_eq in PJ. now subst.
  - assert (P : pending q i = false) by (destruct (pending q i); [now specialize (R4 eq_refl)|auto]). rewrite P.
    cbn [bind]. rewrite upd_same.
    match goal with |- context [is_detached ?t] => replace t with TDetached
      by (transitivity (v_type (s_resp s1 i)); [now rewrite Gy, R2|reflexivity]) end. cbn [is_detached].
    eexists. split; [reflexivity|]. eapply yinv_ext; [exact H|reflexivity|reflexivity| | | |].
    + intro j. cbn. destruct (Nat.eqb_spec j i) as [->|]; cbn; rewrite ?Nat.eqb_refl; cbn; rewrite ?R3, ?P; auto.
    + intros j PJ. cbn. destruct (Nat.eqb_spec j i) as [->|]; [congruence|]. reflexivity.
    + intro j. cbn. destruct (Nat.eqb_spec j i) as [->|]; cbn; rewrite ?Nat.eqb_refl; cbn; [now rewrite R2, A|apply R].
    + intros j PJ. now apply R.
Qed.

Lemma y_step : forall o s x, yinv s x ->
  exists s', yop_run o s = Ok (fst (yop_spec o x), s') /\ yinv s' (snd (yop_spec o x)).
Proof.
  intros o s [a q] H. destruct o as [i st|i|i|i|]; cbn [yop_run yop_spec fst snd].
  - destruct (y_trigger_inv s a q i st H) as (s' & E & K). exists s'. rewrite E. auto.
  - eexists. split; [reflexivity|]. now apply y_clear_inv.
  - eexists. split; [reflexivity|]. now apply y_attach_inv.
  - unfold detach. destruct (yi_resp _ _ H i) as (R1 & _). rewrite R1. cbn [bind].
    eexists. split; [reflexivity|]. now apply y_detach_inv.
  - destruct (y_pop_inv s a q H) as [E K]. destruct (y_pop s) as [e s']. cbn [fst snd] in *. subst e.
    exists s'. destruct q as [|e q]; cbn; auto.
Qed.

Lemma runs_specs : forall (S O R X : Type) (step : O -> S -> res (R * S)) (spec : O -> X -> R * X)
  (inv : S -> X -> Prop) (ok : O -> X -> Prop) l s x,
  (forall o s x, inv s x -> ok o x -> exists s', step o s = Ok (fst (spec o x), s') /\ inv s' (snd (spec o x))) ->
  inv s x -> (fix all l x := match l with [] => True | o :: l' => ok o x /\ all l' (snd (spec o x)) end) l x ->
  exists s', runs step l s = Ok (fst (specs spec l x), s') /\ inv s' (snd (specs spec l x)).
Proof.
  intros S O R X step spec inv ok. induction l as [|o l IH]; intros s x ST I A; cbn [runs specs].
  - exists s. auto.
  - destruct A as [A1 A2]. destruct (ST o s x I A1) as (s1 & E1 & I1). rewrite E1. cbn [bind].
    destruct (IH s1 (snd (spec o x)) ST I1 A2) as (s2 & E2 & I2). rewrite E2. cbn [bind].
    destruct (spec o x) as [b y]. cbn [fst snd] in *. destruct (specs spec l y) as [c z]. cbn [fst snd] in *. eauto.
Qed.

Lemma yinv0 : forall f, yinv (sys0 f) att_none.
Proof.
  intro f. constructor; cbn; [reflexivity|reflexivity|exact I|constructor|intros i x []|].
  intro i. repeat split; auto.
Qed.

Theorem yield_queue : forall f l, exists s', runs yop_run l (sys0 f) = Ok (fst (specs yop_spec l att_none), s').
Proof.
  intros f l. destruct (runs_specs _ _ _ _ yop_run yop_spec yinv (fun _ _ => True) l (sys0 f) att_none) as (s' & E & _).
  - intros o s x H _. now apply y_step.
  - apply yinv0.
  - generalize att_none. induction l as [|o l IH]; intro x; [exact I|]. split; [exact I|apply IH].
  - eauto.
Qed.

(* ---- polled mode ---- *)

Definition p_list (s : rsys) (l : list nat) : Prop :=
  s_pfirst s = hdp l None /\ (l <> [] -> s_plast s = lstp None l) /\
  chain (fun i => v_anext (s_resp s i)) (fun i => v_aprev (s_resp s i)) None l None /\ NoDup l /\
  (forall j, v_prev (s_resp s j) = None).

Lemma p_list_ext : forall s s' l, p_list s l -> s_pfirst s' = s_pfirst s -> s_plast s' = s_plast s ->
  (forall j, v_anext (s_resp s' j) = v_anext (s_resp s j) /\ v_aprev (s_resp s' j) = v_aprev (s_resp s j) /\
             v_prev (s_resp s' j) = v_prev (s_resp s j)) -> p_list s' l.
Proof.
  intros s s' l (F & L & C & ND & PV) EF EL E. repeat split; auto.
  - congruence.
  - intro N. rewrite EL. auto.
  - eapply chain_ext; [|exact C]. intros j _. destruct (E j) as (-> & -> & _). auto.
  - intro j. destruct (E j) as (_ & _ & ->). auto.
Qed.

Lemma remove_first : forall s i l, p_list s (i :: l) ->
  exists s', removeFromList i s = Ok s' /\ p_list s' l /\ forall j, same_but_p (s_resp s j) (s_resp s' j).
Proof.
  intros s i l (F & L & C & ND & PV). cbn [chain] in C. destruct C as (Pi & Ni & C).
  inversion ND as [|x0 l0 NI ND']; subst x0 l0. cbn [hdp] in F. specialize (L ltac:(discriminate)).
  unfold removeFromList. rewrite F. cbn [ptr_is]. rewrite Nat.eqb_refl.
  set (s1 := s <| s_pfirst := v_anext (s_resp s i) |>).
  change (s_plast s1) with (s_plast s). rewrite L.
  destruct l as [|n l]; cbn [lstp hdp] in *.
  - cbn [ptr_is]. rewrite Nat.eqb_refl. cbn. rewrite Ni. cbn. rewrite PV. eexists. split; [reflexivity|]. split.
    + repeat split; cbn; auto.
    + intro j. repeat split; reflexivity.
  - assert (LN : exists m, lstp (Some n) l = Some m /\ m <> i).
    { destruct l as [|k l]; [exists n; split; [reflexivity|]; intros ->; apply NI; now left|].
      destruct (lstp_cons (k :: l) (Some n) ltac:(discriminate)) as (m & E & I). exists m. split; [exact E|].
      intros ->. apply NI. now right. }
    destruct LN as (m & LM & MI). rewrite LM. cbn [ptr_is]. rewrite (proj2 (Nat.eqb_neq m i)) by auto.
    cbn -[upd_resp]. rewrite Ni, Pi.
    assert (NE : n <> i) by (intros ->; apply NI; now left).
    rewrite upd_other by auto. cbn. rewrite PV. eexists. split; [reflexivity|].
    assert (X : forall j, let s' := upd_resp s1 n (fun r => r <| v_aprev := None |>) in
      same_but_p (s_resp s j) (s_resp s' j) /\ v_anext (s_resp s' j) = v_anext (s_resp s j) /\
      v_aprev (s_resp s' j) = if Nat.eqb n j then None else v_aprev (s_resp s j)).
    { intros j s'. unfold s'. rewrite upd_get. cbn. rewrite (Nat.eqb_sym n j). destruct (Nat.eqb_spec j n) as [->|]; cbn; repeat split; reflexivity. }
    cbn zeta in X. split; [|intro j; apply X]. split; [exact Ni|]. split.
    { intros _. cbn [lstp]. rewrite <- L. reflexivity. }
    split; [|split; [exact ND'|]].
    + eapply (chain_begin _ _ _ _ (n :: l)); [exact ND'| | |exact C].
      * intros j _. apply X.
      * intros j _. cbn [hdp ptr_is]. apply X.
    + intro j. destruct (X j) as ((_ & ->) & _). apply PV.
Qed.

Lemma add_last : forall s i l, p_list s l -> ~ In i l ->
  exists s', addToList i s = Ok s' /\ p_list s' (l ++ [i]) /\ forall j, same_but_p (s_resp s j) (s_resp s' j).
Proof.
  intros s i l (F & L & C & ND & PV) NI. unfold addToList. rewrite F.
  destruct l as [|x l].
  - cbn [hdp bind]. eexists. split; [reflexivity|]. split.
    + repeat split; cbn.
      * now rewrite Nat.eqb_refl.
      * now rewrite Nat.eqb_refl.
      * constructor; [auto|constructor].
      * intro j. destruct (Nat.eqb j i); cbn; rewrite ?Nat.eqb_refl; cbn; auto.
    + intro j. cbn. destruct (Nat.eqb_spec j i) as [->|]; cbn; rewrite ?Nat.eqb_refl; cbn; repeat split; reflexivity.
  - cbn [hdp]. specialize (L ltac:(discriminate)). rewrite L.
    destruct (lstp_cons (x :: l) None ltac:(discriminate)) as (m & M & IM). rewrite M. cbn [bind].
    assert (MI : m <> i) by congruence.
    eexists. split; [reflexivity|].
    match goal with |- p_list ?t _ /\ _ => set (s' := t) end.
    assert (X : forall j, same_but_p (s_resp s j) (s_resp s' j) /\
      v_anext (s_resp s' j) = (if Nat.eqb j i then None else if Nat.eqb m j then Some i else v_anext (s_resp s j)) /\
      v_aprev (s_resp s' j) = if Nat.eqb j i then Some m else v_aprev (s_resp s j)).
    { intros j. unfold s'. cbn. rewrite (Nat.eqb_sym m j).
      destruct (Nat.eqb_spec j i), (Nat.eqb_spec j m), (Nat.eqb_spec m i), (Nat.eqb_spec i m); subst; cbn; rewrite ?Nat.eqb_refl; cbn; try congruence; repeat split; reflexivity. }
    assert (SF : s_pfirst s' = s_pfirst s /\ s_plast s' = Some i) by (split; reflexivity). clearbody s'.
    split; [|intro j; apply X]. destruct SF as [SF SL].
    split; [now rewrite SF, F|]. split; [intros _; rewrite SL, lstp_app; reflexivity|].
    split; [|split; [now apply nodup_snoc|intro j; destruct (X j) as ((_ & ->) & _); apply PV]].
    eapply chain_snoc; [exact ND|exact NI| | | | |exact C].
    + destruct (X i) as (_ & -> & _). now rewrite Nat.eqb_refl.
    + destruct (X i) as (_ & _ & ->). now rewrite Nat.eqb_refl.
    + intros j J. destruct (X j) as (_ & _ & ->). rewrite (proj2 (Nat.eqb_neq j i)) by congruence. reflexivity.
    + intros j J. destruct (X j) as (_ & -> & _). rewrite (proj2 (Nat.eqb_neq j i)) by congruence. rewrite M. reflexivity.
Qed.

Record pinv (s : rsys) (x : att_queue) : Prop := mkPinv {
  pi_list : p_list s (map fst (snd x));
  pi_stat : statuses_ok s (snd x);
  pi_resp : forall i, v_polled (s_resp s i) = fst x i /\
              v_type (s_resp s i) = (if fst x i then TImmediate else TDetached) /\
              (fst x i = true -> v_fun (s_resp s i) = true /\ v_trig (s_resp s i) = pending (snd x) i) /\
              (pending (snd x) i = true -> fst x i = true) }.

(* A change to responder i only, that is not pending, leaving the lists alone *)
Lemma pinv_upd : forall s a q i g b, pinv s (a, q) -> pending q i = false ->
  (forall r, v_anext (g r) = v_anext r /\ v_aprev (g r) = v_aprev r /\ v_prev (g r) = v_prev r) ->
  v_polled (g (s_resp s i)) = b -> v_type (g (s_resp s i)) = (if b then TImmediate else TDetached) ->
  (b = true -> v_fun (g (s_resp s i)) = true /\ v_trig (g (s_resp s i)) = false) ->
  pinv (upd_resp s i g) (att_set a i b, q).
Proof.
  intros s a q i g b [L ST R] P G GP GT GF. cbn [fst snd] in *. constructor; cbn [fst snd].
  - eapply p_list_ext; [exact L|reflexivity|reflexivity|]. intro j. rewrite upd_get.
    destruct (Nat.eqb_spec j i) as [->|]; auto.
  - intros j y J. rewrite upd_get. destruct (Nat.eqb_spec j i) as [->|]; [|now apply ST].
    apply pending_out in P. exfalso. apply P. apply in_map_iff. now exists (i, y).
  - intro j. rewrite upd_get. unfold att_set. destruct (Nat.eqb_spec j i) as [->|]; [|apply R].
    split; [auto|]. split; [auto|]. rewrite P. split; [auto|discriminate].
Qed.

Lemma pinv_att : forall s a a' q, pinv s (a, q) -> (forall i, a' i = a i) -> pinv s (a', q).
Proof.
  intros s a a' q [L ST R] E. constructor; cbn [fst snd] in *; auto. intro i. rewrite E. apply R.
Qed.
Lemma att_same : forall a i j, att_set a i (a i) j = a j.
Proof. intros a i j. unfold att_set. destruct (Nat.eqb_spec j i); now subst. Qed.

Lemma p_clear_inv : forall s a q i, pinv s (a, q) -> pending q i = false ->
  pinv (clearEvent i s) (a, q) /\ v_trig (s_resp (clearEvent i s) i) = false.
Proof.
  intros s a q i H P. pose proof (pi_resp _ _ H i) as (R1 & R2 & R3 & R4). cbn [fst snd] in *.
  unfold clearEvent. destruct (v_trig (s_resp s i)) eqn:T; [|auto].
  assert (A : a i = false) by (destruct (a i); [destruct (R3 eq_refl); congruence|auto]). rewrite A in *.
  rewrite R2. split; [|rewrite upd_same; reflexivity].
  eapply pinv_att; [apply (pinv_upd s a q i _ false H P)|]; auto.
  - discriminate.
  - intro j. rewrite <- A. symmetry. apply att_same.
Qed.

Lemma p_detach_out : forall s a q i, pinv s (a, q) -> pending q i = false ->
  exists s', detach i s = Ok s' /\ pinv s' (att_set a i false, q) /\ v_trig (s_resp s' i) = v_trig (s_resp s i).
Proof.
  intros s a q i H P. pose proof (pi_resp _ _ H i) as (R1 & R2 & R3 & R4). cbn [fst snd] in *.
  unfold detach. rewrite R1. destruct (a i) eqn:A.
  - destruct (R3 eq_refl) as [_ T]. rewrite upd_same. cbn. rewrite T, P. eexists. split; [reflexivity|]. split.
    + apply pinv_upd; auto. discriminate.
    + rewrite upd_same. cbn. now rewrite T, P.
  - unfold base_detach. rewrite R2. eexists. split; [reflexivity|]. split; [|reflexivity].
    eapply pinv_att; [exact H|]. intro j. rewrite <- A. apply att_same.
Qed.

Lemma p_step : forall o s x, pinv s x -> calm o (snd x) ->
  exists s', pop_run o s = Ok (fst (pop_spec o x), s') /\ pinv s' (snd (pop_spec o x)).
Proof.
  intros o s [a q] H CA. destruct o as [i st| |i|i|i]; cbn [pop_run pop_spec fst snd calm] in *.
  - pose proof H as [L ST R]. pose proof (R i) as (R1 & R2 & R3 & R4). cbn [fst snd] in *. unfold triggerEvent.
    rewrite R1. set (s1 := upd_resp s i (fun r => r <| v_status := st |>)).
    assert (G : forall j, v_trig (s_resp s1 j) = v_trig (s_resp s j) /\ v_polled (s_resp s1 j) = v_polled (s_resp s j) /\
             v_type (s_resp s1 j) = v_type (s_resp s j) /\ v_fun (s_resp s1 j) = v_fun (s_resp s j)).
    { intro j. unfold s1. rewrite upd_get. destruct (Nat.eqb_spec j i) as [->|]; cbn; auto 10. }
    assert (L1 : p_list s1 (map fst q)).
    { eapply p_list_ext; [exact L|reflexivity|reflexivity|]. intro j. unfold s1. rewrite upd_get. destruct (Nat.eqb_spec j i) as [->|]; auto. }
    assert (ND : NoDup (map fst q)) by apply L.
    destruct (a i) eqn:A.
    + destruct (R3 eq_refl) as [RF RT]. destruct (G i) as (Gt & Gp & Gy & Gf). rewrite Gt, RT.
      destruct (pending q i) eqn:P.
      * cbn [bind]. rewrite Gy, R2. cbn [is_detached]. eexists. split; [reflexivity|].
        pose proof (trigger_fst q i st) as FE. rewrite P in FE.
        constructor; cbn [fst snd]; rewrite ?FE; auto.
        -- unfold q_trigger. rewrite P. now apply statuses_set.
        -- intro j. destruct (G j) as (-> & -> & -> & ->). rewrite pending_trigger.
           destruct (R j) as (Q1 & Q2 & Q3 & Q4). destruct (Nat.eqb_spec j i) as [->|]; rewrite ?P, ?orb_false_r; auto.
      * assert (NI : ~ In i (map fst q)) by (now apply pending_out).
        destruct (add_last s1 i _ L1 NI) as (s2 & E2 & L2 & SB). rewrite E2. cbn [bind].
        set (s3 := upd_resp s2 i (fun r => r <| v_trig := true |>)).
        assert (X : forall j, v_status (s_resp s3 j) = v_status (s_resp s1 j) /\ v_type (s_resp s3 j) = v_type (s_resp s j) /\
                   v_polled (s_resp s3 j) = v_polled (s_resp s j) /\ v_fun (s_resp s3 j) = v_fun (s_resp s j) /\
                   v_trig (s_resp s3 j) = v_trig (s_resp s j) || Nat.eqb j i).
        { intro j. unfold s3. rewrite upd_get. destruct (SB j) as ((T1 & T2 & T3 & T4 & T5) & _). destruct (G j) as (G1 & G2 & G3 & G4).
          rewrite <- G1, <- G2, <- G3, <- G4.
          destruct (Nat.eqb_spec j i) as [->|]; cbn; rewrite ?orb_true_r, ?orb_false_r; auto 10. }
        destruct (X i) as (_ & X2 & _). rewrite X2, R2. cbn [is_detached]. eexists. split; [reflexivity|].
        pose proof (trigger_fst q i st) as FE. rewrite P in FE.
        constructor; cbn [fst snd]; rewrite ?FE.
        -- eapply p_list_ext; [exact L2|reflexivity|reflexivity|]. intro j. unfold s3. rewrite upd_get. destruct (Nat.eqb_spec j i) as [->|]; auto.
        -- intros j y J. destruct (X j) as (-> & _). unfold q_trigger in J. rewrite P in J. apply in_app_or in J.
           unfold s1. rewrite upd_get. destruct J as [J|[J|[]]].
           ++ destruct (Nat.eqb_spec j i) as [->|]; [|now apply ST]. exfalso. apply NI. apply in_map_iff. now exists (i, y).
           ++ injection J as <- <-. now rewrite Nat.eqb_refl.
        -- intro j. rewrite pending_trigger. destruct (X j) as (_ & -> & -> & -> & ->).
           destruct (R j) as (Q1 & Q2 & Q3 & Q4). split; [auto|]. split; [auto|]. split.
           ++ intro AJ. destruct (Q3 AJ) as [-> ->]. auto.
           ++ intros PJ. apply orb_true_iff in PJ. destruct PJ as [PJ|PJ]; [auto|]. apply Nat.eqb_eq in PJ. now subst.
    + assert (P : pending q i = false) by (destruct (pending q i); [now specialize (R4 eq_refl)|auto]).
      unfold base_trigger. fold s1. destruct (G i) as (Gt & Gp & Gy & Gf). rewrite Gy, R2.
      assert (K : exists s2, (if v_trig (s_resp s1 i) then Ok s1 else s2 <- Ok s1;; Ok (upd_resp s2 i (fun q0 : resp => q0 <| v_trig := true |>))) = Ok s2 /\
                 s2 = upd_resp s1 i (fun r => r <| v_trig := true |>) \/
                 (if v_trig (s_resp s1 i) then Ok s1 else s2 <- Ok s1;; Ok (upd_resp s2 i (fun q0 : resp => q0 <| v_trig := true |>))) = Ok s2 /\ s2 = s1).
      { destruct (v_trig (s_resp s1 i)); [exists s1; auto|eexists; left; split; reflexivity]. }
      assert (H1 : pinv s1 (att_set a i false, q)).
      { apply pinv_upd; auto; discriminate. }
      assert (AA : forall s', pinv s' (att_set a i false, q) -> pinv s' (a, q)).
      { intros s' K'. eapply pinv_att; [exact K'|]. intro j. rewrite <- A. symmetry. apply att_same. }
      destruct K as (s2 & [[E ->]|[E ->]]); rewrite E; cbn [bind].
      * rewrite upd_same. match goal with |- context [is_detached ?t] => replace t with TDetached
          by (transitivity (v_type (s_resp s1 i)); [now rewrite Gy, R2|reflexivity]) end. cbn [is_detached].
        eexists. split; [reflexivity|]. apply AA. 
        assert (H2 : pinv (upd_resp s1 i (fun r => r <| v_trig := true |>)) (att_set (att_set a i false) i false, q)).
        { apply pinv_upd; auto; [exact (eq_trans Gp R1)|exact (eq_trans Gy R2)|discriminate]. }
        eapply pinv_att; [apply (pinv_upd _ _ q i _ false H2 P)|]; auto.
        -- rewrite upd_same. exact (eq_trans Gp R1).
        -- rewrite upd_same. exact (eq_trans Gy R2).
        -- discriminate.
        -- intro j. unfold att_set. now destruct (Nat.eqb j i).
      * rewrite Gy, R2. cbn [is_detached]. eexists. split; [reflexivity|]. apply AA.
        eapply pinv_att; [apply (pinv_upd _ _ q i _ false H1 P)|]; auto.
        -- exact (eq_trans Gp R1).
        -- exact (eq_trans Gy R2).
        -- discriminate.
        -- intro j. unfold att_set. now destruct (Nat.eqb j i).
  - pose proof H as [L ST R]. cbn [fst snd] in *. unfold runPolled. pose proof L as (F & _). rewrite F.
    destruct q as [|[i x] q]; cbn [map fst hdp].
    + cbn. exists s. auto.
    + destruct (remove_first s i (map fst q) L) as (s1 & E1 & L1 & SB). rewrite E1. cbn [bind fst snd].
      set (s2 := upd_resp s1 i (fun r => r <| v_trig := false |>)).
      assert (ND : ~ In i (map fst q)) by (destruct L as (_ & _ & _ & ND & _); now inversion ND).
      destruct (R i) as (R1 & R2 & R3 & R4). assert (A : a i = true) by (apply R4; unfold pending; cbn; now rewrite Nat.eqb_refl).
      assert (X : forall j, v_status (s_resp s2 j) = v_status (s_resp s j) /\ v_type (s_resp s2 j) = v_type (s_resp s j) /\
                 v_polled (s_resp s2 j) = v_polled (s_resp s j) /\ v_fun (s_resp s2 j) = v_fun (s_resp s j) /\
                 v_trig (s_resp s2 j) = if Nat.eqb j i then false else v_trig (s_resp s j)).
      { intro j. unfold s2. rewrite upd_get. destruct (SB j) as ((T1 & T2 & T3 & T4 & T5) & _).
        destruct (Nat.eqb_spec j i) as [->|]; cbn; auto 10. }
      destruct (X i) as (X1 & _ & _ & X4 & _). destruct (R3 A) as [RF _]. rewrite X1, X4, RF.
      rewrite (ST i x) by (now left).
      assert (FN : match s_pfirst s2 with None => 0 | Some _ => 1 end = match q with [] => 0 | _ => 1 end).
      { change (s_pfirst s2) with (s_pfirst s1). destruct L1 as (-> & _). now destruct q as [|[? ?] ?]. }
      rewrite FN. exists s2. split; [reflexivity|].
      constructor; cbn [fst snd].
      * eapply p_list_ext; [exact L1|reflexivity|reflexivity|]. intro j. unfold s2. rewrite upd_get. destruct (Nat.eqb_spec j i) as [->|]; auto.
      * intros j y J. destruct (X j) as (-> & _). apply ST. now right.
      * intro j. destruct (X j) as (_ & -> & -> & -> & ->). destruct (R j) as (Q1 & Q2 & Q3 & Q4).
        assert (PE : Nat.eqb j i = false -> pending ((i, x) :: q) j = pending q j).
        { intro NE. unfold pending. cbn. now rewrite (Nat.eqb_sym i j), NE. }
        split; [auto|]. split; [auto|]. destruct (Nat.eqb_spec j i) as [->|NE].
        -- rewrite (proj2 (pending_out q i) ND). split; [intros _; auto|discriminate].
        -- rewrite <- PE by reflexivity. auto.
  - rewrite remove_out by auto. destruct (p_clear_inv s a q i H CA). eauto.
  - rewrite remove_out by auto. destruct (p_clear_inv s a q i H CA) as [K T].
    set (s1 := clearEvent i s) in *. clearbody s1. unfold attachPolled.
    destruct (p_detach_out s1 a q i K CA) as (s2 & E & K2 & T2). rewrite E. cbn [bind]. eexists. split; [reflexivity|].
    eapply pinv_att; [apply (pinv_upd _ _ q i _ true K2 CA)|]; auto.
    + intros _. split; [reflexivity|]. cbn. congruence.
    + intro j. unfold att_set. now destruct (Nat.eqb j i).
  - destruct CA as [P|(st & q' & ->)].
    + rewrite remove_out by auto. destruct (p_detach_out s a q i H P) as (s2 & E & K2 & _). rewrite E. cbn [bind]. eauto.
    + pose proof H as [L ST R]. cbn [fst snd map] in *. destruct (R i) as (R1 & R2 & R3 & R4).
      assert (PI : pending ((i, st) :: q') i = true) by (unfold pending; cbn; now rewrite Nat.eqb_refl).
      assert (A : a i = true) by auto. destruct (R3 A) as [RF RT].
      unfold detach. rewrite R1, A. rewrite upd_same. cbn -[upd_resp removeFromList pending]. rewrite RT, PI.
      set (s1 := upd_resp s i _).
      assert (L1 : p_list s1 (i :: map fst q')).
      { eapply p_list_ext; [exact L|reflexivity|reflexivity|]. intro j. unfold s1. rewrite upd_get. destruct (Nat.eqb_spec j i) as [->|]; auto. }
      destruct (remove_first s1 i _ L1) as (s2 & E2 & L2 & SB). rewrite E2. cbn [bind]. exists s2. split; [reflexivity|].
      assert (ND : ~ In i (map fst q')) by (destruct L as (_ & _ & _ & ND & _); now inversion ND).
      assert (RE : q_remove ((i, st) :: q') i = q').
      { unfold q_remove. cbn. rewrite Nat.eqb_refl. cbn. apply remove_out. now apply pending_out. }
      match goal with |- pinv _ (_, ?t) => change t with (q_remove ((i, st) :: q') i) end. rewrite RE.
      constructor; cbn [fst snd]; [exact L2| |].
      * intros j y J. destruct (SB j) as ((_ & -> & _) & _). unfold s1. rewrite upd_get.
        destruct (Nat.eqb_spec j i) as [->|]; apply ST; now right.
      * intro j. destruct (SB j) as ((S1 & S2 & S3 & S4 & S5) & _). rewrite S1, S3, S4, S5. unfold s1. rewrite upd_get. unfold att_set.
        destruct (Nat.eqb_spec j i) as [->|NE].
        -- cbn. split; [auto|]. split; [auto|]. split; [discriminate|]. intro PJ. apply pending_in in PJ. contradiction.
        -- destruct (R j) as (Q1 & Q2 & Q3 & Q4).
           assert (PE : pending ((i, st) :: q') j = pending q' j).
           { unfold pending. cbn. destruct (Nat.eqb_spec i j); [congruence|reflexivity]. }
           rewrite PE in *. auto.
Qed.

Lemma pinv0 : forall f, pinv (sys0 f) att_none.
Proof.
  intro f. constructor; cbn.
  - repeat split; try congruence; constructor.
  - intros i x [].
  - intro i. repeat split; discriminate.
Qed.

Theorem polled_queue : forall f l, calm_run l att_none ->
  exists s', runs pop_run l (sys0 f) = Ok (fst (specs pop_spec l att_none), s').
Proof.
  intros f l CA. destruct (runs_specs _ _ _ _ pop_run pop_spec pinv (fun o x => calm o (snd x)) l (sys0 f) att_none) as (s' & E & _).
  - intros o s x H C. now apply p_step.
  - apply pinv0.
  - exact CA.
  - eauto.
Qed.

Lemma runs_app : forall (S O R : Type) (step : O -> S -> res (R * S)) a b s,
  runs step (a ++ b) s = ('(o1, s1) <- runs step a s ;; '(o2, s2) <- runs step b s1 ;; Ok (o1 ++ o2, s2)).
Proof.
  intros S O R step. induction a as [|x a IH]; intros b s; cbn [app runs bind].
  - destruct (runs step b s) as [[o2 s2]| |]; reflexivity.
  - destruct (step x s) as [[o s1]| |]; cbn [bind]; auto. rewrite IH.
    destruct (runs step a s1) as [[o1 s2]| |]; cbn [bind]; auto.
    destruct (runs step b s2) as [[o2 s3]| |]; reflexivity.
Qed.
Arguments runs_app {S O R}.
Lemma events_app : forall a b, events_run (a ++ b) = events_run a ++ events_run b.
Proof. induction a as [|[[v [[i st]|]]|] a IH]; intro b; cbn; rewrite ?IH; reflexivity. Qed.

Lemma calm_served : forall l x, Forall served l -> calm_run l x.
Proof.
  induction l as [|o l IH]; intros x H; [exact I|]. apply Forall_cons_iff in H. destruct H as [H1 H2].
  split; [|now apply IH]. destruct o; cbn in *; tauto.
Qed.
Lemma calm_app : forall l1 l2 x, calm_run l1 x -> calm_run l2 (snd (specs pop_spec l1 x)) -> calm_run (l1 ++ l2) x.
Proof.
  induction l1 as [|o l1 IH]; intros l2 x C1 C2; cbn [app calm_run specs] in *; [exact C2|].
  destruct C1 as [C C1]. split; [exact C|]. apply IH; [exact C1|].
  destruct (pop_spec o x) as [a y]. cbn [snd] in *. destruct (specs pop_spec l1 y). exact C2.
Qed.
Theorem detach_first : forall f l1 l2 i st q, calm_run l1 att_none ->
  snd (snd (specs pop_spec l1 att_none)) = (i, st) :: q -> Forall served l2 ->
  exists s', runs pop_run (l1 ++ PDetach i :: l2) (sys0 f) = Ok (fst (specs pop_spec (l1 ++ PDetach i :: l2) att_none), s').
Proof.
  intros f l1 l2 i st q C Q SV. apply polled_queue. apply calm_app; [exact C|]. cbn [calm_run calm]. split.
  - rewrite Q. right. eauto.
  - now apply calm_served.
Qed.
Lemma calm_plays : forall ps l a, Forall served l -> calm_run (map PPlay ps ++ l) (a, []).
Proof.
  induction ps as [|i ps IH]; intros l a H; cbn [map app calm_run]; [now apply calm_served|].
  split; [reflexivity|]. cbn. now apply IH.
Qed.
Theorem polled_fifo : forall f ps l, Forall served l ->
  exists s', runs pop_run (map PPlay ps ++ l) (sys0 f) = Ok (fst (specs pop_spec (map PPlay ps ++ l) att_none), s').
Proof. intros f ps l H. apply polled_queue. now apply calm_plays. Qed.

(* A player marked as pending that is not in the list is never run *)
Record starved (j : nat) (s : rsys) (l : list nat) : Prop := mkStarved {
  sv_list : p_list s l;
  sv_out : ~ In j l;
  sv_trig : v_trig (s_resp s j) = true;
  sv_polled : v_polled (s_resp s j) = true;
  sv_types : forall i, v_type (s_resp s i) = if v_polled (s_resp s i) then TImmediate else TDetached;
  sv_in : forall i, In i l -> v_trig (s_resp s i) = true /\ v_polled (s_resp s i) = true }.

Lemma starved_ext : forall j s l s' l', starved j s l -> p_list s' l' -> ~ In j l' ->
  (forall k, v_type (s_resp s' k) = v_type (s_resp s k) /\ v_polled (s_resp s' k) = v_polled (s_resp s k)) ->
  v_trig (s_resp s' j) = true -> (forall k, In k l' -> v_trig (s_resp s' k) = true /\ v_polled (s_resp s' k) = true) ->
  starved j s' l'.
Proof.
  intros j s l s' l' [L O T P Y N] L' O' X T' N'. constructor; auto.
  - destruct (X j) as [_ ->]. auto.
  - intro k. destruct (X k) as [-> ->]. auto.
Qed.

(* a change of i's status or mark only *)
Lemma starved_upd : forall j s l i g, starved j s l ->
  (forall r, v_anext (g r) = v_anext r /\ v_aprev (g r) = v_aprev r /\ v_prev (g r) = v_prev r /\ v_type (g r) = v_type r /\
     v_polled (g r) = v_polled r) ->
  (v_polled (s_resp s i) = true -> v_trig (g (s_resp s i)) = v_trig (s_resp s i)) -> starved j (upd_resp s i g) l.
Proof.
  intros j s l i g H G GT. pose proof H as [L O T P Y N].
  assert (X : forall k, v_type (s_resp (upd_resp s i g) k) = v_type (s_resp s k) /\
    v_polled (s_resp (upd_resp s i g) k) = v_polled (s_resp s k) /\
    (v_polled (s_resp s k) = true -> v_trig (s_resp (upd_resp s i g) k) = v_trig (s_resp s k))).
  { intro k. rewrite upd_get. destruct (Nat.eqb_spec k i) as [->|]; [|auto].
    destruct (G (s_resp s i)) as (_ & _ & _ & E1 & E2). auto. }
  apply (starved_ext j s l); auto.
  - eapply p_list_ext; [exact L|reflexivity|reflexivity|]. intro k. rewrite upd_get.
    destruct (Nat.eqb_spec k i) as [->|]; [|auto]. destruct (G (s_resp s i)) as (E1 & E2 & E3 & _). auto.
  - intro k. destruct (X k) as (E1 & E2 & _). auto.
  - destruct (X j) as (_ & _ & E). now rewrite E.
  - intros k K. destruct (N k K) as [N1 N2]. destruct (X k) as (_ & E2 & E3). rewrite E2, E3; auto.
Qed.

Lemma starved_trigger : forall j s l i st, starved j s l ->
  exists s' l', triggerEvent i st s = Ok s' /\ starved j s' l'.
Proof.
  intros j s l i st H. unfold triggerEvent.
  assert (H1 : starved j (upd_resp s i (fun r => r <| v_status := st |>)) l).
  { apply starved_upd; auto. }
  set (s1 := upd_resp s i (fun r => r <| v_status := st |>)) in *.
  assert (PE : v_polled (s_resp s1 i) = v_polled (s_resp s i)) by (unfold s1; rewrite upd_same; reflexivity).
  destruct (v_polled (s_resp s i)) eqn:P.
  - destruct (v_trig (s_resp s1 i)) eqn:T.
    + cbn [bind]. rewrite (sv_types _ _ _ H1), PE. cbn [is_detached]. eauto.
    + assert (NI : ~ In i l) by (intro I; destruct (sv_in _ _ _ H1 i I); congruence).
      destruct (add_last s1 i l (sv_list _ _ _ H1) NI) as (s2 & E2 & L2 & SB). rewrite E2. cbn [bind].
      set (s3 := upd_resp s2 i (fun r => r <| v_trig := true |>)).
      assert (X : forall k, v_type (s_resp s3 k) = v_type (s_resp s1 k) /\ v_polled (s_resp s3 k) = v_polled (s_resp s1 k) /\
                v_trig (s_resp s3 k) = v_trig (s_resp s1 k) || Nat.eqb k i).
      { intro k. unfold s3. rewrite upd_get. destruct (SB k) as ((T1 & T2 & T3 & T4 & T5) & _).
        destruct (Nat.eqb_spec k i) as [->|]; cbn; rewrite ?orb_true_r, ?orb_false_r; auto. }
      destruct (X i) as (X1 & _). rewrite X1, (sv_types _ _ _ H1), PE. cbn [is_detached].
      exists s3, (l ++ [i]). split; [reflexivity|]. apply (starved_ext j s1 l); auto.
      * eapply p_list_ext; [exact L2|reflexivity|reflexivity|]. intro k. unfold s3. rewrite upd_get. destruct (Nat.eqb_spec k i) as [->|]; auto.
      * rewrite in_app_iff. cbn. intros [I|[<-|[]]]; [now apply (sv_out _ _ _ H1)|]. rewrite (sv_trig _ _ _ H1) in T. discriminate.
      * intro k. destruct (X k) as (E1 & E3 & _). auto.
      * destruct (X j) as (_ & _ & ->). now rewrite (sv_trig _ _ _ H1).
      * intros k K. destruct (X k) as (_ & -> & ->). apply in_app_or in K. destruct K as [K|[<-|[]]].
        -- destruct (sv_in _ _ _ H1 k K) as [-> ->]. auto.
        -- rewrite Nat.eqb_refl, orb_true_r. auto.
  - unfold base_trigger. fold s1. pose proof (sv_types _ _ _ H1 i) as TY. rewrite PE in TY. rewrite TY.
    assert (D : forall g, (forall r, v_anext (g r) = v_anext r /\ v_aprev (g r) = v_aprev r /\ v_prev (g r) = v_prev r /\ v_type (g r) = v_type r /\
       v_polled (g r) = v_polled r) -> forall t, starved j t l -> v_polled (s_resp t i) = false -> starved j (upd_resp t i g) l).
    { intros g G t K PT. apply starved_upd; auto. congruence. }
    destruct (v_trig (s_resp s1 i)) eqn:T; cbn [bind].
    + rewrite TY. cbn [is_detached]. exists (upd_resp s1 i (fun q => q <| v_trig := false |>)), l. split; [reflexivity|].
      apply D; auto.
    + set (s2 := upd_resp s1 i (fun r => r <| v_trig := true |>)).
      assert (TY2 : v_type (s_resp s2 i) = TDetached) by (unfold s2; rewrite upd_same; exact TY). rewrite TY2. cbn [is_detached].
      exists (upd_resp s2 i (fun q => q <| v_trig := false |>)), l. split; [reflexivity|]. apply D; auto.
      * apply D; auto.
      * unfold s2. rewrite upd_same. exact PE.
Qed.

Lemma starved_run : forall j s l, starved j s l ->
  exists v e s' l', runPolled s = Ok (v, e, s') /\ starved j s' l' /\ (forall i st, e = Some (i, st) -> i <> j).
Proof.
  intros j s l H. pose proof H as [L O T P Y N]. pose proof L as (F & _). unfold runPolled. rewrite F.
  destruct l as [|i l]; cbn [hdp].
  - do 3 eexists. exists []. split; [reflexivity|]. split; [exact H|discriminate].
  - destruct (remove_first s i l L) as (s1 & E1 & L1 & SB). rewrite E1. cbn [bind].
    set (s2 := upd_resp s1 i (fun r => r <| v_trig := false |>)). do 3 eexists. exists l. split; [reflexivity|].
    assert (NJ : i <> j) by (intros ->; apply O; now left).
    assert (NI : ~ In i l) by (destruct L as (_ & _ & _ & ND & _); now inversion ND).
    split; [|intros i' st E; destruct (v_fun (s_resp s2 i)); [injection E as <- _; auto|discriminate]].
    assert (X : forall k, v_type (s_resp s2 k) = v_type (s_resp s k) /\ v_polled (s_resp s2 k) = v_polled (s_resp s k) /\
                v_trig (s_resp s2 k) = if Nat.eqb k i then false else v_trig (s_resp s k)).
    { intro k. unfold s2. rewrite upd_get. destruct (SB k) as ((T1 & T2 & T3 & T4 & T5) & _).
      destruct (Nat.eqb_spec k i) as [->|]; cbn; auto. }
    apply (starved_ext j s (i :: l)); auto.
    + eapply p_list_ext; [exact L1|reflexivity|reflexivity|]. intro k. unfold s2. rewrite upd_get. destruct (Nat.eqb_spec k i) as [->|]; auto.
    + intro I. apply O. now right.
    + intro k. destruct (X k) as (E2 & E3 & _). auto.
    + destruct (X j) as (_ & _ & ->). rewrite (proj2 (Nat.eqb_neq j i)); auto.
    + intros k K. destruct (X k) as (_ & -> & ->). destruct (N k ltac:(now right)) as [N1 N2].
      rewrite (proj2 (Nat.eqb_neq k i)); [auto|]. intros ->. auto.
Qed.

Theorem starved_forever : forall l j s m, starved j s m -> Forall served l ->
  exists o s', runs pop_run l s = Ok (o, s') /\ ~ In j (events_run o).
Proof.
  induction l as [|p l IH]; intros j s m H SV; cbn [runs].
  - exists [], s. auto.
  - apply Forall_cons_iff in SV. destruct SV as [S1 S2]. destruct p as [i st| |i|i|i]; try destruct S1; cbn [pop_run].
    + destruct (starved_trigger j s m i st H) as (s1 & m1 & E1 & H1). rewrite E1. cbn [bind].
      destruct (IH j s1 m1 H1 S2) as (o & s' & E & N). rewrite E. cbn [bind]. do 2 eexists. split; [reflexivity|]. exact N.
    + destruct (starved_run j s m H) as (v & e & s1 & m1 & E1 & H1 & NE). rewrite E1. cbn [bind].
      destruct (IH j s1 m1 H1 S2) as (o & s' & E & N). rewrite E. cbn [bind]. do 2 eexists. split; [reflexivity|].
      cbn [events_run]. destruct e as [[i x]|]; [|exact N]. intros [->|I]; [now apply (NE j x)|auto].
Qed.

(* Players 0 and 1 have both been triggered; 0 is stopped and triggered again *)
Definition stop_between : list pop :=
  [PPlay 0; PPlay 1; PTrigger 0 1; PTrigger 1 1; PStop 0; PTrigger 0 1; PRun].

Lemma stop_starves : exists o s, runs pop_run stop_between (sys0 EVR) = Ok (o, s) /\ starved 1 s [] /\ events_run o = [0%nat].
Proof.
  let t := eval vm_compute in (runs pop_run stop_between (sys0 EVR)) in
  match t with Ok (?o, ?s) => exists o, s; split; [vm_cast_no_check (@eq_refl (res _) (Ok (o, s)))|] end.
  split; [|reflexivity]. constructor.
  - repeat split; try congruence; [constructor|]. intros [|[|j]]; reflexivity.
  - auto.
  - reflexivity.
  - reflexivity.
  - intros [|[|j]]; reflexivity.
  - intros i [].
Qed.

Theorem stop_loses : forall l, Forall served l ->
  exists o s', runs pop_run (stop_between ++ l) (sys0 EVR) = Ok (o, s') /\ ~ In 1%nat (events_run o).
Proof.
  intros l SV. destruct stop_starves as (o1 & s1 & E1 & S & O1).
  destruct (starved_forever l 1 s1 [] S SV) as (o2 & s2 & E2 & N).
  rewrite (runs_app pop_run stop_between l), E1. cbn [bind]. rewrite E2. cbn [bind]. do 2 eexists. split; [reflexivity|].
  rewrite events_app, O1. cbn. intros [?|?]; [discriminate|auto].
Qed.
