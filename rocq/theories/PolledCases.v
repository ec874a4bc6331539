(* Concrete histories in polled mode. *)

From Coq Require Import ZArith Lia List Bool.
From RecordUpdate Require Import RecordUpdate.
From Verif Require Import Machine Floats CacheModel ReaderModel ReaderFacts ResponderModel ResponderSpec ResponderProofs QueueProofs PlayerModel LifeSpec
  LifeProofs WorldProofs ScheduleProofs PlayerCases PolledSpec PolledProofs.
Import ListNotations.
Local Open Scope Z_scope.

(* Two SD players: 0 plays on, 1 has reached its end; 0 is played anew with its reload pending *)
Definition sd_only (i : nat) : rkind := KSd.
Definition replayed : list wop :=
  [WForce true; play_ramp 0 3000; play_ramp 1 100; WUpdate 0 give; WUpdate 1 give; play_ramp 0 3000; WUpdate 0 give; WPoll].

Definition ended (r : reader) : bool :=
  r_playing r && at_end r && (match r_loop r with LNone => true | _ => false end) && negb (r_dual r) && (0 <? r_nch r).
Lemma ended_ok : forall r, ended r = true -> exhausted r.
Proof.
  intros r H. unfold ended in H. apply andb_prop in H. destruct H as [H H5]. apply andb_prop in H. destruct H as [H H4].
  apply andb_prop in H. destruct H as [H H3]. apply andb_prop in H. destruct H as [H1 H2].
  repeat split; auto; [destruct (r_loop r); congruence|destruct (r_dual r); auto; discriminate|now apply Z.ltb_lt].
Qed.

Lemma replayed_lost : exists xs w, wops 200 replayed (world0 sd_only 2) = Ok (xs, w) /\ lost 1 w.
Proof.
  set (e := wops 200 replayed (world0 sd_only 2)).
  let t := eval vm_compute in (match e with Ok (_, w) => Some (w_sys w) | _ => None end) in
  match t with Some ?s =>
    assert (S : match e with Ok (_, w) => Some (w_sys w) | _ => None end = Some s) by (vm_cast_no_check (@eq_refl (option rsys) (Some s))) end.
  assert (X : match e with Ok (_, w) => ended (w_rd w 1) | _ => false end = true) by (vm_cast_no_check (@eq_refl bool true)).
  destruct e as [[xs w]| |]; try discriminate. exists xs, w. split; [reflexivity|]. injection S as S.
  split; [|split; [rewrite S; reflexivity|now apply ended_ok]]. exists []. rewrite S. clear. constructor.
  - repeat split; try congruence; [constructor|]. intros [|[|j]]; reflexivity.
  - auto.
  - reflexivity.
  - reflexivity.
  - intros [|[|j]]; reflexivity.
  - intros i [].
Qed.

(* Going on as long as one likes: the updates and polls do succeed *)
Definition rounds : list wop := concat (repeat [WUpdate 0 give; WUpdate 1 give; WPoll; WPoll; WYield] 4).
Definition replayed_check (xs : list wout) (w : world) : bool := r_playing (w_rd w 1) && negb (r_playing (w_rd w 2)).

(* A decision procedure for the discipline *)
Definition calm_opb (o : wop) (wt : nat -> bool) : bool :=
  match o with
  | WPlayFile i _ _ _ _ _ | WPlayRaw i _ _ _ _ | WPlayWavLen i _ _ _ | WPlayWav i _ | WStop i _ => negb (wt i)
  | _ => true
  end.
Fixpoint drainedb (fuel : nat) (l : list wop) (w : world) (wt : nat -> bool) : bool :=
  match l with
  | [] => true
  | o :: l' => calm_opb o wt && match wop_run fuel o w with Ok (x, w') => drainedb fuel l' w' (wait_step w o x wt) | _ => true end
  end.
Lemma drainedb_ok : forall fuel l w wt, drainedb fuel l w wt = true -> drained fuel l w wt.
Proof.
  intros fuel. induction l as [|o l IH]; intros w wt H; cbn [drainedb drained] in *; [exact I|].
  apply andb_prop in H. destruct H as [C H]. split.
  - destruct o; cbn in *; auto; now apply negb_true_iff.
  - destruct (wop_run fuel o w) as [[x w']| |]; auto.
Qed.

(* An SD player, an array player and a flash player; player 0 runs out *)
Definition poll_hist : list wop := [play_ramp 0 300; play_arr 1 150; play_ramp 2 600; WUpdate 0 give; WUpdate 2 give; WPoll; WUpdate 1 give; WPoll].
Definition poll_rest : list wop := [WUpdate 2 give; WPoll; WPoll; play_ramp 2 100; WUpdate 0 give; WStop 1 []; WPoll].
Definition poll_check (xs : list wout) (w : world) : bool :=
  r_playing (w_rd w 0) &&
  match r_read 200 (w_rd w 0) 128 with Ok (f, _) => Nat.ltb (length f) 128 | _ => false end &&
  match w_update 200 0 give w with
  | Ok (_, w1) => match wops 200 poll_rest w1 with Ok (_, w2) => r_playing (w_rd w1 0) && negb (r_playing (w_rd w2 0)) | _ => false end
  | _ => false
  end.
Lemma poll_check_inv : forall xs w, poll_check xs w = true ->
  r_playing (w_rd w 0) = true /\ (exists f r, r_read 200 (w_rd w 0) 128 = Ok (f, r) /\ (length f < 128)%nat) /\
  exists a w1 ys w2, w_update 200 0 give w = Ok (a, w1) /\ r_playing (w_rd w1 0) = true /\
    wops 200 poll_rest w1 = Ok (ys, w2) /\ r_playing (w_rd w2 0) = false.
Proof.
  intros xs w H. unfold poll_check in H. apply andb_prop in H. destruct H as [H H3]. apply andb_prop in H. destruct H as [H1 H2].
  destruct (r_read 200 (w_rd w 0) 128) as [[f0 r0]| |]; try discriminate. apply Nat.ltb_lt in H2.
  destruct (w_update 200 0 give w) as [[a0 w0]| |]; try discriminate. destruct (wops 200 _ w0) as [[y0 v0]| |] eqn:E0; try discriminate.
  apply andb_prop in H3. destruct H3 as [H3 H4]. apply negb_true_iff in H4. split; [exact H1|]. split; eauto 10.
Qed.
Lemma poll_drained : drained 200 (WForce true :: poll_hist ++ WUpdate 0 give :: poll_rest) (world0 kinds3 2) (fun _ => false).
Proof. apply drainedb_ok. vm_compute. reflexivity. Qed.

(* The refuting history breaks it: player 0 is played with its event waiting *)
Lemma replayed_not_drained : ~ drained 200 replayed (world0 sd_only 2) (fun _ => false).
Proof.
  assert (C : forall fuel l w wt, drained fuel l w wt -> drainedb fuel l w wt = true).
  { intros fuel. induction l as [|o l IH]; intros w wt H; cbn [drainedb drained] in *; [reflexivity|]. destruct H as [C H]. apply andb_true_intro. split.
    - destruct o; cbn in *; auto; now rewrite C.
    - destruct (wop_run fuel o w) as [[x w']| |]; auto. }
  intro D. apply C in D. assert (N : drainedb 200 replayed (world0 sd_only 2) (fun _ => false) = false) by (vm_compute; reflexivity). congruence.
Qed.

Theorem replay_never_ends : exists xs w, wops 200 replayed (world0 sd_only 2) = Ok (xs, w) /\
  ~ drained 200 replayed (world0 sd_only 2) (fun _ => false) /\
  forall fuel l ys w', Forall idle_op l -> wops fuel l w = Ok (ys, w') -> exhausted (w_rd w' 1).
Proof.
  destruct replayed_lost as (xs & w & E & L). exists xs, w. split; [exact E|]. split; [exact replayed_not_drained|].
  intros fuel l ys w' ID E2. exact (proj2 (proj2 (lost_forever _ _ _ _ _ _ L ID E2))).
Qed.
