(* Vocabulary for sketches that poll: setForceResponse(true) once, then runPolled(). *)

From Coq Require Import ZArith List Bool.
From RecordUpdate Require Import RecordUpdate.
From Verif Require Import Machine ResponderModel PlayerModel ReaderModel LifeSpec.
Import ListNotations.
Local Open Scope Z_scope.

(* Responses stay forced; yield() may be called all the same *)
Definition polled_mode (o : wop) : Prop := match o with WForce b => b = true | _ => True end.

(* Players whose event may still wait: those updated while playing since the last runPolled()
   that said nothing is left (returned 0 or -1) *)
Definition updated (w : world) (l : list (nat * (nat -> option nat))) (j : nat) : bool :=
  existsb (fun e => Nat.eqb (fst e) j) l && r_playing (w_rd w j).
Definition wait_step (w : world) (o : wop) (x : wout) (wt : nat -> bool) : nat -> bool :=
  match o, x with
  | WUpdate i alloc, _ => fun j => wt j || updated w [(i, alloc)] j
  | WStop i mid, _ => fun j => wt j || updated w mid j
  | WPoll, WoPoll v => if v <=? 0 then fun _ => false else wt
  | _, _ => wt
  end.

(* Stopped or replayed only with no event waiting *)
Definition calm_op (o : wop) (wt : nat -> bool) : Prop :=
  match o with
  | WPlayFile i _ _ _ _ _ | WPlayRaw i _ _ _ _ | WPlayWavLen i _ _ _ | WPlayWav i _ | WStop i _ => wt i = false
  | _ => True
  end.
Fixpoint drained (fuel : nat) (l : list wop) (w : world) (wt : nat -> bool) : Prop :=
  match l with
  | [] => True
  | o :: l' => calm_op o wt /\
      match wop_run fuel o w with Ok (x, w') => drained fuel l' w' (wait_step w o x wt) | _ => True end
  end.

(* Leaves player i alone, polled mode *)
Definition leaves_p (i : nat) (o : wop) : Prop :=
  match o with
  | WPlayFile j _ _ _ _ _ | WPlayRaw j _ _ _ _ | WPlayWavLen j _ _ _ | WPlayWav j _ | WStop j _ | WCall j _ => j <> i
  | WForce b => b = true
  | WUpdate _ _ | WYield | WPoll => True
  end.
Definition is_poll (o : wop) : bool := match o with WPoll => true | _ => false end.
Definition polls (l : list wop) : nat := length (filter is_poll l).

(* Nothing but updates, yield() and runPolled() *)
Definition idle_op (o : wop) : Prop := match o with WUpdate _ _ | WYield | WPoll => True | _ => False end.
