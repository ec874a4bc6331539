(* Playback while the sketch changes the rate: what is to be heard. *)

From Coq Require Import ZArith List Bool Reals.
From Flocq Require Import Core.Core IEEE754.BinarySingleNaN.
From Verif Require Import Machine Floats ReaderModel ReaderSpec.
Import ListNotations.
Local Open Scope Z_scope.

(* setPlaybackRate(x); an update of n frames, with the reload it asks for *)
Inductive tape_op := Speed (x : b64) | Block (n : nat).

Fixpoint spun (fuel : nat) (r : reader) (l : list tape_op) : res (list (list (list Z)) * reader) :=
  match l with
  | [] => Ok ([], r)
  | Speed x :: l' => r1 <- setPlaybackRate r x ;; spun fuel r1 l'
  | Block n :: l' =>
      '(b, r1) <- r_read fuel r (Z.of_nat n) ;;
      r2 <- r_triggerReload fuel r1 ;;
      '(bs, r3) <- spun fuel r2 l' ;;
      Ok (b :: bs, r3)
  end.

(* A tape of len frames, running at speed x from position t *)
Definition spot (fr : Z -> list Z) (len : Z) (t x : R) : stream :=
  fun k => let i := Zfloor (t + INR k * x) in if i <? len then Some (fr i) else None.
Fixpoint tape (fr : Z -> list Z) (len : Z) (t x : R) (l : list tape_op) : list (list (list Z)) :=
  match l with
  | [] => []
  | Speed y :: l' => tape fr len t (B2R y) l'
  | Block n :: l' => pulls (spot fr len t x) 0 n :: tape fr len (t + INR n * x)%R x l'
  end.

(* A rate that is a multiple of 2^-q between 0 and X *)
Definition rate_ok (q : Z) (X : R) (x : b64) : Prop :=
  is_finite x = true /\ (B2R x <= X)%R /\ exists num, 0 <= num <= 2 ^ 52 /\ B2R x = (IZR num * bpow radix2 (- q))%R.
Definition tape_ok (q : Z) (X : R) (B : nat) (o : tape_op) : Prop :=
  match o with Speed x => rate_ok q X x | Block n => (n <= B)%nat end.
