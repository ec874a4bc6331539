(* Reverse playback while the sketch changes the rate: what is to be heard. *)

From Coq Require Import ZArith List Bool Reals.
From Flocq Require Import Core.Core IEEE754.BinarySingleNaN.
From Verif Require Import Machine Floats ReaderModel ReaderSpec TapeSpec.
Import ListNotations.
Local Open Scope Z_scope.

(* A tape running at speed x < 0 from position t: every frame is heard from when
   the tape reaches it until it reaches the one before *)
Definition rspot (fr : Z -> list Z) (t x : R) : stream :=
  fun k => let i := Zceil (t + INR k * x) in if i <? 0 then None else Some (fr i).
Fixpoint rtape (fr : Z -> list Z) (t x : R) (l : list tape_op) : list (list (list Z)) :=
  match l with
  | [] => []
  | Speed y :: l' => rtape fr t (B2R y) l'
  | Block n :: l' => pulls (rspot fr t x) 0 n :: rtape fr (t + INR n * x)%R x l'
  end.

(* A rate between -X and 0 that is a multiple of 2^-q *)
Definition back_ok (q : Z) (X : R) (x : b64) : Prop :=
  is_finite x = true /\ (- X <= B2R x)%R /\ exists num, 0 < num <= 2 ^ 52 /\ B2R x = (- (IZR num * bpow radix2 (- q)))%R.
Definition rtape_ok (q : Z) (X : R) (B : nat) (o : tape_op) : Prop :=
  match o with Speed x => back_ok q X x | Block n => (n <= B)%nat end.

(* The rate changes only before the start of the audio is reached *)
Fixpoint above (t x : R) (l : list tape_op) : Prop :=
  match l with
  | [] => True
  | Speed y :: l' => (0 < t)%R /\ above t (B2R y) l'
  | Block n :: l' => above (t + INR n * x)%R x l'
  end.

(* The frame where reverse playback of a file of len frames is to begin: the last
   one, if the audio reaches to the end of the file, or the one asked for *)
Definition begins (fsz h len : Z) (nch : nat) (ps : play_start) (pb p0 : Z) : Prop :=
  match ps with
  | PSample => fsz / 2 = h + len * Z.of_nat nch /\ p0 = len - 1
  | PLoop => nch = 1%nat /\ p0 = len - 1
  | PArbitrary => p0 = pb
  end.

(* The first frame lies in one block of bs samples, and its block is at least half
   in the file *)
Definition first_block (bs fsz h : Z) (nch : nat) (p0 : Z) : Prop :=
  let s := h + p0 * Z.of_nat nch in s mod bs + Z.of_nat nch <= bs /\ 2 * (s / bs * bs) + bs <= fsz.
