(* Specification vocabulary for playback while reloads are interrupted. *)

From Coq Require Import ZArith Lia List Bool.
From Verif Require Import Machine ReaderModel ReaderSpec FileSpec RacePlay.
Import ListNotations.
Local Open Scope Z_scope.

(* Lists of the same length whose elements are related in pairs; the numbers of
   the pairs add up *)
Inductive summed {A B : Type} (R : Z -> A -> B -> Prop) : Z -> list A -> list B -> Prop :=
| sm_nil : summed R 0 [] []
| sm_cons : forall k n a b l l', R k a b -> summed R n l l' -> summed R (k + n) (a :: l) (b :: l').

(* A sample is delivered as it is, or replaced by silence *)
Definition sample_gap (k v w : Z) : Prop := k = 0 /\ w = v \/ k = 1 /\ w = 0.

(* The updates [outs] deliver the blocks [bs] except that k samples are replaced
   by silence *)
Definition frame_gaps : Z -> list Z -> list Z -> Prop := summed sample_gap.
Definition block_gaps : Z -> list (list Z) -> list (list Z) -> Prop := summed frame_gaps.
Definition session_gaps : Z -> list (list (list Z)) -> list (list (list Z)) -> Prop := summed block_gaps.

(* "However reloads are called and updates interrupt them, the updates deliver the
   stream except for samples that were missed, which are silent; the next update
   and the next step of the sketch can always be made" *)
Definition only_gaps (r : reader) (out : stream) : Prop :=
  forall ns outs r2 p2, crun (r, None) ns outs (r2, p2) ->
    session_gaps (misses r2 - misses r) (blocks_spec out 0 ns) outs /\
    (forall n, exists fuel fs r3, r_read fuel r2 (Z.of_nat n) = Ok (fs, r3)) /\
    exists t, cstep (r2, p2) None t.
