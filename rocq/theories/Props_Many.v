(* C117: any number of file players used forwards. *)

From Coq Require Import ZArith List Bool.
From Verif Require Import Machine Floats WavModel CacheModel ReaderModel ResponderModel PlayerModel LifeSpec SketchRuns ManySpec ManyProofs ManyCases.
Import ListNotations.
Local Open Scope Z_scope.

(* Whatever the sketch and the interrupts do, in any order: every call returns and none is undefined *)
Theorem C117_defined : forall kinds, (forall i, kinds i <> KArray) -> forall flags l, 0 <= flags < 256 -> Forall mild_op l ->
  exists F xs w, forall fuel, (F <= fuel)%nat -> wops fuel l (world0 kinds flags) = Ok (xs, w).
Proof. exact fleet_defined. Qed.

Example C117_case : (forall i, kinds2 i <> KArray) /\ Forall mild_op several /\
  match wops 300 several (world0 kinds2 2) with Ok (xs, _) => (starts_of xs, length (filter is_sent xs)) | _ => ([], O) end
  = ([true; true; false; true], 6%nat).
Proof. exact (conj kinds2_ok (conj several_ok several_run)). Qed.

Print Assumptions C117_defined.
