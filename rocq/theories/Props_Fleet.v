(* C125-C126: any number of players of all four kinds used forwards. *)

From Coq Require Import ZArith List Bool.
From Verif Require Import Machine Floats WavModel CacheModel ReaderModel ResponderModel PlayerModel LifeSpec SketchRuns ManySpec ManyCases PolledSpec FleetSpec FleetProofs FleetPolled FleetCases.
Import ListNotations.
Local Open Scope Z_scope.

(* Whatever the sketch and the interrupts do, in any order: every call returns and none is undefined *)
Theorem C125_defined : forall kinds slow flags l, 0 <= flags < 256 -> Forall (mild_any kinds slow) l ->
  exists F xs w, forall fuel, (F <= fuel)%nat -> wops fuel l (world0 kinds flags) = Ok (xs, w).
Proof. exact all_kinds_defined. Qed.

Example C125_case : Forall (mild_any kinds5 slow5) all_five /\
  match wops 300 all_five (world0 kinds5 2) with Ok (xs, _) => (starts_of xs, length (filter is_sent xs)) | _ => ([], O) end
  = ([true; true; true; true; true; true; true; false], 11%nat).
Proof. exact (conj all_five_ok all_five_run). Qed.

Print Assumptions C125_defined.

(* The same in polled mode, when no player is played or stopped while its event may wait *)
Theorem C126_defined : forall kinds slow flags l, Forall (mild_polled kinds slow) l -> (forall fuel, drained fuel (WForce true :: l) (world0 kinds flags) (fun _ => false)) ->
  exists F xs w, forall fuel, (F <= fuel)%nat -> wops fuel (WForce true :: l) (world0 kinds flags) = Ok (xs, w).
Proof. exact all_kinds_polled. Qed.

Example C126_case : Forall (mild_polled kinds5 slow5) five_polled /\ (forall fuel, drained fuel (WForce true :: five_polled) (world0 kinds5 2) (fun _ => false)) /\
  five_shape (wops 300 (WForce true :: five_polled) (world0 kinds5 2)) = Some ([true; true; true; true; true; true; true], 8%nat).
Proof. exact (conj five_polled_ok (conj five_polled_drained five_polled_run)). Qed.

Print Assumptions C126_defined.
