(* C136 and C137: the reading tests of the repository. *)

From Coq Require Import ZArith Lia List Bool Reals Lra.
From Flocq Require Import Core.Core IEEE754.BinarySingleNaN.
From Verif Require Import Machine Floats WavModel CacheModel ReaderModel WavSpec UnitModel UnitProofs UnitCases.
Import ListNotations.
Local Open Scope Z_scope.

(* ---- C136 ---- *)

(* The tests pass not only for the lengths in the repository, but for every length that
   the seven buffers of 2048 samples hold: for WAV files minus the header *)
Theorem C136_double : forall n stack garbage, 0 <= n <= 14336 -> exists fuel blocks, double_rate_test fuel blocks n stack garbage = Ok true.
Proof. exact double_passes. Qed.
Theorem C136_half_raw : forall n stack garbage, 1 <= n <= 14336 -> exists fuel blocks, half_rate_test fuel blocks false n stack garbage = Ok true.
Proof. exact half_passes_raw. Qed.
Theorem C136_half_wav : forall n stack garbage, bytes_ok stack -> 1 <= n <= 14314 ->
  exists fuel blocks, half_rate_test fuel blocks true n stack garbage = Ok true.
Proof. exact half_passes_wav. Qed.
Theorem C136_regular : forall n stack garbage, bytes_ok stack -> 1 <= n <= 14314 ->
  exists fuel blocks, regular_rate_test fuel blocks n stack garbage = Ok true.
Proof. exact regular_passes. Qed.

Example C136_run : double_rate_test 700 2 201 (fun _ => 0) (fun _ _ => 0) = Ok true /\
  half_rate_test 700 3 true 150 (fun _ => 0) (fun _ _ => 0) = Ok true /\ regular_rate_test 700 3 300 (fun _ => 0) (fun _ _ => 0) = Ok true.
Proof. exact tests_run. Qed.

(* ---- C137 ---- *)

(* What a passed comparison means: all samples but the last of each block are right *)
Theorem C137_compared_partial : forall e size bs j, check_blocks e size j bs = Ok true ->
  forall k b i, nth_error bs k = Some b -> (i + 1 < length b)%nat -> hd 0 (nth i b []) = e ((j + Z.of_nat k) * 256 + Z.of_nat i).
Proof. exact compared. Qed.

(* The last ones may be anything *)
Theorem C137_refuted : exists e size bs, check_blocks e size 0 bs = Ok true /\
  exists k b i, nth_error bs k = Some b /\ (i < length b)%nat /\ hd 0 (nth i b []) <> e (Z.of_nat k * 256 + Z.of_nat i).
Proof. exact uncompared_last. Qed.

Print Assumptions C136_double.
Print Assumptions C136_half_raw.
Print Assumptions C136_half_wav.
Print Assumptions C136_regular.
Print Assumptions C137_compared_partial.
Print Assumptions C137_refuted.
