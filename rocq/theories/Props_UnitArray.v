(* C144: the array reading tests. *)

From Coq Require Import ZArith List Bool.
From Verif Require Import Machine Floats WavModel ReaderModel UnitModel UnitArrayModel UnitArray.
Local Open Scope Z_scope.

(* The mono test passes for every array *)
Theorem C144_mono : forall m off bytes, 0 <= off -> 0 <= bytes < 2 ^ 31 -> off + bytes <= msize m ->
  exists fuel blocks, mono_array_test fuel blocks m off bytes = Ok true.
Proof. exact mono_passes. Qed.

(* The stereo test passes for those of whole frames (but for one byte) *)
Theorem C144_stereo_partial : forall m off bytes, 0 <= off -> 0 <= bytes < 2 ^ 31 -> off + bytes <= msize m ->
  exists fuel blocks, stereo_array_test fuel blocks m off bytes = Ok (bytes mod 4 <? 2).
Proof. exact stereo_passes. Qed.

(* and fails for the others *)
Theorem C144_refuted : exists m fuel blocks, stereo_array_test fuel blocks m 0 602 = Ok false /\ msize m = 602.
Proof. exact stereo_fails. Qed.

Example C144_case : mono_array_test 300 3 (mkMem 600 (fun a => a mod 256)) 0 600 = Ok true /\
  stereo_array_test 300 3 (mkMem 600 (fun a => a mod 256)) 0 600 = Ok true.
Proof. exact array_runs. Qed.

Print Assumptions C144_mono.
Print Assumptions C144_stereo_partial.
Print Assumptions C144_refuted.
