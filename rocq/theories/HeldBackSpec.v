(* Specification vocabulary: what opening a file for reverse playback buffers. *)

From Coq Require Import ZArith List Bool.
From Verif Require Import Machine Floats WavModel CacheModel.
Import ListNotations.
Local Open Scope Z_scope.

(* Preloading goes back from the block of sample p, as far as the buffers reach -- unless
   less than half of that block is in the file: then it stops there *)
Definition half_full (c : ccfg) (fl : file) (p : Z) : Prop := 2 * (p / BS c * BS c) + BS c <= fsize fl.
Definition held_low (c : ccfg) (fl : file) (p : Z) : Z :=
  if 2 * (p / BS c * BS c) + BS c <=? fsize fl then Z.max 0 (p / BS c - Z.of_nat (c_nbuf c) + 1) * BS c else p / BS c * BS c.
Definition held_high (c : ccfg) (fl : file) (p : Z) : Z := Z.min (fsize fl / 2) ((p / BS c + 1) * BS c).
