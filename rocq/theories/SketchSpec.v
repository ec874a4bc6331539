(* What the sketches' properties speak about (C114-C116). *)

From Coq Require Import ZArith List Bool.
From Verif Require Import Machine WavModel CacheModel LifeSpec FileForward SketchModel.
Import ListNotations.
Local Open Scope Z_scope.

(* The knob's two halves: rates from 0 up, and below 0 *)
Definition upper (p : Z) : Prop := 512 <= p <= 1023.
Definition lower (p : Z) : Prop := 0 <= p <= 511.
(* A pass of loop() with the knob there; fresh memory holds bytes *)
Definition turn_ok (pots : Z -> Prop) (t : turn) : Prop := pots (t_pot t) /\ bytes_ok (t_stack t).

(* The file is missing, or raw audio, or a 16-bit WAV file of at most 8 channels *)
Definition raw_ok (fo : option file) : Prop := forall fl, fo = Some fl -> 0 <= fsize fl < 2 ^ 31.
Definition wav_ok (fo : option file) : Prop := forall fl, fo = Some fl -> exists nch tags n, wav_file fl nch tags n /\ (nch <= 8)%nat.

(* The starts in what was observed *)
Definition is_start (x : wout) : bool := match x with WoPlay _ _ => true | _ => false end.
Definition starts (xs : list wout) : nat := length (filter is_start xs).
