(* The backward reading test, test/low_level/sd/test_wav_mono_noloop_backward_playback.cpp:22-66,
   ReadBackwardAtRegularPlaybackRate; simplified as in UnitModel.v.  The number of samples is
   258 there. *)

From Coq Require Import ZArith List Bool.
From Verif Require Import Machine Floats WavModel CacheModel ReaderModel UnitModel.
Import ListNotations.
Local Open Scope Z_scope.

Definition backward_test (fuel blocks : nat) (n : Z) (stack : bytes) (garbage : nat -> bytes) : res bool :=
  '(playing, same, _) <- reading_test fuel blocks (d_of_Z (-1)) true (ramp_wav n) stack garbage (fun i => n - i - 1) n ;;
  Ok (playing && same).
