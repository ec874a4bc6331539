(* The array reading tests of the repository, test/low_level/array: each plays an array,
   reads blocks of 256 frames until nothing is left and compares their number, not the
   samples.  Simplified as in UnitModel.v; the arrays are any memory with that many bytes. *)

From Coq Require Import ZArith List Bool.
From RecordUpdate Require Import RecordUpdate.
From Verif Require Import Machine Floats WavModel CacheModel ReaderModel UnitModel.
Import ListNotations.
Local Open Scope Z_scope.

(* ResamplingArrayFixture.h:12-14 and begin() *)
Definition array_reader : reader := r_begin (reader_init KArray).

(* begin(); setPlaybackRate(x); playRaw(array, len, nch); isPlaying(); setInterpolationType(i);
   do { read(buffers, 256); ... } while (bytesRead > 0);
   BOOST_CHECK_EQUAL(expectedDataSize, total_bytes_read) *)
Definition count_test (fuel blocks : nat) (x : b64) (i : interp) (m : mem) (off len nch expected : Z) : res bool :=
  r1 <- setPlaybackRate array_reader x ;;
  r2 <- playRaw_array r1 m off len nch ;;
  '(bs, _) <- read_blocks fuel blocks (setInterpolationType r2 i) ;;
  Ok (r_playing r2 && (expected =? count_samples bs)).

(* test_array_mono_loop_forward_playback.cpp:17-43 *)
Definition mono_array_test (fuel blocks : nat) (m : mem) (off bytes : Z) : res bool :=
  count_test fuel blocks d1 ILinear m off (bytes / 2) 1 (bytes / 2).
(* test_array_stereo_loop_forward_playback.cpp:27-55: 0.5f *)
Definition stereo_array_test (fuel blocks : nat) (m : mem) (off bytes : Z) : res bool :=
  count_test fuel blocks (ddiv d1 (d_of_Z 2)) INone m off (bytes / 4) 2 (bytes / 2).
