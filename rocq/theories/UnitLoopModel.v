(* The loop tests of the repository, test/low_level/sd: as UnitModel.v, with
   setLoopType(looptype_repeat), a fixed number of reads, and samples that count up and
   start again from 0 expected. *)

From Coq Require Import ZArith List Bool.
From RecordUpdate Require Import RecordUpdate.
From Verif Require Import Machine Floats WavModel CacheModel ReaderModel UnitModel.
Import ListNotations.
Local Open Scope Z_scope.

(* for each sample: if (currentExpected != actual[i]) BOOST_FAIL(...); currentExpected++;
   currentExpected %= period, test_raw_mono_loop_forward_playback.cpp:38-48 *)
Fixpoint cycle_block (period c : Z) (b : list (list Z)) : bool * Z :=
  match b with
  | [] => (true, c)
  | s :: b' => let '(x, c') := cycle_block period ((c + 1) mod period) b' in ((hd 0 s =? c) && x, c')
  end.

(* do { read(buffers, 256); ... } while (j < LOOP_BLOCKS), 33-52.  [half]: the samples read
   are taken for a number of bytes, and only half of them compared,
   test_wav_mono_loop_forward_playback.cpp:48-66 *)
Fixpoint cycle_blocks (fuel : nat) (half : bool) (blocks : nat) (period c : Z) (r : reader) : res bool :=
  match blocks with
  | O => Ok true
  | S k =>
      '(b, r1) <- r_read fuel r 256 ;;
      let '(x, c') := cycle_block period c (if half then firstn (Nat.div (length b) 2) b else b) in
      y <- cycle_blocks fuel half k period c' r1 ;; Ok (x && y)
  end.

Definition loop_test (fuel blocks : nat) (wave half : bool) (n : Z) (finish : option Z) (stack : bytes) (garbage : nat -> bytes) : res bool :=
  r1 <- setPlaybackRate pc_reader d1 ;;
  '(_, r2) <- r_play_file r1 (Some (if wave then ramp_wav n else ramp_raw n)) wave 1 stack garbage ;;
  let r3 := setLoopType r2 LRepeat in
  let r4 := match finish with Some v => setLoopFinish r3 v | None => r3 end in
  ok <- cycle_blocks fuel half blocks (match finish with Some v => v | None => n end) 0 r4 ;;
  Ok (r_playing r2 && ok).

(* ReadForwardLoopAtRegularPlaybackRate, test_raw_mono_loop_forward_playback.cpp:13-56:
   n = 32 samples, blocks = LOOP_BLOCKS *)
Definition raw_loop_test (fuel blocks : nat) (n : Z) := loop_test fuel blocks false false n None.
(* the same for WAV, test_wav_mono_loop_forward_playback.cpp:21-75 *)
Definition wav_loop_test (fuel blocks : nat) (n : Z) := loop_test fuel blocks true true n None.
(* ...WithLoopFinish and ...WithLoopStartAndFinish (which sets no start),
   test_wav_mono_loop_forward_playback.cpp:77-179: v = LOOP_LENGTH *)
Definition wav_finish_test (fuel blocks : nat) (n v : Z) := loop_test fuel blocks true false n (Some v).
