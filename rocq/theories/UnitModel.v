(* The reading tests of the repository, test/low_level/sd: each writes a ramp of
   16-bit samples into the simulated card, opens it with a ResamplingSdReader and
   compares what 256-sample reads return with the expected samples.
   Simplified: `long` has 32 bits here (see DESIGN.md) also in the tests; what is
   printed is left out; the simulated card (a library that is not part of the
   repository) is taken to return the bytes it was given. *)

From Coq Require Import ZArith List Bool.
From RecordUpdate Require Import RecordUpdate.
From Verif Require Import Machine Floats WavModel CacheModel ReaderModel.
Import ListNotations.
Local Open Scope Z_scope.

(* for (int16_t i = 0; i < size; i++) dataSource[i] = i, as bytes:
   test_raw_mono_noloop_forward_double_rate_playback.cpp:16-18 *)
Definition ramp_byte (a : Z) : Z := if Z.even a then a / 2 mod 256 else a / 2 / 256 mod 256.
Definition ramp_raw (n : Z) : file := mkFile (2 * n) ramp_byte.

(* test_sndhdrdata_sndhdr_wav with [20] = size * 2, followed by the ramp:
   test_wav_mono_noloop_forward_playback.cpp:13-18, 25, 29-35 *)
Definition test_header (n : Z) : list Z :=
  [0x4952; 0x4646; 0x0038; 0x0000; 0x4157; 0x4556; 0x6d66; 0x2074; 0x0010; 0x0000; 0x0001; 0x0001;
   0xac44; 0x0000; 0xb110; 0x0002; 0x0004; 0x0010; 0x6164; 0x6174; u16 (n * 2); 0x0000].
Definition head_byte (n a : Z) : Z :=
  let v := nth (Z.to_nat (a / 2)) (test_header n) 0 in if Z.even a then v mod 256 else v / 256.
Definition ramp_wav (n : Z) : file :=
  mkFile (44 + 2 * n) (fun a => if (0 <=? a) && (a <? 44) then head_byte n a else ramp_byte (a - 44)).

(* do { samplesRead = read(buffers, 256); ... } while (samplesRead > 0): all blocks but
   the empty one.  The same in all tests, e.g. ..._double_rate_playback.cpp:44-56 *)
Fixpoint read_blocks (fuel blocks : nat) (r : reader) : res (list (list (list Z)) * reader) :=
  match blocks with
  | O => NoFuel
  | S k =>
      '(b, r1) <- r_read fuel r 256 ;;
      match b with
      | [] => Ok ([], r1)
      | _ => '(bs, r2) <- read_blocks fuel k r1 ;; Ok (b :: bs, r2)
      end
  end.

(* BOOST_CHECK_EQUAL_COLLECTIONS(&expected[j * 256], &expected[j * 256 + samplesRead - 1],
     &actual[0], &actual[samplesRead - 1]), ..._double_rate_playback.cpp:53-54: the end
   of a range is excluded, so the last sample of each block is not compared *)
Definition check_block (expected : Z -> Z) (size j : Z) (b : list (list Z)) : res bool :=
  let n := Z.of_nat (length b) in
  if size <? j * 256 + n - 1 then UB UbOutOfBounds
  else Ok (forallb (fun i => hd 0 (nth i b []) =? expected (j * 256 + Z.of_nat i)) (seq 0 (length b - 1))).
Fixpoint check_blocks (expected : Z -> Z) (size j : Z) (bs : list (list (list Z))) : res bool :=
  match bs with
  | [] => Ok true
  | b :: bs' => x <- check_block expected size j b ;; y <- check_blocks expected size (j + 1) bs' ;; Ok (x && y)
  end.
Definition count_samples (bs : list (list (list Z))) : Z := fold_right (fun b n => Z.of_nat (length b) + n) 0 bs.

(* ResamplingSdReader in a program for a PC, as the tests are: without TEENSYDUINO *)
Definition pc_reader : reader := r_begin (reader_init KSd <| r_cfg := mkCfg 11 7 true false |>).

(* begin(); setPlaybackRate(x); playRaw/playWav; isPlaying(); setLoopType(looptype_none);
   the reads and comparisons *)
Definition reading_test (fuel blocks : nat) (x : b64) (wave : bool) (fl : file) (stack : bytes) (garbage : nat -> bytes)
    (expected : Z -> Z) (size : Z) : res (bool * bool * Z) :=
  r1 <- setPlaybackRate pc_reader x ;;
  '(_, r2) <- r_play_file r1 (Some fl) wave 1 stack garbage ;;
  '(bs, _) <- read_blocks fuel blocks (setLoopType r2 LNone) ;;
  same <- check_blocks expected size 0 bs ;;
  Ok (r_playing r2, same, count_samples bs).

(* testReadForwardAtDoublePlaybackRate,
   test_raw_mono_noloop_forward_double_rate_playback.cpp:22-61.
   expectedSize = ceil(size / 2.0) *)
Definition double_rate_test (fuel blocks : nat) (n : Z) (stack : bytes) (garbage : nat -> bytes) : res bool :=
  let size := s16 ((n + 1) / 2) in
  '(playing, same, t) <- reading_test fuel blocks (d_of_Z 2) false (ramp_raw n) stack garbage (fun i => i * 2) size ;;
  Ok (Bool.eqb playing (negb (n =? 0)) && same && (size * 2 =? t * 2)).

(* ReadForwardAtHalfPlaybackRate, test_raw_mono_noloop_forward_playback.cpp:52-94 and
   ReadForwardLoopAtHalfPlaybackRate, test_raw_mono_loop_forward_playback.cpp:58-98 (which
   does not loop); for WAV test_wav_mono_noloop_forward_playback.cpp:68-115 and
   test_wav_mono_loop_forward_playback.cpp:181-222 *)
Definition half_rate_test (fuel blocks : nat) (wave : bool) (n : Z) (stack : bytes) (garbage : nat -> bytes) : res bool :=
  '(playing, same, _) <- reading_test fuel blocks (ddiv d1 (d_of_Z 2)) wave (if wave then ramp_wav n else ramp_raw n)
                           stack garbage (fun i => Z.quot i 2) (s16 (n * 2)) ;;
  Ok (playing && same).

(* ReadForwardAtRegularPlaybackRate, test_wav_mono_noloop_forward_playback.cpp:22-66 *)
Definition regular_rate_test (fuel blocks : nat) (n : Z) (stack : bytes) (garbage : nat -> bytes) : res bool :=
  '(playing, same, _) <- reading_test fuel blocks d1 true (ramp_wav n) stack garbage (fun i => i) n ;;
  Ok (playing && same).
