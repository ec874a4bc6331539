(* C138 and C139: loops of files that are never reloaded, and the loop tests. *)

From Coq Require Import ZArith Lia List Bool Reals Lra.
From RecordUpdate Require Import RecordUpdate.
From Flocq Require Import Core.Core IEEE754.BinarySingleNaN.
From Verif Require Import Machine Floats FloatFacts WavModel CacheModel ReaderModel ReaderSpec CacheFacts CacheSpec WavSpec FileSpec FilePlay FileForward LoopSpec
  MirrorSpec HeldSpec HeldLoopSpec HeldLoop UnitModel UnitCases UnitLoopModel UnitLoop.
Import ListNotations.
Local Open Scope Z_scope.

(* ---- C138 ---- *)

Theorem C138_raw : forall r fl nch stack garbage ps pb num q, cfg_ok (r_cfg r) -> r_kind r <> KArray ->
  basic_settings r LNone ps pb -> r_hdr r = 0 -> (1 <= nch)%nat -> Z.of_nat nch < 2 ^ 15 -> 0 < fsize fl < 2 ^ 31 -> small_file (r_cfg r) fl ->
  let len := fsize fl / 2 / Z.of_nat nch in
  (ps = PArbitrary -> 0 <= pb <= len) -> start_frame ps pb * Z.of_nat nch < BS (r_cfg r) ->
  fin64 (r_rate r) = true -> R64 (r_rate r) = (IZR num * bpow radix2 (- q))%R -> 0 <= q <= 52 -> 0 < num <= 2 ^ 52 ->
  ((R64 (r_rate r) + 1) * INR nch <= IZR (2 ^ 30))%R ->
  exists r', r_play_file r (Some fl) false (Z.of_nat nch) stack garbage = Ok (true, r') /\ r_playing r' = true /\
    loops_alone fl 0 len nch ps (start_frame ps pb) num q r'.
Proof. exact raw_loops_alone. Qed.

Theorem C138_wav : forall r fl nch tags n nraw stack garbage ps pb num q, cfg_ok (r_cfg r) -> r_kind r <> KArray ->
  basic_settings r LNone ps pb -> bytes_ok stack -> wav_file fl nch tags n -> Z.of_nat nch < 2 ^ 15 -> small_file (r_cfg r) fl ->
  let len := n / 2 / Z.of_nat nch in
  (ps = PArbitrary -> 0 <= pb <= len) -> (44 + tags) / 2 + start_frame ps pb * Z.of_nat nch < BS (r_cfg r) ->
  fin64 (r_rate r) = true -> R64 (r_rate r) = (IZR num * bpow radix2 (- q))%R -> 0 <= q <= 52 -> 0 < num <= 2 ^ 52 ->
  ((R64 (r_rate r) + 1) * INR nch <= IZR (2 ^ 30))%R ->
  exists r', r_play_file r (Some fl) true nraw stack garbage = Ok (true, r') /\ r_playing r' = true /\
    loops_alone fl ((44 + tags) / 2) len nch ps (start_frame ps pb) num q r'.
Proof. exact wav_loops_alone. Qed.

(* A ping-pong loop over the frames 1 to 3 of a stereo file of 4 frames at half speed; by
   default it turns at frame 0 (C12) *)
Example C138_run : shown_run (r_play_file tiny_reader (Some tiny_file) false 2 (fun _ => 0) (fun _ _ => 0))
    (fun r => session 100 r [SLoopType LPingpong; SLoopStart 1; SLoopFinish 4; SRead 18])
  = Ok ([[]; []; []; [[0; 1]; [0; 1]; [2; 3]; [2; 3]; [4; 5]; [4; 5]; [6; 7]; [6; 7]; [4; 5]; [4; 5]; [2; 3]; [2; 3]; [0; 1]; [0; 1]; [0; 1]; [0; 1]; [2; 3]; [2; 3]]], 0).
Proof. vm_compute. reflexivity. Qed.
Example C138_spec : map (fun k => hd_i (orbit (loop_spec LPingpong PSample 1 4 2) 1 (2 ^ 1) (mkHead 0 0 false) k)) (seq 0 18)
  = [0; 0; 1; 1; 2; 2; 3; 3; 2; 2; 1; 1; 0; 0; 0; 0; 1; 1].
Proof. reflexivity. Qed.
Example C138_case : cfg_ok (r_cfg tiny_reader) /\ basic_settings tiny_reader LNone PSample 0 /\ small_file (r_cfg tiny_reader) tiny_file /\
  r_kind tiny_reader <> KArray /\ r_hdr tiny_reader = 0.
Proof. split; [unfold cfg_ok; cbn; lia|]. split; [repeat split|]. split; [unfold small_file; cbn; lia|]. split; [discriminate|reflexivity]. Qed.

(* ---- C139 ---- *)

(* any number of reads, not only LOOP_BLOCKS *)
Theorem C139_raw : forall n blocks stack garbage, 1 <= n <= 14336 -> exists fuel, raw_loop_test fuel blocks n stack garbage = Ok true.
Proof. exact raw_loop_passes. Qed.
Theorem C139_finish : forall n v blocks stack garbage, bytes_ok stack -> 1 <= v <= n -> n <= 14314 ->
  exists fuel, wav_finish_test fuel blocks n v stack garbage = Ok true.
Proof. exact wav_finish_passes. Qed.
Theorem C139_wav_partial : forall n blocks stack garbage, bytes_ok stack -> 1 <= n -> (n | 128) -> exists fuel, wav_loop_test fuel blocks n stack garbage = Ok true.
Proof. exact wav_loop_passes. Qed.
(* the WAV test takes the samples read for bytes and skips half of each block *)
Theorem C139_refuted : exists n, 1 <= n /\ wav_loop_test 600 2 n (fun _ => 0) (fun _ _ => 0) = Ok false.
Proof. exact wav_loop_fails. Qed.

Example C139_run : raw_loop_test 600 2 32 (fun _ => 0) (fun _ _ => 0) = Ok true /\ wav_loop_test 600 2 32 (fun _ => 0) (fun _ _ => 0) = Ok true /\
  wav_finish_test 600 2 32 8 (fun _ => 0) (fun _ _ => 0) = Ok true.
Proof. exact loop_tests_run. Qed.

Print Assumptions C138_raw.
Print Assumptions C138_wav.
Print Assumptions C139_raw.
Print Assumptions C139_finish.
Print Assumptions C139_wav_partial.
Print Assumptions C139_refuted.
