(* C86, C87, C88, and C44 for files: loops played from files. *)

From Coq Require Import ZArith Lia List Bool Reals.
From Flocq Require Import Core.Core IEEE754.BinarySingleNaN.
From Verif Require Import Machine Floats FloatFacts WavModel CacheModel ReaderModel CacheFacts CacheSpec CacheFinal
  ReaderSpec FileSpec LoopSpec WavSpec WavFinal FilePlay FileForward LoopFileSpec LoopOpen LoopCases.
Import ListNotations.
Local Open Scope Z_scope.

(* ---- C86 ---- *)

(* A RAW file with a repeat loop, played forward from a frame p0 of the file before the
   end of the loop.  Either the whole loop is buffered at the start, then at any rate;
   or two updates span at most all buffers but three.  All frames are delivered, round
   and round for ever, and no read misses the buffers. *)
Theorem C86_raw : forall r fl nch stack garbage ps pb ls lf num q, cfg_ok (r_cfg r) -> r_kind r <> KArray ->
  basic_settings r LRepeat ps pb -> r_ls r = ls -> r_lf r = lf -> r_hdr r = 0 -> (1 <= nch)%nat -> Z.of_nat nch < 2 ^ 15 ->
  0 < fsize fl < 2 ^ 31 -> 0 <= ls < lf -> lf <= fsize fl / 2 / Z.of_nat nch ->
  let p0 := loop_start ps ls pb in 0 <= p0 < lf ->
  fin64 (r_rate r) = true -> R64 (r_rate r) = (IZR num * bpow radix2 (- q))%R ->
  0 <= q <= 52 -> 0 < num <= 2 ^ 52 -> ((R64 (r_rate r) + 1) * INR nch <= IZR (2 ^ 30))%R ->
  let pos i := i * Z.of_nat nch in
  buffers_fill (r_cfg r) fl (pos p0) -> loop_ahead (r_cfg r) (pos p0) (pos ls) (pos lf) ->
  exists r', r_play_file r (Some fl) false (Z.of_nat nch) stack garbage = Ok (true, r') /\
    (loop_buffered (r_cfg r) (pos p0) (pos ls) (pos lf) -> forall B, file_delivers B r' (file_repeat fl 0 nch ls lf p0 num (2 ^ q))) /\
    (forall B s, num <= s * 2 ^ q -> loop_keeps_up (r_cfg r) nch B s -> file_delivers B r' (file_repeat fl 0 nch ls lf p0 num (2 ^ q))).
Proof. exact raw_loop. Qed.

(* The same for WAV files *)
Theorem C86_wav : forall r fl nch tags n nraw stack garbage ps pb ls lf num q, cfg_ok (r_cfg r) -> r_kind r <> KArray ->
  basic_settings r LRepeat ps pb -> r_ls r = ls -> r_lf r = lf -> bytes_ok stack -> wav_file fl nch tags n -> Z.of_nat nch < 2 ^ 15 ->
  0 <= ls < lf -> lf <= n / 2 / Z.of_nat nch ->
  let p0 := loop_start ps ls pb in 0 <= p0 < lf ->
  fin64 (r_rate r) = true -> R64 (r_rate r) = (IZR num * bpow radix2 (- q))%R ->
  0 <= q <= 52 -> 0 < num <= 2 ^ 52 -> ((R64 (r_rate r) + 1) * INR nch <= IZR (2 ^ 30))%R ->
  let h := (44 + tags) / 2 in
  let pos i := h + i * Z.of_nat nch in
  buffers_fill (r_cfg r) fl (pos p0) -> loop_ahead (r_cfg r) (pos p0) (pos ls) (pos lf) ->
  exists r', r_play_file r (Some fl) true nraw stack garbage = Ok (true, r') /\
    (loop_buffered (r_cfg r) (pos p0) (pos ls) (pos lf) -> forall B, file_delivers B r' (file_repeat fl h nch ls lf p0 num (2 ^ q))) /\
    (forall B s, num <= s * 2 ^ q -> loop_keeps_up (r_cfg r) nch B s -> file_delivers B r' (file_repeat fl h nch ls lf p0 num (2 ^ q))).
Proof. exact wav_loop. Qed.

(* At rate 1.0 the k-th frame is frame p0+k of the file, and beyond the end of the loop
   frame ls + (p0 + k - ls) mod (lf - ls) *)
Theorem C86_unity : forall fl h nch ls lf p0 k, 0 <= ls < lf ->
  file_repeat fl h nch ls lf p0 1 1 k = Some (file_frame fl h nch (repeat_frame ls lf p0 k)).
Proof. exact file_repeat_unity. Qed.

Example C86_case : let r := sd_loop LRepeat 4096 22000 PLoop 0 in
  cfg_ok (r_cfg r) /\ r_kind r <> KArray /\ basic_settings r LRepeat PLoop 0 /\ r_ls r = 4096 /\ r_lf r = 22000 /\ r_hdr r = 0 /\
  0 < fsize (ramp_file 60000) < 2 ^ 31 /\ 22000 <= fsize (ramp_file 60000) / 2 / Z.of_nat 1 /\
  fin64 (r_rate r) = true /\ R64 (r_rate r) = (IZR 1 * bpow radix2 (- 0))%R /\
  ((R64 (r_rate r) + 1) * INR 1 <= IZR (2 ^ 30))%R /\
  buffers_fill (r_cfg r) (ramp_file 60000) (4096 * 1) /\ loop_ahead (r_cfg r) (4096 * 1) (4096 * 1) (22000 * 1) /\
  1 <= 1 * 2 ^ 0 /\ loop_keeps_up (r_cfg r) 1 128 1.
Proof. exact loop_case. Qed.
Example C86_case_buffered : let r := sd_loop LRepeat 4096 12000 PSample 0 in
  buffers_fill (r_cfg r) (ramp_file 60000) (0 * 1) /\ loop_ahead (r_cfg r) (0 * 1) (4096 * 1) (12000 * 1) /\
  loop_buffered (r_cfg r) (0 * 1) (4096 * 1) (12000 * 1).
Proof. exact loop_case_short. Qed.

(* ---- C87 ---- *)

(* Without loop_ahead: a start 100 frames before the end of the loop.  156 samples are
   replaced by zeros, the first one where 8193 should be *)
Theorem C87_refuted : exists r', sd_loop_open LRepeat 4096 12000 PArbitrary 11900 = Ok (true, r') /\
  (exists fuel bs r2, serviced fuel r' (repeat 128%nat 4) = Ok (bs, r2) /\ misses r' = 0 /\ misses r2 = 156 /\
    nth 100 (nth 0 bs []) [] = [0]) /\
  file_repeat (ramp_file 60000) 0 1 4096 12000 11900 1 1 100%nat = Some [8193].
Proof. exact late_start. Qed.

(* ---- C88 ---- *)

(* A ping-pong loop over nine blocks that ends with the last sample of a block, played
   from its start at rate 1.0: on the way back, the first three blocks of the loop are
   silence *)
Theorem C88_refuted : exists r', sd_loop_open LPingpong 4096 22528 PLoop 0 = Ok (true, r') /\
  exists fuel bs r2, serviced fuel r' (repeat 128%nat 288) = Ok (bs, r2) /\ misses r' = 0 /\ misses r2 = 6144 /\
    forall fr, In fr (skipn 30720 (concat bs)) -> fr = [0].
Proof. exact edge_pingpong. Qed.

(* Both cases are within the bounds of C86: the buffers are filled at the start, and two
   updates span less than all buffers but three *)
Example C88_case : loop_keeps_up cfg_sd 1 128 1 /\ buffers_fill cfg_sd (ramp_file 60000) 11900 /\
  buffers_fill cfg_sd (ramp_file 60000) 4096.
Proof. exact late_case. Qed.

(* ---- C44, files ---- *)

(* A mono WAV file with frames 1000, 1001, ...: after two frames, loop(3) plays on to frame 26 and then
   loops over frames 24 to 26, instead of 2 to 4 *)
Theorem C44_refuted : wav_file (mkfile wav_flash) 1 0 1200 /\ here_run =
  Ok ([[1000]; [1001]], map (fun v => [1000 + Z.of_nat v]) (seq 2 25) ++ [[1024]; [1025]; [1026]; [1024]; [1025]; [1026]]).
Proof. exact (conj wav_flash_ok here_wav). Qed.

Print Assumptions C86_raw.
Print Assumptions C86_wav.
Print Assumptions C86_unity.
Print Assumptions C87_refuted.
Print Assumptions C88_refuted.
Print Assumptions C44_refuted.
