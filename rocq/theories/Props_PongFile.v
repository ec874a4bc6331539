(* C89, C90: ping-pong loops played from files. *)

From Coq Require Import ZArith Lia List Bool Reals.
From Flocq Require Import Core.Core IEEE754.BinarySingleNaN.
From Verif Require Import Machine Floats FloatFacts WavModel CacheModel ReaderModel CacheFacts CacheSpec CacheFinal
  ReaderSpec FileSpec LoopSpec WavSpec FilePlay FileForward LoopFileSpec LoopCases PongSpec PongOpen PongCases.
Import ListNotations.
Local Open Scope Z_scope.

(* ---- C89 ---- *)

(* A RAW file with a ping-pong loop, played forward from a frame p0 before the end of
   the loop.  Either the whole loop is buffered at the start, then at any rate; or the
   start is inside the loop and its buffers too, the turn is in the block of the loop
   end, and two updates span at most all buffers but two.  All frames are delivered, to
   and fro for ever, and no read misses the buffers. *)
Theorem C89_raw : forall r fl nch stack garbage ps pb ls lf num q, cfg_ok (r_cfg r) -> r_kind r <> KArray ->
  basic_settings r LPingpong ps pb -> r_ls r = ls -> r_lf r = lf -> r_hdr r = 0 -> (1 <= nch)%nat -> Z.of_nat nch < 2 ^ 15 ->
  0 < fsize fl < 2 ^ 31 -> 0 <= ls < lf -> lf <= fsize fl / 2 / Z.of_nat nch ->
  let p0 := loop_start ps ls pb in let lo := loop_low ps ls in 0 <= p0 < lf ->
  fin64 (r_rate r) = true -> R64 (r_rate r) = (IZR num * bpow radix2 (- q))%R ->
  0 <= q <= 52 -> 0 < num <= 2 ^ 52 -> ((R64 (r_rate r) + 1) * INR nch <= IZR (2 ^ 30))%R ->
  let pos i := 0 + i * Z.of_nat nch in
  buffers_fill (r_cfg r) fl (pos p0) ->
  exists r', r_play_file r (Some fl) false (Z.of_nat nch) stack garbage = Ok (true, r') /\
    (loop_buffered (r_cfg r) (pos p0) (pos ls) (pos lf) ->
     forall B, file_delivers B r' (file_pingpong fl 0 nch lo lf p0 num (2 ^ q))) /\
    (starts_inside (r_cfg r) (pos p0) (pos lo) (pos lf) -> blk (r_cfg r) (pos lo) = blk (r_cfg r) (pos ls) ->
     turns_in_last_block (r_cfg r) 0 lf nch ->
     forall B s, num <= s * 2 ^ q -> pingpong_keeps_up (r_cfg r) nch B s ->
       file_delivers B r' (file_pingpong fl 0 nch lo lf p0 num (2 ^ q))).
Proof. exact raw_pong. Qed.

(* The same for WAV files *)
Theorem C89_wav : forall r fl nch tags n nraw stack garbage ps pb ls lf num q, cfg_ok (r_cfg r) -> r_kind r <> KArray ->
  basic_settings r LPingpong ps pb -> r_ls r = ls -> r_lf r = lf -> bytes_ok stack -> wav_file fl nch tags n -> Z.of_nat nch < 2 ^ 15 ->
  0 <= ls < lf -> lf <= n / 2 / Z.of_nat nch ->
  let p0 := loop_start ps ls pb in let lo := loop_low ps ls in 0 <= p0 < lf ->
  fin64 (r_rate r) = true -> R64 (r_rate r) = (IZR num * bpow radix2 (- q))%R ->
  0 <= q <= 52 -> 0 < num <= 2 ^ 52 -> ((R64 (r_rate r) + 1) * INR nch <= IZR (2 ^ 30))%R ->
  let h := (44 + tags) / 2 in
  let pos i := h + i * Z.of_nat nch in
  buffers_fill (r_cfg r) fl (pos p0) ->
  exists r', r_play_file r (Some fl) true nraw stack garbage = Ok (true, r') /\
    (loop_buffered (r_cfg r) (pos p0) (pos ls) (pos lf) ->
     forall B, file_delivers B r' (file_pingpong fl h nch lo lf p0 num (2 ^ q))) /\
    (starts_inside (r_cfg r) (pos p0) (pos lo) (pos lf) -> blk (r_cfg r) (pos lo) = blk (r_cfg r) (pos ls) ->
     turns_in_last_block (r_cfg r) h lf nch ->
     forall B s, num <= s * 2 ^ q -> pingpong_keeps_up (r_cfg r) nch B s ->
       file_delivers B r' (file_pingpong fl h nch lo lf p0 num (2 ^ q))).
Proof. exact wav_pong. Qed.

(* At rate 1.0 the k-th frame is that of the closed form *)
Theorem C89_unity : forall fl h nch lo lf p0 k, (1 <= nch)%nat -> 0 <= lo < lf -> 0 <= p0 < lf ->
  file_pingpong fl h nch lo lf p0 1 1 k = Some (file_frame fl h nch (triangle_frame lo lf (lf - Z.of_nat nch) p0 k)).
Proof. exact file_pingpong_unity. Qed.

Example C89_case : let r := sd_loop LPingpong 4096 22000 PLoop 0 in
  cfg_ok (r_cfg r) /\ r_kind r <> KArray /\ basic_settings r LPingpong PLoop 0 /\ r_ls r = 4096 /\ r_lf r = 22000 /\ r_hdr r = 0 /\
  0 < fsize (ramp_file 60000) < 2 ^ 31 /\ 22000 <= fsize (ramp_file 60000) / 2 / Z.of_nat 1 /\
  fin64 (r_rate r) = true /\ R64 (r_rate r) = (IZR 1 * bpow radix2 (- 0))%R /\
  ((R64 (r_rate r) + 1) * INR 1 <= IZR (2 ^ 30))%R /\
  buffers_fill (r_cfg r) (ramp_file 60000) (0 + 4096 * 1) /\ starts_inside (r_cfg r) (0 + 4096 * 1) (0 + 4096 * 1) (0 + 22000 * 1) /\
  turns_in_last_block (r_cfg r) 0 22000 1 /\ 1 <= 1 * 2 ^ 0 /\ pingpong_keeps_up (r_cfg r) 1 128 1.
Proof. exact pong_case. Qed.
Example C89_case_buffered : let r := sd_loop LPingpong 4096 12000 PSample 0 in
  buffers_fill (r_cfg r) (ramp_file 60000) (0 + 0 * 1) /\ loop_buffered (r_cfg r) (0 + 0 * 1) (0 + 4096 * 1) (0 + 12000 * 1).
Proof. exact pong_case_short. Qed.

(* ---- C90 ---- *)

(* A start 100 frames before the end of the loop: silence on the way back *)
Theorem C90_refuted_late : exists r', sd_loop_open LPingpong 4096 12000 PArbitrary 11900 = Ok (true, r') /\
  (exists fuel bs r2, serviced fuel r' (repeat 128%nat 16) = Ok (bs, r2) /\ misses r' = 0 /\ misses r2 = 188 /\
    nth 1860 (concat bs) [] = [0]) /\
  file_frame (ramp_file 60000) 0 1 (triangle_frame 4096 12000 11999 11900 1860) = [20352].
Proof. exact late_pong. Qed.

(* Start mode "sample" with a loop start in another block: silence below the start of
   the loop *)
Theorem C90_refuted_below : exists r', sd_loop_open LPingpong 4096 14400 PSample 0 = Ok (true, r') /\
  (exists fuel bs r2, serviced fuel r' (repeat 128%nat 212) = Ok (bs, r2) /\ misses r' = 0 /\ misses r2 = 384 /\
    nth 26752 (concat bs) [] = [0]) /\
  file_frame (ramp_file 60000) 0 1 (triangle_frame 0 14400 14399 0 26752) = [3968].
Proof. exact below_pong. Qed.

Example C90_case_late : buffers_fill cfg_sd (ramp_file 60000) 11900 /\ turns_in_last_block cfg_sd 0 12000 1 /\
  pingpong_keeps_up cfg_sd 1 128 1 /\ ~ starts_inside cfg_sd 11900 4096 12000.
Proof. exact late_pong_case. Qed.
Example C90_case_below : buffers_fill cfg_sd (ramp_file 60000) 0 /\ turns_in_last_block cfg_sd 0 14400 1 /\
  pingpong_keeps_up cfg_sd 1 128 1 /\ starts_inside cfg_sd 0 0 14400 /\ blk cfg_sd 0 <> blk cfg_sd 4096.
Proof. exact below_pong_case. Qed.

Print Assumptions C89_raw.
Print Assumptions C89_wav.
Print Assumptions C89_unity.
Print Assumptions C90_refuted_late.
Print Assumptions C90_refuted_below.
