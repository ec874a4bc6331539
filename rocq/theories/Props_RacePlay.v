(* C91-C93: playback while updates interrupt reloads. *)

From Coq Require Import ZArith List Reals.
From Flocq Require Import Core.Core IEEE754.BinarySingleNaN.
From Verif Require Import Machine Floats FloatFacts WavModel CacheModel CacheFacts CacheSpec WavSpec ReaderModel ReaderSpec FileSpec PlayProofs
  FilePlay FileForward CacheFinal RaceModel RacePlay RaceSpec RaceOpen RaceCases.
Import ListNotations.
Local Open Scope Z_scope.

(* ---- C91 ---- *)

(* Forward playback of a RAW file at a fixed rate: whenever reloads are called, and
   wherever updates interrupt them, the updates deliver frame p0 + floor(k x) as k-th
   frame, except that each missed sample is silent *)
Theorem C91_raw : forall r fl nch stack garbage ps pb, cfg_ok (r_cfg r) -> r_kind r <> KArray ->
  basic_settings r LNone ps pb -> r_hdr r = 0 -> (1 <= nch)%nat -> Z.of_nat nch < 2 ^ 15 -> 0 < fsize fl < 2 ^ 31 ->
  let len := fsize fl / 2 / Z.of_nat nch in
  (ps = PArbitrary -> 0 <= pb <= len) ->
  grid_rate (r_rate r) -> (0 <= R64 (r_rate r))%R -> ((R64 (r_rate r) + 1) * INR nch <= IZR (2 ^ 30))%R ->
  exists r', r_play_file r (Some fl) false (Z.of_nat nch) stack garbage = Ok (true, r') /\
    only_gaps r' (file_pitch fl 0 len nch (start_frame ps pb) (R64 (r_rate r))).
Proof. exact raw_race. Qed.

Theorem C91_wav : forall r fl nch tags n nraw stack garbage ps pb, cfg_ok (r_cfg r) -> r_kind r <> KArray ->
  basic_settings r LNone ps pb -> bytes_ok stack -> wav_file fl nch tags n -> Z.of_nat nch < 2 ^ 15 ->
  let len := n / 2 / Z.of_nat nch in
  (ps = PArbitrary -> 0 <= pb <= len) ->
  grid_rate (r_rate r) -> (0 <= R64 (r_rate r))%R -> ((R64 (r_rate r) + 1) * INR nch <= IZR (2 ^ 30))%R ->
  exists r', r_play_file r (Some fl) true nraw stack garbage = Ok (true, r') /\
    only_gaps r' (file_pitch fl ((44 + tags) / 2) len nch (start_frame ps pb) (R64 (r_rate r))).
Proof. exact wav_race. Qed.

(* A run in which three updates interrupt a read: 64 frames of block 1 arrive while
   block 0 is overwritten, block 2 and a part of block 3 are missed *)
Example C91_case : exists r, flash_open = Ok (true, r) /\ exists r2 p2,
  crun (r, None) [128; 64; 32; 32; 128; 64; 64]%nat
    [stretch 0 128; stretch 128 64; stretch 192 32; stretch 224 32; repeat [0] 128; repeat [0] 64; stretch 448 64] (r2, p2) /\
  misses r2 = 192 /\ misses r = 0.
Proof. exact race_play_case. Qed.

(* ---- C92 ---- *)

(* False once playback is turned around: the block just left is overwritten while the
   play position comes back into it.  The third and fourth sample belong to block 0
   instead of block 1, and no miss is counted. *)
Theorem C92_refuted : exists r, flash_open = Ok (true, r) /\ exists r1 r2 r3 r4 p,
  crun (r, None) [128; 128; 1]%nat [stretch 0 128; stretch 128 128; stretch 256 1] (r1, None) /\
  setPlaybackRate r1 dm1 = Ok r2 /\
  r_read 200 r2 4 = Ok ([file_frame (ramp_file 4096) 0 1 257; file_frame (ramp_file 4096) 0 1 256;
                         file_frame (ramp_file 4096) 0 1 255; file_frame (ramp_file 4096) 0 1 254], r3) /\
  crun (r2, None) [4]%nat [[file_frame (ramp_file 4096) 0 1 257; file_frame (ramp_file 4096) 0 1 256;
                            file_frame (ramp_file 4096) 0 1 127; file_frame (ramp_file 4096) 0 1 126]] (r4, p) /\
  misses r4 = misses r /\
  file_frame (ramp_file 4096) 0 1 127 <> file_frame (ramp_file 4096) 0 1 255 /\ file_frame (ramp_file 4096) 0 1 127 <> [0].
Proof. exact turn_refuted. Qed.

(* ---- C93 ---- *)

(* False: reloads serviced between updates of 64 frames prevent misses, but when each
   update interrupts a reload after its last look at the buffers, what the update
   marked is forgotten, nothing is ever reloaded, and the fifth update is silent *)
Theorem C93_refuted : exists r, flash_open = Ok (true, r) /\
  file_delivers 64 r (nth_error (file_frames (ramp_file 4096) 0 1 2048)) /\
  exists r2 p2,
    crun (r, None) (repeat 64%nat 5) [stretch 0 64; stretch 64 64; stretch 128 64; stretch 192 64; repeat [0] 64] (r2, p2) /\
    misses r2 = misses r + 64.
Proof. exact forget_refuted. Qed.

Print Assumptions C91_raw.
Print Assumptions C91_wav.
Print Assumptions C92_refuted.
Print Assumptions C93_refuted.
