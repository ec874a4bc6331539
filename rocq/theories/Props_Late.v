(* C94: playback from files that has got ahead of the buffers. *)

From Coq Require Import ZArith List Reals.
From Flocq Require Import Core.Core IEEE754.BinarySingleNaN.
From Verif Require Import Machine Floats FloatFacts WavModel CacheModel CacheFacts CacheSpec WavSpec ReaderModel ReaderSpec FileSpec PlayProofs
  FilePlay FileForward CacheFinal RaceModel RacePlay RaceSpec RaceCases LateSpec LateOpen LateCases.
Import ListNotations.
Local Open Scope Z_scope.

(* ---- C94 ---- *)

(* Forward playback of a RAW file: after any execution, with reloads late, missing or
   interrupted, one reload and L + 1 serviced updates repair everything, where L is how
   many blocks the play position is beyond the buffers *)
Theorem C94_raw : forall r fl nch stack garbage ps pb B, cfg_ok (r_cfg r) -> r_kind r <> KArray ->
  basic_settings r LNone ps pb -> r_hdr r = 0 -> (1 <= nch)%nat -> Z.of_nat nch < 2 ^ 15 -> 0 < fsize fl < 2 ^ 31 ->
  let len := fsize fl / 2 / Z.of_nat nch in
  (ps = PArbitrary -> 0 <= pb <= len) ->
  grid_rate (r_rate r) -> (0 <= R64 (r_rate r))%R -> ((R64 (r_rate r) + 1) * INR nch <= IZR (2 ^ 30))%R ->
  keeps_up (r_cfg r) nch B (R64 (r_rate r)) ->
  exists r', r_play_file r (Some fl) false (Z.of_nat nch) stack garbage = Ok (true, r') /\
    recovers B r' (fun k => 0 + (start_frame ps pb + Zfloor (INR k * R64 (r_rate r))) * Z.of_nat nch)
      (file_pitch fl 0 len nch (start_frame ps pb) (R64 (r_rate r))).
Proof. exact raw_late. Qed.

Theorem C94_wav : forall r fl nch tags n nraw stack garbage ps pb B, cfg_ok (r_cfg r) -> r_kind r <> KArray ->
  basic_settings r LNone ps pb -> bytes_ok stack -> wav_file fl nch tags n -> Z.of_nat nch < 2 ^ 15 ->
  let len := n / 2 / Z.of_nat nch in
  (ps = PArbitrary -> 0 <= pb <= len) ->
  grid_rate (r_rate r) -> (0 <= R64 (r_rate r))%R -> ((R64 (r_rate r) + 1) * INR nch <= IZR (2 ^ 30))%R ->
  keeps_up (r_cfg r) nch B (R64 (r_rate r)) ->
  exists r', r_play_file r (Some fl) true nraw stack garbage = Ok (true, r') /\
    recovers B r' (fun k => (44 + tags) / 2 + (start_frame ps pb + Zfloor (INR k * R64 (r_rate r))) * Z.of_nat nch)
      (file_pitch fl ((44 + tags) / 2) len nch (start_frame ps pb) (R64 (r_rate r))).
Proof. exact wav_late. Qed.

(* Twenty updates without a reload: sixteen are silent.  The next sample is 9 blocks
   beyond the buffers; of ten serviced updates six are silent, the others are right. *)
Example C94_case : exists r, flash_open = Ok (true, r) /\ misses r = 0 /\ exists r2 r3 r4,
  crun (r, None) (repeat 64%nat 20) ([stretch 0 64; stretch 64 64; stretch 128 64; stretch 192 64] ++ repeat (repeat [0] 64) 16) (r2, None) /\
  r_triggerReload 200 r2 = Ok r3 /\ misses r2 = 1024 /\ misses r3 = 1024 /\ within 9 r3 1280 /\
  serviced 200 r3 (repeat 64%nat 10) =
    Ok (repeat (repeat [0] 64) 6 ++ [stretch 1664 64; stretch 1728 64; stretch 1792 64; stretch 1856 64], r4) /\ misses r4 = 1408.
Proof. exact late_case. Qed.
Example C94_hyps : cfg_ok (r_cfg (new_reader KFlash)) /\ basic_settings (new_reader KFlash) LNone PSample 0 /\
  grid_rate (r_rate (new_reader KFlash)) /\ ((R64 (r_rate (new_reader KFlash)) + 1) * INR 1 <= IZR (2 ^ 30))%R /\
  keeps_up (r_cfg (new_reader KFlash)) 1 64 (R64 (r_rate (new_reader KFlash))).
Proof. exact late_hyps. Qed.

Print Assumptions C94_raw.
Print Assumptions C94_wav.
