(* C98, C99: playback while the sketch changes the rate. *)

From Coq Require Import ZArith Lia List Bool Reals.
From RecordUpdate Require Import RecordUpdate.
From Flocq Require Import Core.Core IEEE754.BinarySingleNaN.
From Verif Require Import Machine Floats FloatFacts WavModel CacheModel ReaderModel ReaderSpec PlayProofs FilePlay FileForward
  CacheFacts CacheSpec WavSpec FileSpec CacheFinal InterpCases TapeSpec TapeProofs TapeCases.
Import ListNotations.
Local Open Scope Z_scope.

(* ---- C98 ---- *)

(* Rates are multiples of 2^-q from 0 to X; updates have at most B frames.  A RAW file
   plays like a tape whose speed is turned: nothing skipped, nothing missed. *)
Theorem C98_raw : forall q, 0 <= q <= 52 -> forall r fl nch stack garbage ps pb B X, cfg_ok (r_cfg r) -> r_kind r <> KArray ->
  basic_settings r LNone ps pb -> r_hdr r = 0 -> (1 <= nch)%nat -> Z.of_nat nch < 2 ^ 15 -> 0 < fsize fl < 2 ^ 31 ->
  let len := fsize fl / 2 / Z.of_nat nch in
  (ps = PArbitrary -> 0 <= pb <= len) -> rate_ok q X (r_rate r) ->
  ((X + 1) * INR nch <= IZR (2 ^ 30))%R ->
  ((INR (2 * B) * X + 2) * INR nch <= IZR ((Z.of_nat (c_nbuf (r_cfg r)) - 1) * BS (r_cfg r)))%R ->
  exists r', r_play_file r (Some fl) false (Z.of_nat nch) stack garbage = Ok (true, r') /\
    forall l, Forall (tape_ok q X B) l -> exists fuel r2,
      spun fuel r' l = Ok (tape (file_frame fl 0 nch) len (IZR (start_frame ps pb)) (R64 (r_rate r)) l, r2) /\ misses r2 = misses r'.
Proof. exact tape_raw. Qed.
Theorem C98_wav : forall q, 0 <= q <= 52 -> forall r fl nch tags n nraw stack garbage ps pb B X, cfg_ok (r_cfg r) -> r_kind r <> KArray ->
  basic_settings r LNone ps pb -> bytes_ok stack -> wav_file fl nch tags n -> Z.of_nat nch < 2 ^ 15 ->
  let len := n / 2 / Z.of_nat nch in
  (ps = PArbitrary -> 0 <= pb <= len) -> rate_ok q X (r_rate r) ->
  ((X + 1) * INR nch <= IZR (2 ^ 30))%R ->
  ((INR (2 * B) * X + 2) * INR nch <= IZR ((Z.of_nat (c_nbuf (r_cfg r)) - 1) * BS (r_cfg r)))%R ->
  exists r', r_play_file r (Some fl) true nraw stack garbage = Ok (true, r') /\
    forall l, Forall (tape_ok q X B) l -> exists fuel r2,
      spun fuel r' l = Ok (tape (file_frame fl ((44 + tags) / 2) nch) len (IZR (start_frame ps pb)) (R64 (r_rate r)) l, r2) /\
      misses r2 = misses r'.
Proof. exact tape_wav. Qed.
(* Arrays: updates of any size *)
Theorem C98_array : forall q, 0 <= q <= 52 -> forall r m off len nch ps pb B X, array_holds m off len nch -> basic_settings r LNone ps pb ->
  (ps = PArbitrary -> 0 <= pb <= len) -> rate_ok q X (r_rate r) -> ((X + 1) * INR nch <= IZR (2 ^ 30))%R ->
  exists r', playRaw_array r m off len (Z.of_nat nch) = Ok r' /\
    forall l, Forall (tape_ok q X B) l -> exists fuel r2,
      spun fuel r' l = Ok (tape (src_frame m off nch) len (IZR (start_frame ps pb)) (R64 (r_rate r)) l, r2).
Proof. exact tape_mem. Qed.
(* Every rate given as a float is such a rate, from 2^-21 to 256 *)
Theorem C98_float : forall X x, single_rate x -> R64 x = 0%R \/ (bpow radix2 (-21) <= R64 x <= bpow radix2 8)%R ->
  (R64 x <= X)%R -> rate_ok 44 X x.
Proof. exact single_tape. Qed.

(* Stereo from SD at up to 23 times the speed *)
Example C98_case : cfg_ok (r_cfg (new_reader KSd)) /\ r_kind (new_reader KSd) <> KArray /\
  basic_settings (new_reader KSd) LNone PSample 0 /\ r_hdr (new_reader KSd) = 0 /\ 0 < fsize (ramp_file 32768) < 2 ^ 31 /\
  rate_ok 44 23 (r_rate (new_reader KSd)) /\ Forall (tape_ok 44 23 128) tape_ex /\
  ((23 + 1) * INR 2 <= IZR (2 ^ 30))%R /\
  ((INR (2 * 128) * 23 + 2) * INR 2 <= IZR ((Z.of_nat (c_nbuf (r_cfg (new_reader KSd))) - 1) * BS (r_cfg (new_reader KSd))))%R.
Proof. exact tape_case. Qed.
(* Four frames; four at 1.5; two at 0; then at 23 *)
Example C98_case_heard : tape_starts (open_raw KSd d1 32768) tape_ex =
  Some ([[1; 2; 3; 4]; [5; 6; 8; 9]; [11; 11]; [11; 34; 57; 80; 103; 126]], 0).
Proof. exact tape_heard. Qed.

(* ---- C99 ---- *)

(* Turned back at twice the speed, an SD file is silent for a whole update *)
Theorem C99_refuted : exists r fuel bs r2, open_raw KSd d1 32768 = Ok r /\ spun fuel r turn_sd = Ok (bs, r2) /\ misses r = 0 /\ misses r2 = 191 /\
    length (nth 18 bs []) = 128%nat /\ forall fr, In fr (nth 18 bs []) -> fr = [0].
Proof. exact turn_sd_lost. Qed.
(* On serial flash at the same speed *)
Theorem C99_refuted_flash : exists r fuel bs r2, open_raw KFlash d1 8000 = Ok r /\ spun fuel r turn_flash = Ok (bs, r2) /\ misses r = 0 /\ misses r2 = 255 /\
    length (nth 7 bs []) = 128%nat /\ forall fr, In fr (nth 7 bs []) -> fr = [0].
Proof. exact turn_flash_lost. Qed.

Print Assumptions C98_raw.
Print Assumptions C98_wav.
Print Assumptions C98_array.
Print Assumptions C98_float.
Print Assumptions C99_refuted.
Print Assumptions C99_refuted_flash.
