(* C100, C101: reverse playback of files. *)

From Coq Require Import ZArith Lia List Bool Reals.
From RecordUpdate Require Import RecordUpdate.
From Flocq Require Import Core.Core IEEE754.BinarySingleNaN.
From Verif Require Import Machine Floats FloatFacts WavModel CacheModel ReaderModel ReaderSpec PlayProofs FilePlay FileForward
  CacheFacts CacheSpec WavSpec FileSpec CacheFinal InterpCases TapeSpec TapeCases BackSpec BackOpen BackCases.
Import ListNotations.
Local Open Scope Z_scope.

(* ---- C100 ---- *)

(* Rates are multiples of 2^-q from -X to 0, without 0, changed only before the start of
   the audio is reached; updates have at most B frames *)
Theorem C100_raw : forall q, 0 <= q <= 52 -> forall r fl nch stack garbage ps pb p0 B X, cfg_ok (r_cfg r) -> r_kind r <> KArray ->
  basic_settings r LNone ps pb -> r_hdr r = 0 -> (1 <= nch)%nat -> Z.of_nat nch < 2 ^ 15 -> 0 < fsize fl < 2 ^ 31 ->
  let len := fsize fl / 2 / Z.of_nat nch in
  begins (fsize fl) 0 len nch ps pb p0 -> 0 <= p0 < len -> first_block (BS (r_cfg r)) (fsize fl) 0 nch p0 ->
  back_ok q X (r_rate r) -> ((X + 1) * INR nch <= IZR (2 ^ 30))%R ->
  ((INR (2 * B) * X + 2) * INR nch <= IZR ((Z.of_nat (c_nbuf (r_cfg r)) - 1) * BS (r_cfg r)))%R ->
  exists r', r_play_file r (Some fl) false (Z.of_nat nch) stack garbage = Ok (true, r') /\
    forall l, Forall (rtape_ok q X B) l -> above (IZR p0) (R64 (r_rate r)) l -> exists fuel r2,
      spun fuel r' l = Ok (rtape (file_frame fl 0 nch) (IZR p0) (R64 (r_rate r)) l, r2) /\ misses r2 = misses r'.
Proof. exact back_raw. Qed.
Theorem C100_wav : forall q, 0 <= q <= 52 -> forall r fl nch tags n nraw stack garbage ps pb p0 B X, cfg_ok (r_cfg r) -> r_kind r <> KArray ->
  basic_settings r LNone ps pb -> bytes_ok stack -> wav_file fl nch tags n -> Z.of_nat nch < 2 ^ 15 ->
  let len := n / 2 / Z.of_nat nch in
  begins (fsize fl) ((44 + tags) / 2) len nch ps pb p0 -> 0 <= p0 < len -> first_block (BS (r_cfg r)) (fsize fl) ((44 + tags) / 2) nch p0 ->
  back_ok q X (r_rate r) -> ((X + 1) * INR nch <= IZR (2 ^ 30))%R ->
  ((INR (2 * B) * X + 2) * INR nch <= IZR ((Z.of_nat (c_nbuf (r_cfg r)) - 1) * BS (r_cfg r)))%R ->
  exists r', r_play_file r (Some fl) true nraw stack garbage = Ok (true, r') /\
    forall l, Forall (rtape_ok q X B) l -> above (IZR p0) (R64 (r_rate r)) l -> exists fuel r2,
      spun fuel r' l = Ok (rtape (file_frame fl ((44 + tags) / 2) nch) (IZR p0) (R64 (r_rate r)) l, r2) /\ misses r2 = misses r'.
Proof. exact back_wav. Qed.
(* Arrays: updates of any size *)
Theorem C100_array : forall q, 0 <= q <= 52 -> forall r m off len nch ps pb p0 B X, array_holds m off len nch -> basic_settings r LNone ps pb ->
  0 <= p0 < len -> (match ps with
   | PSample => p0 * Z.of_nat nch = len - Z.of_nat nch
   | PLoop => nch = 1%nat /\ p0 = len - 1
   | PArbitrary => p0 = pb
   end) -> back_ok q X (r_rate r) -> ((X + 1) * INR nch <= IZR (2 ^ 30))%R ->
  exists r', playRaw_array r m off len (Z.of_nat nch) = Ok r' /\
    forall l, Forall (rtape_ok q X B) l -> above (IZR p0) (R64 (r_rate r)) l -> exists fuel r2,
      spun fuel r' l = Ok (rtape (src_frame m off nch) (IZR p0) (R64 (r_rate r)) l, r2).
Proof. exact back_mem. Qed.
(* Every negative rate given as a float is such a rate, from 2^-21 to 256 *)
Theorem C100_float : forall X x, single_rate x -> (bpow radix2 (-21) <= - R64 x <= bpow radix2 8)%R -> (- R64 x <= X)%R -> back_ok 44 X x.
Proof. exact single_back. Qed.

(* Stereo from SD at up to 23 times the speed *)
Example C100_case : let r := back_reader KSd in
  cfg_ok (r_cfg r) /\ r_kind r <> KArray /\
  basic_settings r LNone PSample 0 /\ r_hdr r = 0 /\ 0 < fsize (ramp_file 32768) < 2 ^ 31 /\
  begins (fsize (ramp_file 32768)) 0 8192 2 PSample 0 8191 /\ first_block (BS (r_cfg r)) (fsize (ramp_file 32768)) 0 2 8191 /\
  back_ok 44 23 (r_rate r) /\ Forall (rtape_ok 44 23 128) back_ex /\ above (IZR 8191) (R64 (r_rate r)) back_ex /\
  ((23 + 1) * INR 2 <= IZR (2 ^ 30))%R /\
  ((INR (2 * 128) * 23 + 2) * INR 2 <= IZR ((Z.of_nat (c_nbuf (r_cfg r)) - 1) * BS (r_cfg r)))%R.
Proof. exact back_case. Qed.
(* Four frames; four at -1.5; then at -23; two more *)
Example C100_case_heard : tape_starts (open_raw KSd (dneg d1) 32768) back_ex =
  Some ([[7040; 7039; 7038; 7037]; [7036; 7035; 7033; 7032]; [7030; 7007; 6984; 6961; 6938; 6915]; [1142; 1141]], 0).
Proof. exact back_heard. Qed.

(* ---- C101 ---- *)

(* SD at rate -1, a file of 4148 samples none of which is 0: 204 samples are lost twice,
   and two whole updates are silent *)
Theorem C101_refuted : (exists r fuel bs r2, open_raw KSd (dneg d1) (2 * 4148) = Ok r /\ spun fuel r (repeat (Block 128) 33) = Ok (bs, r2) /\
    misses r = 0 /\ misses r2 = 408 /\ length (nth 1 bs []) = 128%nat /\ length (nth 17 bs []) = 128%nat /\
    forall fr, In fr (nth 1 bs [] ++ nth 17 bs []) -> fr = [0]) /\ forall n i, file_sample (ramp_file n) i <> 0.
Proof. exact (conj back_lost_sd ramp_sounds). Qed.
(* Serial flash: all but the first 52 samples are lost *)
Theorem C101_refuted_flash : exists r fuel bs r2, open_raw KFlash (dneg d1) (2 * 692) = Ok r /\ spun fuel r (repeat (Block 128) 6) = Ok (bs, r2) /\
    misses r = 0 /\ misses r2 = 640 /\ length (nth 1 bs []) = 128%nat /\ length (nth 4 bs []) = 128%nat /\
    forall fr, In fr (nth 1 bs [] ++ nth 4 bs []) -> fr = [0].
Proof. exact back_lost_flash. Qed.
(* Three channels: a sample of the first frame heard is lost *)
Theorem C101_refuted_frame : exists r fuel bs r2,
  r_play_file (back_reader KSd) (Some (ramp_file (2 * 2049))) false 3 (fun _ => 0) dirty = Ok (true, r) /\
  spun fuel r [Block 1] = Ok (bs, r2) /\ misses r = 0 /\ misses r2 = 1 /\
  bs = [[[3967; 3968; 0]]] /\ file_frame (ramp_file (2 * 2049)) 0 3 682 = [3967; 3968; 4097].
Proof. exact back_lost_frame. Qed.

Print Assumptions C100_raw.
Print Assumptions C100_wav.
Print Assumptions C100_array.
Print Assumptions C100_float.
Print Assumptions C101_refuted.
Print Assumptions C101_refuted_flash.
Print Assumptions C101_refuted_frame.
