(* C41, C42, C66, C67: times in milliseconds. *)

From Coq Require Import ZArith Lia List Bool.
From RecordUpdate Require Import RecordUpdate.
From Verif Require Import Machine Floats WavModel CacheModel ReaderModel ReaderSpec MillisModel MillisProofs MillisCases
  CacheFinal WavFinal PlayerCases.
Import ListNotations.
Local Open Scope Z_scope.

(* The value of B2M for a sample rate of 44100.0f *)
Theorem C41_constant : B2M rate_t4 = Ok b2m.
Proof. exact b2m_value. Qed.
(* [len] frames in memory, any number of channels *)
Theorem C41_array : forall r m off len nch s, playRaw_array r m off len nch = Ok s -> 0 <= len < 2 ^ 30 ->
  len * 1000 / 44100 - 1 <= lengthMillis b2m s <= len * 1000 / 44100.
Proof. exact array_length. Qed.
(* a RAW file of mono frames; [n] is whatever channel count the caller gave *)
Theorem C41_rawfile_partial : forall r f n st g b s frames, r_play_file r (Some f) false n st g = Ok (b, s) -> r_kind r <> KArray ->
  fsize f = 2 * frames -> 0 <= frames < 2 ^ 30 ->
  frames * 1000 / 44100 - 1 <= lengthMillis b2m s <= frames * 1000 / 44100.
Proof. exact mono_file_length. Qed.
(* reading does not change it *)
Theorem C41_read : forall fuel r n l s, r_read fuel r n = Ok (l, s) -> lengthMillis b2m s = lengthMillis b2m r.
Proof. exact read_length. Qed.
Example C41_case : exists s, playRaw_array (new_reader KArray) (ramp_mem 88200) 0 44100 1 = Ok s /\ (lengthMillis b2m s =? 999) = true.
Proof. exact second_array. Qed.
(* false for a mono WAV file: the headers are counted as audio *)
Theorem C41_refuted_wav : exists s, r_play_file (new_reader KSd) (Some (mkfile wav40)) true 1 (fun _ => 0) dirty = Ok (true, s) /\
  r_nch s = 1 /\ r_fsamples s = 40 /\ lengthMillis b2m s = 1 /\ 40 * 1000 / 44100 = 0.
Proof. exact wav_long. Qed.

(* C66: for every file it is the length of the whole file taken as mono audio *)
Theorem C66_file : forall r f isw n st g b s, r_play_file r (Some f) isw n st g = Ok (b, s) -> r_kind r <> KArray -> 0 <= fsize f < 2 ^ 31 ->
  fsize f * 1000 / 88200 - 1 <= lengthMillis b2m s <= fsize f * 1000 / 88200.
Proof. exact file_length. Qed.
Example C66_case : exists s, r_play_file (new_reader KSd) (Some (ramp_file 176400)) false 2 (fun _ => 0) dirty = Ok (true, s) /\
  r_nch s = 2 /\ lengthMillis b2m s = 1999 /\ 176400 / 4 * 1000 / 44100 = 1000.
Proof. exact stereo_double. Qed.

(* C42 and C67: with the position inside the file ... *)
Theorem C42_zero_partial : forall r, r_kind r <> KArray -> 2 <= r_fsize r < 2 ^ 31 -> place r = 0 -> positionMillis b2m r = Ok 0.
Proof. exact position_zero. Qed.
Theorem C67_bounded : forall r, r_kind r <> KArray -> 2 <= r_fsize r < 2 ^ 31 -> 0 <= place r <= r_fsize r / 2 ->
  exists t, positionMillis b2m r = Ok t /\ 0 <= t <= lengthMillis b2m r /\
    place r * lengthMillis b2m r / (r_fsize r / 2) - 1 <= t <= place r * lengthMillis b2m r / (r_fsize r / 2) + 1.
Proof. exact position_bounded. Qed.
Theorem C67_monotone : forall r s, r_kind r <> KArray -> r_kind s <> KArray -> 2 <= r_fsize r < 2 ^ 31 -> r_fsize s = r_fsize r ->
  0 <= place r -> place r <= place s -> place s <= r_fsize r / 2 ->
  exists t u, positionMillis b2m r = Ok t /\ positionMillis b2m s = Ok u /\ t <= u.
Proof. exact position_mono. Qed.
Example C67_case : exists r l s, r_play_file (new_reader KSd) (Some (ramp_file 3000)) false 1 (fun _ => 0) dirty = Ok (true, r) /\
  r_read 800 r 700 = Ok (l, s) /\ r_kind s <> KArray /\ r_fsize s = 3000 /\ place s = 700 /\ positionMillis b2m s = Ok 15 /\ lengthMillis b2m s = 34.
Proof. exact mid_file. Qed.
(* ... and false of playback in general: at the end the position is beyond the file,
   in reverse it is before it, and a file of one byte divides 0 by 0 *)
Theorem C42_refuted_end : exists r l s, r_play_file (fast 90) (Some (ramp_file 200)) false 1 (fun _ => 0) dirty = Ok (true, r) /\
  r_read 20 r 5 = Ok (l, s) /\ lengthMillis b2m s = 2 /\ positionMillis b2m s = Ok 3.
Proof. exact past_end. Qed.
Theorem C42_refuted_reverse : exists r l s, r_play_file (fast (-90)) (Some (ramp_file 200)) false 1 (fun _ => 0) dirty = Ok (true, r) /\
  r_read 20 r 5 = Ok (l, s) /\ positionMillis b2m s = UB UbFloatToInt.
Proof. exact before_start. Qed.
Theorem C42_refuted_byte : exists s, r_play_file (new_reader KSd) (Some (ramp_file 1)) false 1 (fun _ => 0) dirty = Ok (true, s) /\
  positionMillis b2m s = UB UbFloatToInt.
Proof. exact one_byte. Qed.

Print Assumptions C41_constant.
Print Assumptions C41_array.
Print Assumptions C41_rawfile_partial.
Print Assumptions C41_read.
Print Assumptions C41_refuted_wav.
Print Assumptions C66_file.
Print Assumptions C42_zero_partial.
Print Assumptions C67_bounded.
Print Assumptions C67_monotone.
Print Assumptions C42_refuted_end.
Print Assumptions C42_refuted_reverse.
Print Assumptions C42_refuted_byte.
