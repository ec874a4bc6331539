(* C31, C32, C64 and C65: playing again on a used object. *)

From Coq Require Import ZArith Lia List Bool.
From Flocq Require Import IEEE754.BinarySingleNaN.
From Verif Require Import Machine Floats WavModel CacheModel ReaderModel ReaderSpec CacheFacts CacheSpec FileSpec CacheFinal ReplaySpec ReplayProofs ReplayCases.
Import ListNotations.
Local Open Scope Z_scope.

(* ---- C31: false in three ways ---- *)

Theorem C31_refuted_fraction : exists s, used 20 any_file half_reader s /\ same_settings half_reader s /\
  starts 20 (raw8 s) [(4, false)] <> starts 20 (raw8 half_reader) [(4, false)].
Proof. exact fraction_stays. Qed.
Theorem C31_refuted_point : exists s, used 20 any_file lin_reader s /\ same_settings lin_reader s /\ r_rem s = r_rem lin_reader /\
  starts 20 (raw8 s) [(3, false)] <> starts 20 (raw8 lin_reader) [(3, false)].
Proof. exact point_stays. Qed.
Theorem C31_refuted_direction : exists s, used 20 any_file pp_reader s /\ deq (r_rate s) (dneg (r_rate pp_reader)) = true /\
  starts 20 (raw8 s) [(3, false)] <> starts 20 (raw8 pp_reader) [(3, false)].
Proof. exact direction_stays. Qed.

(* ---- C64: nothing else is left behind ---- *)

(* Two objects with the same settings and left-overs, whatever else they have been
   through, deliver the same from the same array, however it is then read *)
Theorem C64_raw : forall fuel r s m off len nch ns, same_settings r s -> same_leftovers r s ->
  starts fuel (x <- playRaw_array s m off len nch ;; Ok (true, x)) ns = starts fuel (x <- playRaw_array r m off len nch ;; Ok (true, x)) ns.
Proof. exact replay_raw. Qed.
Theorem C64_wav : forall fuel r s m ns, same_settings r s -> same_leftovers r s ->
  starts fuel (playWav_array s m) ns = starts fuel (playWav_array r m) ns.
Proof. exact replay_wav. Qed.
(* and from the same file; for RAW files the header offset must agree too (C32) *)
Theorem C64_file : forall fuel r s fo isw nraw stack g ns, same_settings r s -> same_leftovers r s -> same_bounds r s ->
  (isw = false -> r_hdr s = r_hdr r) ->
  starts fuel (r_play_file s fo isw nraw stack g) ns = starts fuel (r_play_file r fo isw nraw stack g) ns.
Proof. exact replay_file. Qed.
Example C64_case : exists s, same_settings half_reader s /\ same_leftovers half_reader s /\ r_pos1 s <> r_pos1 half_reader.
Proof. exact two_hyps. Qed.

(* ---- C65: at whole-number rates nothing is left behind ---- *)

Theorem C65_array : forall fuel ok r s m off len nch ns, used fuel ok r s -> r_rem r = d0 -> whole_rate r ->
  r_loop r <> LPingpong -> r_interp r <> ILinear ->
  starts fuel (x <- playRaw_array s m off len nch ;; Ok (true, x)) ns = starts fuel (x <- playRaw_array r m off len nch ;; Ok (true, x)) ns /\
  starts fuel (playWav_array s m) ns = starts fuel (playWav_array r m) ns.
Proof. exact replay_whole_array. Qed.
Theorem C65_file : forall fuel ok r s fo n stack g ns, used fuel ok r s -> r_rem r = d0 -> whole_rate r ->
  r_loop r <> LPingpong -> r_interp r <> ILinear -> same_bounds r s ->
  starts fuel (r_play_file s fo true n stack g) ns = starts fuel (r_play_file r fo true n stack g) ns.
Proof. exact replay_whole_file. Qed.
Example C65_case : (exists s, used 20 any_file three_reader s /\ three_check s = true) /\ r_rem three_reader = d0 /\ whole_rate three_reader /\
  r_loop three_reader <> LPingpong /\ r_interp three_reader <> ILinear.
Proof. exact three_hyps. Qed.

(* ---- C32 ---- *)

(* The header offset of a WAV file played before is kept: the RAW file starts late *)
Theorem C32_refuted : exists s, used 20 any_file (new_reader KSd) s /\ same_settings (new_reader KSd) s /\ r_rem s = d0 /\
  starts 20 (rawfile (new_reader KSd)) [(3, true)] = Ok (true, [[[1]; [2]; [3]]]) /\
  starts 20 (rawfile s) [(3, true)] <> starts 20 (rawfile (new_reader KSd)) [(3, true)].
Proof. exact header_stays. Qed.

(* An object that has played any number of RAW files and arrays, no WAV file: every
   sample of the file, from the first to the last *)
Theorem C32_raw_partial : forall fuel r s fl nch stack garbage pb B, used fuel raw_only r s -> cfg_ok (r_cfg r) -> r_kind r <> KArray ->
  basic_settings r LNone PSample pb -> r_rem r = d0 -> r_hdr r = 0 -> (1 <= nch)%nat -> Z.of_nat nch < 2 ^ 15 -> 0 < fsize fl < 2 ^ 31 ->
  r_rate r = d1 -> 2 * Z.of_nat B * Z.of_nat nch <= (Z.of_nat (c_nbuf (r_cfg r)) - 1) * BS (r_cfg r) ->
  exists r', r_play_file s (Some fl) false (Z.of_nat nch) stack garbage = Ok (true, r') /\
    file_delivers B r' (nth_error (file_frames fl 0 nch (fsize fl / 2 / Z.of_nat nch))).
Proof. exact raw_used. Qed.
Example C32_case : exists s, used 20 raw_only (new_reader KSd) s /\ r_playing s = true.
Proof. exact rawused_hyps. Qed.

Print Assumptions C31_refuted_fraction.
Print Assumptions C31_refuted_point.
Print Assumptions C31_refuted_direction.
Print Assumptions C64_raw.
Print Assumptions C64_wav.
Print Assumptions C64_file.
Print Assumptions C65_array.
Print Assumptions C65_file.
Print Assumptions C32_refuted.
Print Assumptions C32_raw_partial.
