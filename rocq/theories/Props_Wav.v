(* C01, C02, C03, C04, C45, C47: WAV headers and opening WAV data. *)

From Coq Require Import ZArith Lia List Bool.
From RecordUpdate Require Import RecordUpdate.
From Verif Require Import Machine Floats WavModel WavSpec WavProofs CacheModel CacheFacts ReaderModel
  ReaderSpec PlayProofs WavPlayProofs WavFinal.
Import ListNotations.
Local Open Scope Z_scope.

(* ---- C01 ---- *)

(* Decoding the canonical encoding of any field values gives them back, whatever
   was in the header structure before *)
Theorem C01_roundtrip : forall chunk format channels rate byte_rate align bits cs h,
  0 <= chunk < 2 ^ 32 -> 0 <= format < 2 ^ 16 -> 0 <= channels < 2 ^ 16 -> 0 <= rate < 2 ^ 32 ->
  0 <= byte_rate < 2 ^ 32 -> 0 <= align < 2 ^ 16 -> 0 <= bits < 2 ^ 16 ->
  exists h', readWaveHeaderFromBuffer
      (rd_mem (mem_of (canonical chunk format channels rate byte_rate align bits)) 0) cs h = Ok (true, h')
    /\ h_riff h' = t_RIFF /\ u32 (h_chunk_size h') = chunk /\ h_wave h' = t_WAVE /\ h_fmt h' = t_fmt
    /\ h_fmt_size h' = 16 /\ u16 (h_format h') = format /\ u16 (h_channels h') = channels
    /\ u32 (h_rate h') = rate /\ u32 (h_byte_rate h') = byte_rate /\ u16 (h_align h') = align
    /\ u16 (h_bits h') = bits.
Proof. exact header_roundtrip. Qed.

(* A LIST header of n bytes is skipped together with its 8 header bytes *)
Theorem C01_list : forall n, 0 <= n < 2 ^ 32 ->
  readInfoTags (rd_mem (mem_of (t_LIST ++ enc32 n)) 0) 0 = Ok (Some (u32 (n + 8))).
Proof. exact list_header. Qed.

Theorem C01_data : forall n, 0 <= n < 2 ^ 32 ->
  readInfoTags (rd_mem (mem_of (t_data ++ enc32 n)) 0) 0 = Ok (Some 0) /\
  readDataHeader (rd_mem (mem_of (t_data ++ enc32 n)) 0) 0 = Ok (Some n).
Proof. exact data_header. Qed.

Example C01_case :
  ('(ok, h) <- readWaveHeaderFromBuffer
     (rd_mem (mem_of (canonical 4294967295 1 2 44100 4026531840 65535 16)) 0) false hdr0 ;;
   Ok (ok, u16 (h_channels h), u32 (h_byte_rate h), u16 (h_align h)))
  = Ok (true, 2, 4026531840, 65535).
Proof. vm_compute. reflexivity. Qed.

(* ---- C02 ---- *)

(* A 36-byte buffer is accepted exactly when it has the documented format *)
Theorem C02_accepts_partial : forall m cs h, msize m = 36 -> bytes_ok (mbyte m) ->
  (exists h', readWaveHeaderFromBuffer (rd_mem m 0) cs h = Ok (true, h')) <-> header_valid (mbyte m).
Proof. exact header_accepts. Qed.

(* The exact set of inputs with undefined behaviour: bad RIFF tag and no
   terminating NUL in the buffer (printed with %s), or RIFF with a wrong WAVE or
   'fmt ' tag (a char is printed with %s) *)
Theorem C02_ub : forall m cs h, msize m = 36 -> bytes_ok (mbyte m) ->
  is_ub (readWaveHeaderFromBuffer (rd_mem m 0) cs h) <->
  ((slice (mbyte m) 0 4 <> t_RIFF /\ cs = false) \/
   (slice (mbyte m) 0 4 = t_RIFF /\ (slice (mbyte m) 8 4 <> t_WAVE \/ slice (mbyte m) 12 4 <> t_fmt))).
Proof. exact header_ub. Qed.

(* so "rejected without undefined behaviour" is false *)
Theorem C02_refuted : exists m h,
  msize m = 36 /\ bytes_ok (mbyte m) /\ ~ header_valid (mbyte m) /\
  is_ub (readWaveHeaderFromBuffer (rd_mem m 0) (has_nul (mbyte m) 0 36) h).
Proof. exact header_ub_witness. Qed.

Example C02_case : header_valid (mbyte (mem_of (canonical 36 1 2 44100 176400 4 16))) /\
  msize (mem_of (canonical 36 1 2 44100 176400 4 16)) = 36.
Proof. repeat split. Qed.

(* ---- C03 ---- *)

(* Partial: files whose first 36 bytes are not in the undefined set of C02, whose
   LIST size does not wrap and that do not declare zero channels; object set to
   start at the first sample. *)
Theorem C03_wav_file_partial : forall r f nraw stack garbage,
  r_kind r <> KArray -> cfg_ok (r_cfg r) -> r_pstart r = PSample ->
  bytes_ok stack -> bytes_ok (fbyte f) -> 36 <= fsize f < 2 ^ 31 -> list_sane (fsize f) (fbyte f) ->
  header_safe (fbyte f) -> hdr_channels (fbyte f) <> 0 ->
  exists ok r', r_play_file r (Some f) true nraw stack garbage = Ok (ok, r') /\
    (ok = true <-> file_plays (fsize f) (fbyte f)) /\ r_playing r' = ok /\
    (ok = true -> r_nch r' = hdr_channels (fbyte f)).
Proof. exact playWav_file. Qed.

(* Whenever the call returns at all (any start mode, any size below 2^31) *)
Theorem C03_result_partial : forall r fo nraw stack garbage ok r',
  r_kind r <> KArray -> bytes_ok stack ->
  (forall f, fo = Some f -> bytes_ok (fbyte f) /\ 0 <= fsize f < 2 ^ 31 /\ list_sane (fsize f) (fbyte f)) ->
  r_play_file r fo true nraw stack garbage = Ok (ok, r') ->
  (ok = true <-> exists f, fo = Some f /\ file_plays (fsize f) (fbyte f)) /\
  r_playing r' = ok /\
  (forall f, fo = Some f -> ok = true -> r_nch r' = hdr_channels (fbyte f)).
Proof. exact playWav_file_result. Qed.

Theorem C03_missing_file : forall r nraw stack garbage, r_kind r <> KArray ->
  exists r', r_play_file r None true nraw stack garbage = Ok (false, r') /\ r_playing r' = false.
Proof. exact playWav_missing. Qed.

(* False in general: a LIST size of 2^32-48 makes a malformed file play its own
   header, and a RIFF file that is not WAVE is undefined behaviour *)
Theorem C03_refuted_wrap : exists r f nraw stack garbage r',
  r_kind r = KSd /\ bytes_ok (fbyte f) /\ bytes_ok stack /\ 36 <= fsize f < 2 ^ 31 /\
  ~ file_plays (fsize f) (fbyte f) /\ r_play_file r (Some f) true nraw stack garbage = Ok (true, r').
Proof. exact wrap_accepted. Qed.
Theorem C03_refuted_ub : exists r f nraw stack garbage,
  r_kind r = KSd /\ bytes_ok (fbyte f) /\ bytes_ok stack /\ 36 <= fsize f < 2 ^ 31 /\
  is_ub (r_play_file r (Some f) true nraw stack garbage).
Proof. exact avi_ub. Qed.

Example C03_case : r_kind (new_reader KSd) <> KArray /\ cfg_ok (r_cfg (new_reader KSd)) /\
  r_pstart (new_reader KSd) = PSample /\ bytes_ok (fbyte (mkfile wav_ex)) /\
  36 <= fsize (mkfile wav_ex) < 2 ^ 31 /\ list_sane (fsize (mkfile wav_ex)) (fbyte (mkfile wav_ex)) /\
  header_safe (fbyte (mkfile wav_ex)) /\ hdr_channels (fbyte (mkfile wav_ex)) = 2 /\
  file_plays (fsize (mkfile wav_ex)) (fbyte (mkfile wav_ex)).
Proof. exact wav_ex_case. Qed.

(* ---- C04 ---- *)

(* Accepted exactly when the headers are right (header outside C02's undefined
   set, headers inside the array, at least one channel) *)
Theorem C04_accepts : forall r m, bytes_ok (mbyte m) -> headers_inside m ->
  header_safe (mbyte m) -> 1 <= hdr_channels (mbyte m) ->
  r_pstart r = PSample -> dle d0 (r_rate r) = true ->
  exists ok r', playWav_array r m = Ok (ok, r') /\ (ok = true <-> array_plays (mbyte m)).
Proof. exact playWav_array_iff. Qed.

(* ... and the frames after the data header are what is played *)
Theorem C04_plays : forall r m tags n nch pb, bytes_ok (mbyte m) -> headers_inside m ->
  header_valid (mbyte m) -> data_chunk (mbyte m) tags n -> hdr_channels (mbyte m) = Z.of_nat nch ->
  array_holds m (44 + tags) (n / Z.of_nat nch / 2) nch ->
  basic_settings r LNone PSample pb -> r_rate r = d1 ->
  exists r', playWav_array r m = Ok (true, r') /\
    delivers r' (nth_error (source_frames m (44 + tags) nch (n / Z.of_nat nch / 2))).
Proof. exact playWav_array_plays. Qed.

Example C04_case : bytes_ok (mbyte (mem_of wav_ex)) /\ headers_inside (mem_of wav_ex) /\
  header_safe (mbyte (mem_of wav_ex)) /\
  header_valid (mbyte (mem_of wav_ex)) /\ data_chunk (mbyte (mem_of wav_ex)) 12 12 /\
  hdr_channels (mbyte (mem_of wav_ex)) = Z.of_nat 2 /\
  array_holds (mem_of wav_ex) (44 + 12) (12 / Z.of_nat 2 / 2) 2.
Proof. exact wav_ex_array. Qed.
Example C04_run : source_frames (mem_of wav_ex) 56 2 3 = [[10; 20]; [30; 40]; [50; 60]].
Proof. vm_compute. reflexivity. Qed.

(* ---- C45 ---- *)

(* playWav(array, length) never plays anything *)
Theorem C45_silent : forall r m len pb, 0 <= msize m ->
  basic_settings r LNone PSample pb -> r_rate r = d1 ->
  exists r', playWav_array_len r m 0 len = Ok r' /\ delivers r' (nth_error []).
Proof. exact playWav_len_silent. Qed.
Theorem C45_refuted : exists r m len r', basic_settings r LNone PSample 0 /\ r_rate r = d1 /\
  header_valid (mbyte m) /\ data_chunk (mbyte m) 12 12 /\ msize m = len /\
  playWav_array_len r m 0 len = Ok r' /\
  ~ delivers r' (nth_error (source_frames m 56 2 3)).
Proof. exact playWav_len_refuted. Qed.

(* ---- C47 ---- *)

(* Every playable WAV file declaring zero channels divides by zero *)
Theorem C47_refuted_zero : forall r f nraw stack garbage,
  r_kind r <> KArray -> bytes_ok stack -> bytes_ok (fbyte f) -> 36 <= fsize f < 2 ^ 31 ->
  list_sane (fsize f) (fbyte f) -> file_plays (fsize f) (fbyte f) -> hdr_channels (fbyte f) = 0 ->
  r_play_file r (Some f) true nraw stack garbage = UB UbDivZero.
Proof. exact zero_channels_ub. Qed.

(* Every one declaring 0x8000 or more is accepted, then any read is undefined *)
Theorem C47_refuted_huge : forall r f nraw stack garbage,
  r_kind r <> KArray -> cfg_ok (r_cfg r) -> r_pstart r = PSample ->
  bytes_ok stack -> bytes_ok (fbyte f) -> 36 <= fsize f < 2 ^ 31 -> list_sane (fsize f) (fbyte f) ->
  file_plays (fsize f) (fbyte f) -> hdr_channels (fbyte f) < 0 ->
  exists r', r_play_file r (Some f) true nraw stack garbage = Ok (true, r') /\
    forall fuel n, r_read fuel r' n = UB UbVla.
Proof. exact huge_channels_ub. Qed.

(* Nine channels with interpolation overrun the per-channel tables *)
Theorem C47_refuted_nine : exists m r, header_valid (mbyte m) /\ data_chunk (mbyte m) 0 18 /\
  hdr_channels (mbyte m) = 9 /\ r_interp r = ILinear /\
  is_ub ('(_, r') <- playWav_array r m ;; r_read 20 r' 1).
Proof. exact nine_channels_ub. Qed.

Example C47_case : bytes_ok (fbyte (mkfile wav_zero)) /\ 36 <= fsize (mkfile wav_zero) < 2 ^ 31 /\
  list_sane (fsize (mkfile wav_zero)) (fbyte (mkfile wav_zero)) /\
  file_plays (fsize (mkfile wav_zero)) (fbyte (mkfile wav_zero)) /\ hdr_channels (fbyte (mkfile wav_zero)) = 0.
Proof. exact zero_channels_case. Qed.

Print Assumptions C01_roundtrip.
Print Assumptions C01_list.
Print Assumptions C01_data.
Print Assumptions C02_accepts_partial.
Print Assumptions C02_ub.
Print Assumptions C02_refuted.
Print Assumptions C03_wav_file_partial.
Print Assumptions C03_result_partial.
Print Assumptions C03_missing_file.
Print Assumptions C03_refuted_wrap.
Print Assumptions C03_refuted_ub.
Print Assumptions C04_accepts.
Print Assumptions C04_plays.
Print Assumptions C45_silent.
Print Assumptions C45_refuted.
Print Assumptions C47_refuted_zero.
Print Assumptions C47_refuted_huge.
Print Assumptions C47_refuted_nine.
