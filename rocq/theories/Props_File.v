(* C25, C28, C10 for files, and C56-C58: playback from files. *)

From Coq Require Import ZArith Lia List Bool Reals Lra.
From RecordUpdate Require Import RecordUpdate.
From Flocq Require Import Core.Core IEEE754.BinarySingleNaN.
From Verif Require Import Machine Floats FloatFacts WavModel CacheModel ReaderModel ReaderSpec StreamFacts CacheFacts
  CacheSpec WavSpec WavFinal FileSpec PlayProofs FilePlay FileForward CacheFinal.
Import ListNotations.
Local Open Scope Z_scope.

(* ---- C25 ---- *)

(* With a reload serviced after every update of at most B frames, two updates spanning
   no more than the buffered blocks minus one, forward playback of a WAV file delivers
   frame p0 + floor(k x) of its data as k-th frame, for every k, and misses nothing. *)
Theorem C25_wav : forall r fl nch tags n nraw stack garbage ps pb B, cfg_ok (r_cfg r) -> r_kind r <> KArray ->
  basic_settings r LNone ps pb -> bytes_ok stack -> wav_file fl nch tags n -> Z.of_nat nch < 2 ^ 15 ->
  let len := n / 2 / Z.of_nat nch in
  (ps = PArbitrary -> 0 <= pb <= len) ->
  grid_rate (r_rate r) -> (0 <= R64 (r_rate r))%R -> ((R64 (r_rate r) + 1) * INR nch <= IZR (2 ^ 30))%R ->
  keeps_up (r_cfg r) nch B (R64 (r_rate r)) ->
  exists r', r_play_file r (Some fl) true nraw stack garbage = Ok (true, r') /\
    file_delivers B r' (file_pitch fl ((44 + tags) / 2) len nch (start_frame ps pb) (R64 (r_rate r))).
Proof. exact wav_forward. Qed.

(* The same for RAW files, on an object that has no header offset left over *)
Theorem C25_raw : forall r fl nch stack garbage ps pb B, cfg_ok (r_cfg r) -> r_kind r <> KArray ->
  basic_settings r LNone ps pb -> r_hdr r = 0 -> (1 <= nch)%nat -> Z.of_nat nch < 2 ^ 15 -> 0 < fsize fl < 2 ^ 31 ->
  let len := fsize fl / 2 / Z.of_nat nch in
  (ps = PArbitrary -> 0 <= pb <= len) ->
  grid_rate (r_rate r) -> (0 <= R64 (r_rate r))%R -> ((R64 (r_rate r) + 1) * INR nch <= IZR (2 ^ 30))%R ->
  keeps_up (r_cfg r) nch B (R64 (r_rate r)) ->
  exists r', r_play_file r (Some fl) false (Z.of_nat nch) stack garbage = Ok (true, r') /\
    file_delivers B r' (file_pitch fl 0 len nch (start_frame ps pb) (R64 (r_rate r))).
Proof. exact raw_forward. Qed.

(* When two updates span no more than that *)
Theorem C25_speed : forall c nch B x, (0 <= x)%R ->
  ((INR (2 * B) * x + 2) * INR nch <= IZR ((Z.of_nat (c_nbuf c) - 1) * BS c))%R -> keeps_up c nch B x.
Proof. exact keeps_up_speed. Qed.

Example C25_case : cfg_ok (r_cfg (new_reader KSd)) /\ r_kind (new_reader KSd) <> KArray /\
  basic_settings (new_reader KSd) LNone PSample 0 /\ r_hdr (new_reader KSd) = 0 /\
  r_rate (new_reader KSd) = d1 /\ 0 < fsize (ramp_file 32768) < 2 ^ 31 /\
  grid_rate (r_rate (new_reader KSd)) /\ keeps_up (r_cfg (new_reader KSd)) 2 128 (R64 (r_rate (new_reader KSd))) /\
  ((R64 (r_rate (new_reader KSd)) + 1) * INR 2 <= IZR (2 ^ 30))%R.
Proof. exact file_case. Qed.
Example C25_case_wav : wav_file (mkfile wav_ex) 2 12 12.
Proof. exact wav_ex_file. Qed.

(* ---- C56: files at rate 1.0 ---- *)

Theorem C56_wav_unity : forall r fl nch tags n nraw stack garbage pb B, cfg_ok (r_cfg r) -> r_kind r <> KArray ->
  basic_settings r LNone PSample pb -> bytes_ok stack -> wav_file fl nch tags n -> Z.of_nat nch < 2 ^ 15 ->
  r_rate r = d1 -> 2 * Z.of_nat B * Z.of_nat nch <= (Z.of_nat (c_nbuf (r_cfg r)) - 1) * BS (r_cfg r) ->
  exists r', r_play_file r (Some fl) true nraw stack garbage = Ok (true, r') /\
    file_delivers B r' (nth_error (file_frames fl ((44 + tags) / 2) nch (n / 2 / Z.of_nat nch))).
Proof. exact wav_unity. Qed.
Theorem C56_raw_unity : forall r fl nch stack garbage pb B, cfg_ok (r_cfg r) -> r_kind r <> KArray ->
  basic_settings r LNone PSample pb -> r_hdr r = 0 -> (1 <= nch)%nat -> Z.of_nat nch < 2 ^ 15 -> 0 < fsize fl < 2 ^ 31 ->
  r_rate r = d1 -> 2 * Z.of_nat B * Z.of_nat nch <= (Z.of_nat (c_nbuf (r_cfg r)) - 1) * BS (r_cfg r) ->
  exists r', r_play_file r (Some fl) false (Z.of_nat nch) stack garbage = Ok (true, r') /\
    file_delivers B r' (nth_error (file_frames fl 0 nch (fsize fl / 2 / Z.of_nat nch))).
Proof. exact raw_unity. Qed.

(* SD: 8 channels in updates of 128 frames *)
Example C56_case : 2 * Z.of_nat 128 * Z.of_nat 8 <= (Z.of_nat (c_nbuf (r_cfg (new_reader KSd))) - 1) * BS (r_cfg (new_reader KSd)).
Proof. vm_compute. discriminate. Qed.

(* ---- C57: exact pitch and length, on files ---- *)

Theorem C57_wav_pitch : forall r0 x fl nch tags n nraw stack garbage ps pb B, cfg_ok (r_cfg r0) -> r_kind r0 <> KArray ->
  basic_settings r0 LNone ps pb -> bytes_ok stack -> wav_file fl nch tags n -> Z.of_nat nch < 2 ^ 15 ->
  let len := n / 2 / Z.of_nat nch in
  (ps = PArbitrary -> 0 <= pb <= len) ->
  single_rate x -> (bpow radix2 (-29) <= R64 x)%R -> ((R64 x + 1) * INR nch <= IZR (2 ^ 30))%R ->
  keeps_up (r_cfg r0) nch B (R64 x) ->
  exists r1 r2, setPlaybackRate r0 x = Ok r1 /\
    r_play_file r1 (Some fl) true nraw stack garbage = Ok (true, r2) /\
    file_delivers B r2 (file_pitch fl ((44 + tags) / 2) len nch (start_frame ps pb) (R64 x)).
Proof. exact file_pitch_wav. Qed.
Theorem C57_raw_pitch : forall r0 x fl nch stack garbage ps pb B, cfg_ok (r_cfg r0) -> r_kind r0 <> KArray ->
  basic_settings r0 LNone ps pb -> r_hdr r0 = 0 -> (1 <= nch)%nat -> Z.of_nat nch < 2 ^ 15 -> 0 < fsize fl < 2 ^ 31 ->
  let len := fsize fl / 2 / Z.of_nat nch in
  (ps = PArbitrary -> 0 <= pb <= len) ->
  single_rate x -> (bpow radix2 (-29) <= R64 x)%R -> ((R64 x + 1) * INR nch <= IZR (2 ^ 30))%R ->
  keeps_up (r_cfg r0) nch B (R64 x) ->
  exists r1 r2, setPlaybackRate r0 x = Ok r1 /\
    r_play_file r1 (Some fl) false (Z.of_nat nch) stack garbage = Ok (true, r2) /\
    file_delivers B r2 (file_pitch fl 0 len nch (start_frame ps pb) (R64 x)).
Proof. exact file_pitch_raw. Qed.
Theorem C57_wav_count : forall r fl nch tags n nraw stack garbage pb B, cfg_ok (r_cfg r) -> r_kind r <> KArray ->
  basic_settings r LNone PSample pb -> bytes_ok stack -> wav_file fl nch tags n -> Z.of_nat nch < 2 ^ 15 ->
  grid_rate (r_rate r) -> (0 < R64 (r_rate r))%R -> ((R64 (r_rate r) + 1) * INR nch <= IZR (2 ^ 30))%R ->
  keeps_up (r_cfg r) nch B (R64 (r_rate r)) ->
  exists r', r_play_file r (Some fl) true nraw stack garbage = Ok (true, r') /\
    exists frames, file_delivers B r' (nth_error frames) /\
      Z.of_nat (length frames) = Zceil (IZR (n / 2 / Z.of_nat nch) / R64 (r_rate r)).
Proof. exact wav_count. Qed.

(* ---- C28 ---- *)

(* Mono RAW files in updates of exactly one block: every sample, no miss.
   For serial flash the block is 128 samples, as the update. *)
Theorem C28_raw_partial : forall r fl stack garbage pb, cfg_ok (r_cfg r) -> r_kind r <> KArray ->
  basic_settings r LNone PSample pb -> r_hdr r = 0 -> 0 < fsize fl < 2 ^ 31 ->
  r_rate r = d1 -> (2 <= c_nbuf (r_cfg r))%nat ->
  exists r', r_play_file r (Some fl) false 1 stack garbage = Ok (true, r') /\
    forall t, exists fuel r2, serviced fuel r' (repeat (Z.to_nat (BS (r_cfg r))) t) =
        Ok (blocks_spec (nth_error (file_frames fl 0 1 (fsize fl / 2))) 0 (repeat (Z.to_nat (BS (r_cfg r))) t), r2) /\
      misses r2 = misses r'.
Proof. exact raw_mono_aligned. Qed.

(* A WAV file: its header shifts the samples, and every update after the first misses
   22 of them *)
Theorem C28_refuted : exists r', flash_open = Ok (true, r') /\
  (exists fuel bs r2, serviced fuel r' [128; 128]%nat = Ok (bs, r2) /\ misses r' = 0 /\ misses r2 = 22 /\
    nth 106 (nth 1 bs []) [] = [0]) /\
  nth 234 (file_frames (mkfile wav_flash) 22 1 600) [] = [1234].
Proof. exact flash_wav_misses. Qed.
Example C28_case : wav_file (mkfile wav_flash) 1 0 1200 /\ BS (r_cfg (new_reader KFlash)) = 128 /\
  (2 <= c_nbuf (r_cfg (new_reader KFlash)))%nat.
Proof. split; [exact wav_flash_ok|]. split; [reflexivity|cbn; lia]. Qed.

(* ---- C10 on files ---- *)

(* A RAW file whose last block is nearly empty: in reverse nothing but that block is
   heard *)
Theorem C10_refuted_file : exists r', rev_open = Ok (true, r') /\
  (exists fuel bs r2, serviced fuel r' [128; 128; 128; 128]%nat = Ok (bs, r2) /\ misses r' = 0 /\ misses r2 = 384 /\
    forall fr, In fr (skipn 10 (concat bs)) -> fr = [0]) /\
  nth 10 (rev (file_frames (ramp_file 788) 0 1 394)) [] = [640].
Proof. exact reverse_file_lost. Qed.

Print Assumptions C25_wav.
Print Assumptions C25_raw.
Print Assumptions C25_speed.
Print Assumptions C56_wav_unity.
Print Assumptions C56_raw_unity.
Print Assumptions C57_wav_pitch.
Print Assumptions C57_raw_pitch.
Print Assumptions C57_wav_count.
Print Assumptions C28_raw_partial.
Print Assumptions C28_refuted.
Print Assumptions C10_refuted_file.
