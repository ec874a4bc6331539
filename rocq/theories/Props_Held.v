(* C134 and C135: files played without any reload. *)

From Coq Require Import ZArith Lia List Bool Reals Lra.
From RecordUpdate Require Import RecordUpdate.
From Flocq Require Import Core.Core IEEE754.BinarySingleNaN.
From Verif Require Import Machine Floats FloatFacts WavModel CacheModel ReaderModel ReaderSpec CacheFacts CacheSpec WavSpec FileSpec FilePlay FileForward
  MirrorSpec HeldSpec HeldProofs HeldPlay UnitModel UnitCases.
Import ListNotations.
Local Open Scope Z_scope.

(* ---- C134 ---- *)

(* Opening a file for forward playback buffers the samples held_from up to held_to.  Until
   a reload is serviced, whatever the program calls, the player does what the array player
   does on a memory that holds just these samples. *)
Theorem C134_held : forall r0 fl w n st g r fuel os bs a, cfg_ok (r_cfg r0) -> fsize fl <= 2 ^ 31 ->
  r_play_file r0 (Some fl) w n st g = Ok (true, r) -> dle d0 (r_rate r) = true -> 0 <= r_pos1 r < 2 ^ 30 -> Forall unserviced os ->
  let lo := held_from (r_cfg r0) (r_pos1 r) in
  let part := on_array (part_mem fl lo (held_to (r_cfg r0) fl (r_pos1 r))) (- (2 * lo)) in
  session fuel (part r) os = Ok (bs, a) ->
  exists r', session fuel r os = Ok (bs, r') /\ a = part r' /\ misses r' = 0.
Proof. exact held_part. Qed.

(* If the whole file fits into the buffers: as on the whole file *)
Theorem C134_small : forall r0 fl w n st g r fuel os bs a, cfg_ok (r_cfg r0) -> fsize fl <= 2 ^ 31 -> small_file (r_cfg r0) fl ->
  r_play_file r0 (Some fl) w n st g = Ok (true, r) -> dle d0 (r_rate r) = true -> 0 <= r_pos1 r < BS (r_cfg r0) -> Forall unserviced os ->
  session fuel (on_array (file_mem fl) 0 r) os = Ok (bs, a) ->
  exists r', session fuel r os = Ok (bs, r') /\ a = on_array (file_mem fl) 0 r' /\ misses r' = 0.
Proof. exact held_small. Qed.

(* ---- C135 ---- *)

Theorem C135_raw : forall r fl nch stack garbage ps pb, cfg_ok (r_cfg r) -> r_kind r <> KArray ->
  basic_settings r LNone ps pb -> r_hdr r = 0 -> (1 <= nch)%nat -> Z.of_nat nch < 2 ^ 15 -> 0 < fsize fl < 2 ^ 31 -> small_file (r_cfg r) fl ->
  let len := fsize fl / 2 / Z.of_nat nch in
  (ps = PArbitrary -> 0 <= pb <= len) -> start_frame ps pb * Z.of_nat nch < BS (r_cfg r) ->
  grid_rate (r_rate r) -> (0 <= R64 (r_rate r))%R -> ((R64 (r_rate r) + 1) * INR nch <= IZR (2 ^ 30))%R ->
  exists r', r_play_file r (Some fl) false (Z.of_nat nch) stack garbage = Ok (true, r') /\
    plays_alone r' (file_pitch fl 0 len nch (start_frame ps pb) (R64 (r_rate r))).
Proof. exact raw_alone. Qed.

Theorem C135_wav : forall r fl nch tags n nraw stack garbage ps pb, cfg_ok (r_cfg r) -> r_kind r <> KArray ->
  basic_settings r LNone ps pb -> bytes_ok stack -> wav_file fl nch tags n -> Z.of_nat nch < 2 ^ 15 -> small_file (r_cfg r) fl ->
  let len := n / 2 / Z.of_nat nch in
  (ps = PArbitrary -> 0 <= pb <= len) -> (44 + tags) / 2 + start_frame ps pb * Z.of_nat nch < BS (r_cfg r) ->
  grid_rate (r_rate r) -> (0 <= R64 (r_rate r))%R -> ((R64 (r_rate r) + 1) * INR nch <= IZR (2 ^ 30))%R ->
  exists r', r_play_file r (Some fl) true nraw stack garbage = Ok (true, r') /\
    plays_alone r' (file_pitch fl ((44 + tags) / 2) len nch (start_frame ps pb) (R64 (r_rate r))).
Proof. exact wav_alone. Qed.

(* A file that does not fit: zeros where samples are missing *)
Theorem C135_bound : exists r fl r' fuel bs q, cfg_ok (r_cfg r) /\ ~ small_file (r_cfg r) fl /\
  r_play_file r (Some fl) false 2 (fun _ => 0) (fun _ _ => 0) = Ok (true, r') /\ (0 <= R64 (r_rate r))%R /\
  read_seq fuel r' [12%nat] = Ok (bs, q) /\ bs <> blocks_spec (file_pitch fl 0 6 2 0 (R64 (r_rate r))) 0 [12%nat].
Proof. exact too_big. Qed.

(* Sixteen bytes in two buffers of four samples, at half speed *)
Example C135_case : exists r', r_play_file tiny_reader (Some tiny_file) false 2 (fun _ => 0) (fun _ _ => 0) = Ok (true, r') /\
  plays_alone r' (file_pitch tiny_file 0 4 2 0 (/ 2)).
Proof. exact tiny_alone. Qed.
Example C135_run : shown_run (r_play_file tiny_reader (Some tiny_file) false 2 (fun _ => 0) (fun _ _ => 0)) (fun r => read_seq 100 r [3%nat; 3%nat; 3%nat])
  = Ok ([[[0; 1]; [0; 1]; [2; 3]]; [[2; 3]; [4; 5]; [4; 5]]; [[6; 7]; [6; 7]]], 0).
Proof. exact tiny_reads. Qed.
(* and what C134 says of a file of 24 bytes: the samples 0..7 *)
Example C134_run : held_from (r_cfg tiny_reader) 0 = 0 /\ held_to (r_cfg tiny_reader) big_file 0 = 8 /\
  shown_run (r_play_file tiny_reader (Some big_file) false 2 (fun _ => 0) (fun _ _ => 0)) (fun r => read_seq 100 r [12%nat])
  = Ok ([[[0; 1]; [0; 1]; [2; 3]; [2; 3]; [4; 5]; [4; 5]; [6; 7]; [6; 7]; [0; 0]; [0; 0]; [0; 0]; [0; 0]]], 8).
Proof. split; [reflexivity|]. split; [reflexivity|]. exact big_reads. Qed.

Print Assumptions C134_held.
Print Assumptions C134_small.
Print Assumptions C135_raw.
Print Assumptions C135_wav.
Print Assumptions C135_bound.
