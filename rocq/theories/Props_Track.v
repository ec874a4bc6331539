(* C16 for files, C82-C84: interpolated forward playback of files. *)

From Coq Require Import ZArith List Bool Reals.
From RecordUpdate Require Import RecordUpdate.
From Flocq Require Import Core.Core IEEE754.BinarySingleNaN.
From Verif Require Import Machine Floats FloatFacts WavModel InterpModel CacheModel ReaderModel ReaderSpec WavSpec CacheFacts CacheSpec FileSpec FilePlay FileForward CacheFinal
  QuadProofs InterpWalk InterpCases MirrorSpec MirrorFinal TrackSpec TrackPlay TrackCases.
Import ListNotations.
Local Open Scope Z_scope.

(* ---- C82 ---- *)

(* Forwards at any constant rate, with any interpolator, in updates of at most B frames
   each followed by a reload: when two updates fit all buffers but one, the file is
   played like an array with the same bytes. *)
Theorem C82_raw : forall r fl nch stack garbage i ps pb s B, cfg_ok (r_cfg r) -> r_kind r <> KArray ->
  interp_settings i r LNone ps pb -> r_hdr r = 0 -> (1 <= nch)%nat -> Z.of_nat nch < 2 ^ 15 -> 0 < fsize fl < 2 ^ 31 ->
  let len := fsize fl / 2 / Z.of_nat nch in
  (ps = PArbitrary -> 0 <= pb <= len) -> fin64 (r_rate r) = true -> (0 <= R64 (r_rate r) <= IZR s)%R -> 1 <= s -> (s + 1) * Z.of_nat nch <= 2 ^ 30 ->
  start_room (r_cfg r) i s 0 (start_frame ps pb) nch -> room (r_cfg r) nch B s ->
  exists r', r_play_file r (Some fl) false (Z.of_nat nch) stack garbage = Ok (true, r') /\ like_array B fl r'.
Proof. exact raw_like_array. Qed.
Theorem C82_wav : forall r fl nch tags n nraw stack garbage i ps pb s B, cfg_ok (r_cfg r) -> r_kind r <> KArray ->
  interp_settings i r LNone ps pb -> bytes_ok stack -> wav_file fl nch tags n -> Z.of_nat nch < 2 ^ 15 ->
  let len := n / 2 / Z.of_nat nch in let h := (44 + tags) / 2 in
  (ps = PArbitrary -> 0 <= pb <= len) -> fin64 (r_rate r) = true -> (0 <= R64 (r_rate r) <= IZR s)%R -> 1 <= s -> (s + 1) * Z.of_nat nch <= 2 ^ 30 ->
  start_room (r_cfg r) i s h (start_frame ps pb) nch -> room (r_cfg r) nch B s ->
  exists r', r_play_file r (Some fl) true nraw stack garbage = Ok (true, r') /\ like_array B fl r'.
Proof. exact wav_like_array. Qed.
(* cubic at rate 1.5 from frame 1000, 8 updates, across the end of a block *)
Example C82_case : interp_settings IQuadratic (tr_reader dthree_halves IQuadratic PArbitrary 1000) LNone PArbitrary 1000 /\ fin64 dthree_halves = true /\
  (0 <= R64 dthree_halves <= IZR 2)%R /\ start_room cfg_sd IQuadratic 2 0 1000 1 /\ room cfg_sd 1 128 2 /\
  exists r bs a, tr_open dthree_halves IQuadratic PArbitrary 1000 = Ok (true, r) /\
    read_seq 200 (on_array (file_mem mc_file) 0 r) (repeat 128%nat 8) = Ok (bs, a) /\ Z.of_nat (length (concat bs)) = 1024 /\ mc_sum bs = 3546689.
Proof. exact track_case. Qed.
(* Without the room before the start it is false: cubic at rate 3.5 from the first frame
   of a block misses the three points before it, and the first frame differs. *)
Theorem C82_start_refuted : exists r bs r1 cs a, tr_open (d_of_me 7 (-1)) IQuadratic PArbitrary 2048 = Ok (true, r) /\
  serviced 200 r [4%nat] = Ok (bs, r1) /\ read_seq 200 (on_array (file_mem mc_file) 0 r) [4%nat] = Ok (cs, a) /\
  misses r1 = 3 /\ concat (concat bs) = [0; 4098; 4101; 4105] /\ concat (concat cs) = [3966; 4098; 4101; 4105].
Proof. exact track_start_miss. Qed.

(* ---- C16 for files ---- *)

Theorem C16_raw : forall r fl nch stack garbage ps pb B, cfg_ok (r_cfg r) -> r_kind r <> KArray -> (1 <= nch <= 8)%nat -> r_rate r = d1 -> room (r_cfg r) nch B 1 ->
  interp_settings IQuadratic r LNone ps pb -> r_hdr r = 0 -> 0 < fsize fl < 2 ^ 31 ->
  let len := fsize fl / 2 / Z.of_nat nch in (ps = PArbitrary -> 0 <= pb <= len) ->
  exists r', r_play_file r (Some fl) false (Z.of_nat nch) stack garbage = Ok (true, r') /\ file_delayed B fl 0 len nch (start_frame ps pb) r'.
Proof. exact raw_delayed. Qed.
Theorem C16_wav : forall r fl nch tags n nraw stack garbage ps pb B, cfg_ok (r_cfg r) -> r_kind r <> KArray -> (nch <= 8)%nat -> r_rate r = d1 -> room (r_cfg r) nch B 1 ->
  interp_settings IQuadratic r LNone ps pb -> bytes_ok stack -> wav_file fl nch tags n ->
  let len := n / 2 / Z.of_nat nch in (ps = PArbitrary -> 0 <= pb <= len) ->
  exists r', r_play_file r (Some fl) true nraw stack garbage = Ok (true, r') /\ file_delayed B fl ((44 + tags) / 2) len nch (start_frame ps pb) r'.
Proof. exact wav_delayed. Qed.
Example C16_case : interp_settings IQuadratic (tr_reader d1 IQuadratic PArbitrary 2043) LNone PArbitrary 2043 /\ room cfg_sd 1 128 1 /\
  exists r bs r1, tr_open d1 IQuadratic PArbitrary 2043 = Ok (true, r) /\ serviced 200 r [3; 5; 2]%nat = Ok (bs, r1) /\ misses r1 = 0 /\
    concat (concat bs) = [0; 0; 0; 3964; 3965; 3966; 3967; 4096; 4097; 4098].
Proof. exact delayed_file_case. Qed.

(* ---- C83, C84: rates up to 1 ---- *)

Theorem C83_raw : forall r fl nch stack garbage ps pb B, cfg_ok (r_cfg r) -> r_kind r <> KArray -> (nch <= 8)%nat -> grid_rate (r_rate r) -> (0 < R64 (r_rate r) <= 1)%R ->
  room (r_cfg r) nch B 1 -> interp_settings ILinear r LNone ps pb -> r_hdr r = 0 -> (1 <= nch)%nat -> 0 < fsize fl < 2 ^ 31 ->
  let len := fsize fl / 2 / Z.of_nat nch in (ps = PArbitrary -> 0 <= pb <= len) ->
  exists r', r_play_file r (Some fl) false (Z.of_nat nch) stack garbage = Ok (true, r') /\
    file_linear B fl 0 len nch (start_frame ps pb) (R64 (r_rate r)) (fun c => y1 (r_pts r (Z.of_nat c))) r'.
Proof. exact raw_linear. Qed.
Theorem C83_wav : forall r fl nch stack garbage ps pb B, cfg_ok (r_cfg r) -> r_kind r <> KArray -> (nch <= 8)%nat -> grid_rate (r_rate r) -> (0 < R64 (r_rate r) <= 1)%R ->
  room (r_cfg r) nch B 1 -> forall tags n nraw, interp_settings ILinear r LNone ps pb -> bytes_ok stack -> wav_file fl nch tags n ->
  let len := n / 2 / Z.of_nat nch in (ps = PArbitrary -> 0 <= pb <= len) ->
  exists r', r_play_file r (Some fl) true nraw stack garbage = Ok (true, r') /\
    file_linear B fl ((44 + tags) / 2) len nch (start_frame ps pb) (R64 (r_rate r)) (fun c => y1 (r_pts r (Z.of_nat c))) r'.
Proof. exact wav_linear. Qed.
Example C83_case : interp_settings ILinear (tr_reader dthree_quarters ILinear PArbitrary 2043) LNone PArbitrary 2043 /\ room cfg_sd 1 128 1 /\
  exists r bs r1, tr_open dthree_quarters ILinear PArbitrary 2043 = Ok (true, r) /\ serviced 200 r [3; 5; 2]%nat = Ok (bs, r1) /\ misses r1 = 0 /\
    concat (concat bs) = [0; 3964; 3964; 3965; 3966; 3966; 3967; 4000; 4097; 4097].
Proof. exact linear_file_case. Qed.
Theorem C84_raw : forall r fl nch stack garbage ps pb B, cfg_ok (r_cfg r) -> r_kind r <> KArray -> (nch <= 8)%nat -> grid_rate (r_rate r) -> (0 < R64 (r_rate r) <= 1)%R ->
  room (r_cfg r) nch B 1 -> interp_settings IQuadratic r LNone ps pb -> r_hdr r = 0 -> (1 <= nch)%nat -> 0 < fsize fl < 2 ^ 31 ->
  let len := fsize fl / 2 / Z.of_nat nch in (ps = PArbitrary -> 0 <= pb <= len) ->
  exists r', r_play_file r (Some fl) false (Z.of_nat nch) stack garbage = Ok (true, r') /\ file_cubic B fl 0 len nch (start_frame ps pb) (R64 (r_rate r)) r'.
Proof. exact raw_cubic. Qed.
Theorem C84_wav : forall r fl nch stack garbage ps pb B, cfg_ok (r_cfg r) -> r_kind r <> KArray -> (nch <= 8)%nat -> grid_rate (r_rate r) -> (0 < R64 (r_rate r) <= 1)%R ->
  room (r_cfg r) nch B 1 -> forall tags n nraw, interp_settings IQuadratic r LNone ps pb -> bytes_ok stack -> wav_file fl nch tags n ->
  let len := n / 2 / Z.of_nat nch in (ps = PArbitrary -> 0 <= pb <= len) ->
  exists r', r_play_file r (Some fl) true nraw stack garbage = Ok (true, r') /\ file_cubic B fl ((44 + tags) / 2) len nch (start_frame ps pb) (R64 (r_rate r)) r'.
Proof. exact wav_cubic. Qed.
Example C84_case : interp_settings IQuadratic (tr_reader dthree_quarters IQuadratic PArbitrary 2043) LNone PArbitrary 2043 /\ room cfg_sd 1 128 1 /\
  exists r bs r1, tr_open dthree_quarters IQuadratic PArbitrary 2043 = Ok (true, r) /\ serviced 200 r [3; 5; 5]%nat = Ok (bs, r1) /\ misses r1 = 0 /\
    concat (concat bs) = [0; 0; 0; 0; 3964; 3965; 3966; 3962; 3967; 4066; 4105; 4098; 4098].
Proof. exact cubic_file_case. Qed.

Print Assumptions C82_raw.
Print Assumptions C82_wav.
Print Assumptions C82_start_refuted.
Print Assumptions C16_raw.
Print Assumptions C16_wav.
Print Assumptions C83_raw.
Print Assumptions C83_wav.
Print Assumptions C84_raw.
Print Assumptions C84_wav.
