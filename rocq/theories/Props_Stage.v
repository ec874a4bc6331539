(* C85: from the file to the outputs. *)

From Coq Require Import ZArith Lia List Bool Reals.
From Flocq Require Import Core.Core IEEE754.BinarySingleNaN.
From Verif Require Import Machine Floats FloatFacts WavModel CacheModel ReaderModel PlayerModel CacheFacts CacheSpec CacheFinal
  ReaderSpec FileSpec LifeSpec WavSpec WavFinal PlayProofs FilePlay FileForward StageSpec StageProofs StageCases.
Import ListNotations.
Local Open Scope Z_scope.

(* After any history without polling in which only players below N play files: playing
   a WAV file on player i succeeds.  As long as yield() is called N times between updates
   of player i, whatever the other players do, the updates that get their blocks transmit
   the frames of the file in order, 128 at a time, every frame once (at rate x, frame
   floor(k x) as the k-th); mono goes to both outputs; the last block is padded with
   zeros, after it nothing is sent and the player has stopped.  An update without blocks
   sends nothing and loses nothing. *)
Theorem C85_wav : forall kinds flags N i w fl nch tags n nraw stack garbage ps pb,
  history kinds flags N w -> (i < N)%nat -> kinds i <> KArray ->
  basic_settings (w_rd w i) LNone ps pb -> bytes_ok stack -> wav_file fl nch tags n -> Z.of_nat nch < 2 ^ 15 ->
  let len := n / 2 / Z.of_nat nch in
  (ps = PArbitrary -> 0 <= pb <= len) ->
  let x := r_rate (w_rd w i) in
  grid_rate x -> (0 <= R64 x)%R -> ((R64 x + 1) * INR nch <= IZR (2 ^ 30))%R -> keeps_up (cfg_of (kinds i)) nch 128 (R64 x) ->
  plays_out kinds N i fl true nraw stack garbage nch (file_pitch fl ((44 + tags) / 2) len nch (start_frame ps pb) (R64 x)) w.
Proof. exact stage_wav. Qed.

Theorem C85_raw : forall kinds flags N i w fl nch stack garbage ps pb,
  history kinds flags N w -> (i < N)%nat -> kinds i <> KArray ->
  basic_settings (w_rd w i) LNone ps pb -> r_hdr (w_rd w i) = 0 -> (1 <= nch)%nat -> Z.of_nat nch < 2 ^ 15 -> 0 < fsize fl < 2 ^ 31 ->
  let len := fsize fl / 2 / Z.of_nat nch in
  (ps = PArbitrary -> 0 <= pb <= len) ->
  let x := r_rate (w_rd w i) in
  grid_rate x -> (0 <= R64 x)%R -> ((R64 x + 1) * INR nch <= IZR (2 ^ 30))%R -> keeps_up (cfg_of (kinds i)) nch 128 (R64 x) ->
  plays_out kinds N i fl false (Z.of_nat nch) stack garbage nch (file_pitch fl 0 len nch (start_frame ps pb) (R64 x)) w.
Proof. exact stage_raw. Qed.

(* A second player, playing already and making requests of its own, and an update
   without blocks; the run is defined *)
Example C85_case : exists w, history two_kinds 2 2 w /\ (0 < 2)%nat /\ two_kinds 0 <> KArray /\
  w_rd w 0 = new_reader KSd /\ basic_settings (w_rd w 0) LNone PSample 0 /\ r_hdr (w_rd w 0) = 0 /\
  0 < fsize (ramp_file 600) < 2 ^ 31 /\ grid_rate (r_rate (w_rd w 0)) /\ (0 <= R64 (r_rate (w_rd w 0)))%R /\
  ((R64 (r_rate (w_rd w 0)) + 1) * INR 2 <= IZR (2 ^ 30))%R /\
  keeps_up (cfg_of (two_kinds 0)) 2 128 (R64 (r_rate (w_rd w 0))) /\
  Forall (round_ok two_kinds 2 0) three_rounds /\
  exists b w0 xs w', p_play_file 0 (Some (ramp_file 600)) false (Z.of_nat 2) (fun _ => 0) dirty w = Ok (b, w0) /\
    wops 300 (rounds_ops 0 three_rounds) w0 = Ok (xs, w') /\ case_check xs w' = true.
Proof. exact stage_case. Qed.

Print Assumptions C85_wav.
Print Assumptions C85_raw.
