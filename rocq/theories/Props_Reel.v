(* C106, C107: from the file to the outputs while the sketch changes the rate. *)

From Coq Require Import ZArith Lia List Bool Reals.
From Flocq Require Import Core.Core IEEE754.BinarySingleNaN.
From Verif Require Import Machine Floats FloatFacts WavModel CacheModel ReaderModel PlayerModel CacheFacts CacheSpec CacheFinal
  ReaderSpec FileSpec LifeSpec WavSpec WavFinal PlayProofs FilePlay FileForward StageSpec StageProofs StageCases TapeSpec BackSpec ReelSpec ReelOpen ReelCases.
Import ListNotations.
Local Open Scope Z_scope.

(* ---- C106 ---- *)

(* After any history without polling in which only players below N play files: playing
   a WAV file on player i succeeds.  As long as yield() is called N times between updates
   of player i, whatever the other players do, and whenever between the updates the
   sketch sets the rate of player i (multiples of 2^-q from 0 to X): the updates that
   get their blocks transmit what a tape of the file plays whose speed is turned at
   these points; the last block is padded with zeros, after it nothing is sent and the
   player has stopped. *)
Theorem C106_wav : forall q, 0 <= q <= 52 -> forall kinds flags N i w fl nch tags n nraw stack garbage ps pb X,
  history kinds flags N w -> (i < N)%nat -> kinds i <> KArray ->
  basic_settings (w_rd w i) LNone ps pb -> bytes_ok stack -> wav_file fl nch tags n -> Z.of_nat nch < 2 ^ 15 ->
  let len := n / 2 / Z.of_nat nch in
  (ps = PArbitrary -> 0 <= pb <= len) ->
  let x := r_rate (w_rd w i) in
  rate_ok q X x -> ((X + 1) * INR nch <= IZR (2 ^ 30))%R ->
  ((INR (2 * 128) * X + 2) * INR nch <= IZR ((Z.of_nat (c_nbuf (cfg_of (kinds i))) - 1) * BS (cfg_of (kinds i))))%R ->
  plays_reel kinds N i fl true nraw stack garbage nch (Forall (tape_ok q X 128))
    (tape (file_frame fl ((44 + tags) / 2) nch) len (IZR (start_frame ps pb)) (R64 x)) w.
Proof. exact reel_wav. Qed.
Theorem C106_raw : forall q, 0 <= q <= 52 -> forall kinds flags N i w fl nch stack garbage ps pb X,
  history kinds flags N w -> (i < N)%nat -> kinds i <> KArray ->
  basic_settings (w_rd w i) LNone ps pb -> r_hdr (w_rd w i) = 0 -> (1 <= nch)%nat -> Z.of_nat nch < 2 ^ 15 -> 0 < fsize fl < 2 ^ 31 ->
  let len := fsize fl / 2 / Z.of_nat nch in
  (ps = PArbitrary -> 0 <= pb <= len) ->
  let x := r_rate (w_rd w i) in
  rate_ok q X x -> ((X + 1) * INR nch <= IZR (2 ^ 30))%R ->
  ((INR (2 * 128) * X + 2) * INR nch <= IZR ((Z.of_nat (c_nbuf (cfg_of (kinds i))) - 1) * BS (cfg_of (kinds i))))%R ->
  plays_reel kinds N i fl false (Z.of_nat nch) stack garbage nch (Forall (tape_ok q X 128))
    (tape (file_frame fl 0 nch) len (IZR (start_frame ps pb)) (R64 x)) w.
Proof. exact reel_raw. Qed.

(* A second player, playing already and turned as well; the rate is set before the
   reload, after it and after an update without blocks *)
Example C106_case : exists w, history two_kinds 2 2 w /\ (0 < 2)%nat /\ two_kinds 0 <> KArray /\
  basic_settings (w_rd w 0) LNone PSample 0 /\ r_hdr (w_rd w 0) = 0 /\ 0 < fsize (ramp_file 1800) < 2 ^ 31 /\
  rate_ok 44 23 (r_rate (w_rd w 0)) /\ ((23 + 1) * INR 2 <= IZR (2 ^ 30))%R /\
  ((INR (2 * 128) * 23 + 2) * INR 2 <= IZR ((Z.of_nat (c_nbuf (cfg_of (two_kinds 0))) - 1) * BS (cfg_of (two_kinds 0))))%R /\
  Forall (reel_ok two_kinds 2 0) fwd_rounds /\ Forall (tape_ok 44 23 128) (reel 0 2 fwd_rounds) /\
  exists b w0 xs w', p_play_file 0 (Some (ramp_file 1800)) false (Z.of_nat 2) (fun _ => 0) dirty w = Ok (b, w0) /\
    wops 300 (rounds_ops 0 fwd_rounds) w0 = Ok (xs, w') /\ fwd_check xs w' = true.
Proof. exact fwd_case. Qed.

(* ---- C107 ---- *)

(* The same in reverse, from frame p0: the rates lie between -X and 0, and the last one
   is set before the start of the audio is reached *)
Theorem C107_wav : forall q, 0 <= q <= 52 -> forall kinds flags N i w fl nch tags n nraw stack garbage ps pb p0 X,
  history kinds flags N w -> (i < N)%nat -> kinds i <> KArray ->
  basic_settings (w_rd w i) LNone ps pb -> bytes_ok stack -> wav_file fl nch tags n -> Z.of_nat nch < 2 ^ 15 ->
  let len := n / 2 / Z.of_nat nch in
  begins (fsize fl) ((44 + tags) / 2) len nch ps pb p0 -> 0 <= p0 < len -> first_block (BS (cfg_of (kinds i))) (fsize fl) ((44 + tags) / 2) nch p0 ->
  let x := r_rate (w_rd w i) in
  back_ok q X x -> ((X + 1) * INR nch <= IZR (2 ^ 30))%R ->
  ((INR (2 * 128) * X + 2) * INR nch <= IZR ((Z.of_nat (c_nbuf (cfg_of (kinds i))) - 1) * BS (cfg_of (kinds i))))%R ->
  plays_reel kinds N i fl true nraw stack garbage nch (fun l => Forall (rtape_ok q X 128) l /\ above (IZR p0) (R64 x) l)
    (rtape (file_frame fl ((44 + tags) / 2) nch) (IZR p0) (R64 x)) w.
Proof. exact rreel_wav. Qed.
Theorem C107_raw : forall q, 0 <= q <= 52 -> forall kinds flags N i w fl nch stack garbage ps pb p0 X,
  history kinds flags N w -> (i < N)%nat -> kinds i <> KArray ->
  basic_settings (w_rd w i) LNone ps pb -> r_hdr (w_rd w i) = 0 -> (1 <= nch)%nat -> Z.of_nat nch < 2 ^ 15 -> 0 < fsize fl < 2 ^ 31 ->
  let len := fsize fl / 2 / Z.of_nat nch in
  begins (fsize fl) 0 len nch ps pb p0 -> 0 <= p0 < len -> first_block (BS (cfg_of (kinds i))) (fsize fl) 0 nch p0 ->
  let x := r_rate (w_rd w i) in
  back_ok q X x -> ((X + 1) * INR nch <= IZR (2 ^ 30))%R ->
  ((INR (2 * 128) * X + 2) * INR nch <= IZR ((Z.of_nat (c_nbuf (cfg_of (kinds i))) - 1) * BS (cfg_of (kinds i))))%R ->
  plays_reel kinds N i fl false (Z.of_nat nch) stack garbage nch (fun l => Forall (rtape_ok q X 128) l /\ above (IZR p0) (R64 x) l)
    (rtape (file_frame fl 0 nch) (IZR p0) (R64 x)) w.
Proof. exact rreel_raw. Qed.

Example C107_case : exists w, history two_kinds 2 2 w /\ (0 < 2)%nat /\ two_kinds 0 <> KArray /\
  basic_settings (w_rd w 0) LNone PSample 0 /\ r_hdr (w_rd w 0) = 0 /\ 0 < fsize (ramp_file 32768) < 2 ^ 31 /\
  begins (fsize (ramp_file 32768)) 0 8192 2 PSample 0 8191 /\ first_block (BS (cfg_of (two_kinds 0))) (fsize (ramp_file 32768)) 0 2 8191 /\
  back_ok 44 23 (r_rate (w_rd w 0)) /\ ((23 + 1) * INR 2 <= IZR (2 ^ 30))%R /\
  ((INR (2 * 128) * 23 + 2) * INR 2 <= IZR ((Z.of_nat (c_nbuf (cfg_of (two_kinds 0))) - 1) * BS (cfg_of (two_kinds 0))))%R /\
  Forall (reel_ok two_kinds 2 0) rev_rounds /\ Forall (rtape_ok 44 23 128) (reel 0 2 rev_rounds) /\
  above (IZR 8191) (R64 (r_rate (w_rd w 0))) (reel 0 2 rev_rounds) /\
  exists b w0 xs w', p_play_file 0 (Some (ramp_file 32768)) false (Z.of_nat 2) (fun _ => 0) dirty w = Ok (b, w0) /\
    wops 300 (rounds_ops 0 rev_rounds) w0 = Ok (xs, w') /\ rev_check xs w' = true.
Proof. exact rev_case. Qed.

Print Assumptions C106_wav.
Print Assumptions C106_raw.
Print Assumptions C107_wav.
Print Assumptions C107_raw.
