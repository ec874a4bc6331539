(* C20-C22, C68-C70: two heads and crossfades. *)

From Coq Require Import ZArith Lia List Bool.
From RecordUpdate Require Import RecordUpdate.
From Verif Require Import Machine Floats WavModel InterpModel CacheModel ReaderModel ReaderSpec FadeSpec FadeProofs FadeLoop FadeCases.
Import ListNotations.
Local Open Scope Z_scope.

(* C69: the gain, over every sequence of reads and of rate changes that keep the
   sign of the rate *)
Theorem C69_gain : forall fuel r s, ready_to_fade r -> fades fuel r s -> gain_ok (r_cf s).
Proof. exact fades_gain. Qed.
(* an array player with two heads is in such a state *)
Theorem C69_ready : forall r l ps pb m off len n ls lf d, array_holds m off len n -> basic_settings r l ps pb -> r_rate r = d1 ->
  (ps = PArbitrary -> 0 <= pb <= len) -> 0 <= ls -> 1 <= d -> ls + d <= lf -> lf <= len ->
  forall s, playRaw_array r m off len (Z.of_nat n) = Ok s -> ready_to_fade (with_fade s ls lf d).
Proof. exact ready_case. Qed.
(* what such a gain makes of two samples *)
Theorem C69_blend : forall r m off ch v s, r_src r = SArr m off -> r_dual r = true -> r_interp r = INone ->
  r_cfst r = 1 -> gain_ok (r_cf r) -> readNextValue r ch = Ok (Some v, s) ->
  let a := src_sample m off (r_pos1 r + ch) in let b := src_sample m off (r_pos2 r + ch) in
  Z.min a b - 1 <= v <= Z.max a b + 1 /\ Z.min 0 (Z.min a b) <= v <= Z.max 0 (Z.max a b).
Proof. exact fade_blend. Qed.
Example C69_case : exists r l s, playRaw_array (fader LRepeat) (ramp 16) 0 16 1 = Ok r /\ ready_to_fade (with_fade r 0 8 2) /\
  r_read 20 (with_fade r 0 8 2) 8 = Ok (l, s) /\ r_cfst s = 1 /\ deq (r_cf s) (d_of_me 1 (-1)) = true.
Proof. exact half_way_case. Qed.
(* C20 as stated is false: a duration of 0, or a loop start moved during the fade,
   gives gains that are no numbers or far outside [0,1] *)
Theorem C20_refuted_zero : exists r, playRaw_array (fader LRepeat) (ramp 8) 0 8 1 = Ok r /\
  r_read 60 (with_fade r 0 4 0) 5 = UB UbFloatToInt.
Proof. exact no_frames. Qed.
Theorem C20_refuted_moved : exists r l s, playRaw_array (fader LRepeat) (ramp 16) 0 16 1 = Ok r /\
  r_read 20 (with_fade r 0 8 2) 7 = Ok (l, s) /\ r_cfst s = 1 /\ r_read 20 (setLoopStart s 3) 1 = UB UbFloatToInt.
Proof. exact start_moved. Qed.

(* C70: the endless output of a loop with crossfade, and C21 at the boundary *)
Theorem C70_loop : forall m off len nch r ps pb ls lf d, array_holds m off len nch -> basic_settings r LRepeat ps pb -> r_rate r = d1 ->
  (ps = PArbitrary -> 0 <= pb) -> 0 <= ls -> 1 <= d <= 2 ^ 30 -> ls + 2 * d + 1 < lf -> lf <= len ->
  let p0 := match ps with PArbitrary => pb | _ => 0 end in p0 <= lf - d ->
  exists r' f, playRaw_array r m off len (Z.of_nat nch) = Ok r' /\
    delivers (with_fade r' ls lf d) (endless_stream (fun k => f (Z.of_nat k))) /\
    (forall k, 0 <= k < lf - d - p0 -> f k = src_frame m off nch (p0 + k)) /\
    (forall j, 0 <= j < d -> blended_frame d j (src_frame m off nch (lf - d + j)) (src_frame m off nch (ls + j)) (f (lf - d - p0 + j))) /\
    (forall j, d <= j < lf - ls - d -> f (lf - d - p0 + j) = src_frame m off nch (ls + j)) /\
    (forall k, lf - d - p0 <= k -> f (k + (lf - ls - d)) = f k).
Proof. exact fade_loop. Qed.
Example C70_case : exists r x s, playRaw_array (fader LRepeat) (ramp 20) 0 20 1 = Ok r /\ r_read 60 (with_fade r 2 16 4) 30 = Ok (x, s) /\
  concat x = [1; 2; 3; 4; 5; 6; 7; 8; 9; 10; 11; 12; 13; 11; 10; 8; 7; 8; 9; 10; 11; 12; 13; 11; 10; 8; 7; 8; 9; 10].
Proof. exact loop_case. Qed.
Theorem C21_refuted_tight : exists r, playRaw_array (fader LRepeat) (ramp 3) 0 3 1 = Ok r /\
  r_read 60 (with_fade r 0 3 1) 6 = UB UbOutOfBounds.
Proof. exact tight_loop. Qed.

(* C68: with two heads nothing ever ends, whatever the loop type; C22 *)
Theorem C68_endless : forall fuel r n l s, r_dual r = true -> r_playing r = true -> 1 <= r_nch r -> 0 <= n ->
  r_read fuel r n = Ok (l, s) -> Z.of_nat (length l) = n /\ r_playing s = true /\ r_dual s = true.
Proof. exact dual_endless. Qed.
Theorem C22_refuted : exists r x s, playRaw_array (fader LNone) (ramp 8) 0 8 1 = Ok r /\ r_loop (with_fade r 0 8 1) = LNone /\
  r_read 60 (with_fade r 0 8 1) 20 = Ok (x, s) /\
  concat x = [1; 2; 3; 4; 5; 6; 7; 8; 2; 3; 4; 5; 6; 7; 8; 2; 3; 4; 5; 6] /\ r_playing s = true.
Proof. exact none_loops. Qed.

Print Assumptions C69_gain.
Print Assumptions C69_ready.
Print Assumptions C69_blend.
Print Assumptions C20_refuted_zero.
Print Assumptions C20_refuted_moved.
Print Assumptions C70_loop.
Print Assumptions C21_refuted_tight.
Print Assumptions C68_endless.
Print Assumptions C22_refuted.
