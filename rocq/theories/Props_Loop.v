(* C11-C15, C43, C44 and C49-C53: loops, and histories of control calls, on arrays. *)

From Coq Require Import ZArith Lia List Bool Reals Lra.
From RecordUpdate Require Import RecordUpdate.
From Flocq Require Import Core.Core IEEE754.BinarySingleNaN.
From Verif Require Import Machine Floats FloatFacts CacheModel ReaderModel ReaderSpec StreamFacts Walk
  ForwardProofs PlayProofs LoopSpec LoopProofs HistSpec HistProofs HistFinal RateProofs.
Import ListNotations.
Local Open Scope Z_scope.

(* ---- C11 ---- *)

(* setLoopType(repeat), playRaw, setLoopStart(ls), setLoopFinish(lf) at rate 1.0:
   from the start frame up to lf-1, then ls..lf-1 over and over. *)
Theorem C11_repeat : forall m off len nch r ps pb ls lf, array_holds m off len nch ->
  basic_settings r LRepeat ps pb -> (ps = PArbitrary -> 0 <= pb <= len) ->
  r_rate r = d1 -> 0 <= ls < lf -> lf <= len ->
  exists r1, playRaw_array r m off len (Z.of_nat nch) = Ok r1 /\
    delivers (with_loop r1 ls lf)
      (endless_stream (fun k => src_frame m off nch
         (repeat_frame ls lf (match ps with PArbitrary => pb | _ => 0 end) k))).
Proof. exact repeat_unity. Qed.

(* What repeat_frame says: after the first pass, periodic *)
Theorem C11_periodic : forall start finish p k, start < finish -> p <= finish -> 0 <= k ->
  repeat_frame start finish p (Z.to_nat (finish - p + k)) = start + k mod (finish - start).
Proof. exact repeat_periodic. Qed.

Example C11_case : array_holds (ramp 12) 0 6 2 /\
  basic_settings (loop_reader LRepeat PSample d1) LRepeat PSample 0 /\
  r_rate (loop_reader LRepeat PSample d1) = d1.
Proof. split; [apply ramp_holds; cbn; lia|]. split; [apply loop_reader_basic|reflexivity]. Qed.
Example C11_run :
  shown (r1 <- playRaw_array (loop_reader LRepeat PSample d1) (ramp 12) 0 6 2 ;; r_read 30 (with_loop r1 2 4) 8)
  = Ok [[0; 1]; [2; 3]; [4; 5]; [6; 7]; [4; 5]; [6; 7]; [4; 5]; [6; 7]].
Proof. vm_compute. reflexivity. Qed.

(* ---- C12, C51 ---- *)

(* Ping-pong at rate 1.0: the exact sequence of frames.  It is the triangle over
   start..finish-1 when playback starts from the loop (or the loop from frame 0)
   and there are one or two channels; missing: see the refutations. *)
Theorem C12_triangle_partial : forall m off len nch r ps pb ls lf, array_holds m off len nch ->
  basic_settings r LPingpong ps pb -> (ps = PArbitrary -> 0 <= pb <= len) ->
  r_rate r = d1 -> 0 <= ls < lf -> lf <= len ->
  exists r1, playRaw_array r m off len (Z.of_nat nch) = Ok r1 /\
    delivers (with_loop r1 ls lf)
      (endless_stream (fun k => src_frame m off nch
         (triangle_frame (match ps with PSample => 0 | _ => ls end) lf (lf - Z.of_nat nch)
            (match ps with PArbitrary => pb | _ => 0 end) k))).
Proof. exact pingpong_unity. Qed.

(* The default start mode: the way back leaves the loop *)
Theorem C12_refuted_leaves : exists m len r ls lf fuel, array_holds m 0 len 1 /\
  basic_settings r LPingpong PSample 0 /\ r_rate r = d1 /\ 0 <= ls < lf /\ lf <= len /\
  exists b, shown (r1 <- playRaw_array r m 0 len 1 ;; r_read fuel (with_loop r1 ls lf) 8) = Ok b /\
    nth 7 b [] = src_frame m 0 1 0 /\ forall i, ls <= i < lf -> nth 7 b [] <> src_frame m 0 1 i.
Proof. exact pingpong_leaves. Qed.

(* Three channels: from frame 3 to frame 1, not visiting 2 on the way *)
Theorem C12_refuted_skips : exists m len r ls lf fuel, array_holds m 0 len 3 /\
  basic_settings r LPingpong PLoop 0 /\ r_rate r = d1 /\ 0 <= ls < lf /\ lf <= len /\
  exists b, shown (r1 <- playRaw_array r m 0 len 3 ;; r_read fuel (with_loop r1 ls lf) 5) = Ok b /\
    nth 3 b [] = src_frame m 0 3 3 /\ nth 4 b [] = src_frame m 0 3 1.
Proof. exact pingpong_skips. Qed.

(* Mono, when playback starts from the loop (or the loop from frame 0): the
   start frame up to finish-1, then finish-1 down to start, start up to finish-1,
   and so on for ever *)
Theorem C51_pingpong_mono : forall m off len r ps pb ls lf, array_holds m off len 1 ->
  basic_settings r LPingpong ps pb -> (ps = PArbitrary -> 0 <= pb <= len) ->
  (ps = PSample -> ls = 0) ->
  r_rate r = d1 -> 0 <= ls < lf -> lf <= len ->
  exists r1, playRaw_array r m off len 1 = Ok r1 /\
    delivers (with_loop r1 ls lf) (endless_stream (fun k => src_frame m off 1
      (let p := match ps with PArbitrary => pb | _ => 0 end in
       let n := p + Z.of_nat k in
       if n <? lf then n
       else let x := (n - Z.max p lf) mod (2 * (lf - ls)) in
            if x <? lf - ls then lf - 1 - x else ls + (x - (lf - ls))))).
Proof. exact pingpong_mono. Qed.

(* Any number of channels: once in the loop the output stays in it *)
Theorem C51_inside : forall start finish top p k, start < finish -> top < finish -> p < finish ->
  finish <= p + Z.of_nat k -> start <= triangle_frame start finish top p k < finish.
Proof. exact triangle_inside. Qed.

Example C12_case : array_holds (ramp 12) 0 6 2 /\
  basic_settings (loop_reader LPingpong PLoop d1) LPingpong PLoop 0 /\
  r_rate (loop_reader LPingpong PLoop d1) = d1.
Proof. split; [apply ramp_holds; cbn; lia|]. split; [apply loop_reader_basic|reflexivity]. Qed.
Example C12_run :
  shown (r1 <- playRaw_array (loop_reader LPingpong PLoop d1) (ramp 6) 0 6 1 ;; r_read 30 (with_loop r1 2 4) 10)
  = Ok [[0]; [1]; [2]; [3]; [3]; [2]; [2]; [3]; [3]; [2]].
Proof. vm_compute. reflexivity. Qed.

(* ---- C50: loops at any exact rate ---- *)

(* The head moves by exactly num/2^q frames between two delivered frames and
   jumps at the ends of the loop (LoopSpec.v), for ever. *)
Theorem C50_forward : forall m off len nch r l ps pb ls lf num q, array_holds m off len nch ->
  basic_settings r l ps pb -> l <> LNone -> (ps = PArbitrary -> 0 <= pb <= len) ->
  0 <= ls < lf -> lf <= len ->
  is_finite (r_rate r) = true -> B2R (r_rate r) = (IZR num * bpow radix2 (- q))%R ->
  0 <= q <= 52 -> 0 < num <= 2 ^ 52 -> ((B2R (r_rate r) + 1) * INR nch <= IZR (2 ^ 30))%R ->
  exists r1, playRaw_array r m off len (Z.of_nat nch) = Ok r1 /\
    delivers (with_loop r1 ls lf)
      (endless_stream (fun k => src_frame m off nch
        (hd_i (orbit (loop_of l ps ls lf nch) num (2 ^ q)
                 (mkHead (match ps with PArbitrary => pb | _ => 0 end) 0 false) k)))).
Proof. exact forward_loop. Qed.

Theorem C50_backward : forall m off len nch r l ps pb ls lf num q p0, array_holds m off len nch ->
  basic_settings r l ps pb -> l <> LNone -> (ps = PArbitrary -> 0 <= pb <= len) ->
  0 <= ls < lf -> lf <= len ->
  is_finite (r_rate r) = true -> B2R (r_rate r) = (- (IZR num * bpow radix2 (- q)))%R ->
  0 <= q <= 52 -> 0 < num <= 2 ^ 52 -> ((- B2R (r_rate r) + 1) * INR nch <= IZR (2 ^ 30))%R ->
  p0 < len ->
  (match ps with
   | PSample => p0 * Z.of_nat nch = len - Z.of_nat nch
   | PLoop => nch = 1%nat /\ p0 = len - 1
   | PArbitrary => p0 = pb
   end) ->
  (l = LRepeat -> match ps with PSample => 0 | _ => ls end <= lf - Z.of_nat nch) ->
  exists r1, playRaw_array r m off len (Z.of_nat nch) = Ok r1 /\
    delivers (with_loop r1 ls lf)
      (endless_stream (fun k => src_frame m off nch
        (hd_i (orbit (loop_of l ps ls lf nch) num (2 ^ q) (mkHead p0 0 true) k)))).
Proof. exact backward_loop. Qed.

Example C50_case :
  let r := loop_reader LPingpong PSample (d_of_me 3 (-3)) in
  array_holds (ramp 12) 0 6 2 /\ basic_settings r LPingpong PSample 0 /\ is_finite (r_rate r) = true /\
  B2R (r_rate r) = (IZR 3 * bpow radix2 (- 3))%R /\ ((B2R (r_rate r) + 1) * INR 2 <= IZR (2 ^ 30))%R.
Proof. exact three_eighths_case. Qed.
Example C50_back_case :
  let r := loop_reader LRepeat PSample (d_of_me (-3) (-3)) in
  array_holds (ramp 12) 0 6 2 /\ basic_settings r LRepeat PSample 0 /\ is_finite (r_rate r) = true /\
  B2R (r_rate r) = (- (IZR 3 * bpow radix2 (- 3)))%R /\ ((- B2R (r_rate r) + 1) * INR 2 <= IZR (2 ^ 30))%R.
Proof. exact back_three_eighths_case. Qed.

(* ---- C13, C53 ---- *)

(* After any history of correct calls, a playing reader with a loop that can be
   played delivers n frames when asked for n, and is ready for the next request. *)
Theorem C13_endless_partial : forall r n, reach r -> r_playing r = true -> loop_good r ->
  exists fuel fr r', r_read fuel r (Z.of_nat n) = Ok (fr, r') /\ length fr = n /\
    reach r' /\ r_playing r' = true /\ loop_good r'.
Proof. exact loop_endless. Qed.

(* A stereo one-frame repeat loop, played backwards, hangs in read() *)
Theorem C13_refuted : exists r, reach r /\ r_playing r = true /\ r_loop r = LRepeat /\ 0 <= r_ls r < r_lf r /\
  r_lf r <= r_fsamples r /\ forall fuel, r_read fuel r 1 = NoFuel.
Proof. exact loop_hang. Qed.

(* ... and so does an empty loop *)
Theorem C13_empty_loop : exists r, reach r /\ r_playing r = true /\ r_loop r = LRepeat /\ r_ls r = r_lf r /\
  forall fuel, r_read fuel r 1 = NoFuel.
Proof. exact empty_hang. Qed.

Example C13_case : reach hg2 /\ r_playing hg2 = true /\ loop_good hg2.
Proof. exact loop_good_case. Qed.

(* ---- C14, C15, C52 ---- *)

(* No history of correct calls leads to undefined behaviour (in particular not to
   an access outside the array). *)
Theorem C14_safe_partial : forall fuel o r, reach r -> aop_ok o r ->
  aop_run fuel o r = NoFuel \/ exists out r', aop_run fuel o r = Ok (out, r').
Proof. exact no_ub. Qed.

(* Play to the end, then reverse: the next read is outside the array *)
Theorem C14_refuted : exists m len fuel, array_holds m 0 len 1 /\
  aop_runs fuel [OpPlay m 0 len 1; OpRead 4; OpRate dm1; OpRead 1] (new_reader KArray) = UB UbOutOfBounds.
Proof. exact reversal_oob. Qed.

(* Rate zero and a loop finish nearer than nch frames to the start *)
Theorem C14_refuted_parked : exists m len fuel, array_holds m 0 len 2 /\
  aop_runs fuel [OpPlay m 0 len 2; OpLoopType LPingpong; OpRead 2; OpRate d0; OpLoopFinish 1; OpRead 1]
    (new_reader KArray) = UB UbOutOfBounds.
Proof. exact parked_oob. Qed.

(* Every frame delivered after a history of correct calls is a frame of the source *)
Theorem C15_frames_partial : forall r m off fuel n fr r', reach r -> r_src r = SArr m off ->
  r_read fuel r n = Ok (fr, r') ->
  Forall (good_frame m off (Z.to_nat (r_nch r)) (r_fsamples r)) fr.
Proof. exact frames_of_source. Qed.

(* A stereo array of odd length started in reverse: channels swapped *)
Theorem C15_refuted : exists m len fuel fr r', array_holds m 0 len 2 /\
  aop_runs fuel [OpRate dm1; OpPlay m 0 len 2; OpRead 1] (new_reader KArray) = Ok ([[]; []; [fr]], r') /\
  ~ good_frame m 0 2 len fr.
Proof. exact swapped. Qed.

Example C14_case : reach hg6 /\ aop_ok (OpRate d1) hg6.
Proof.
  split; [exact hg_reach|]. split; [reflexivity|]. split.
  - change (B2R d1) with (R64 d1). rewrite R64_d1, Rabs_R1. apply IZR_le. lia.
  - split; [intro H; discriminate|]. apply pos_parked; reflexivity.
Qed.

(* C52, C53: the same under their own names, for the exact claims *)
Theorem C52_safe : forall fuel o r, reach r -> aop_ok o r ->
  aop_run fuel o r = NoFuel \/ exists out r', aop_run fuel o r = Ok (out, r').
Proof. exact no_ub. Qed.
Theorem C52_frames : forall r m off fuel n fr r', reach r -> r_src r = SArr m off ->
  r_read fuel r n = Ok (fr, r') ->
  Forall (good_frame m off (Z.to_nat (r_nch r)) (r_fsamples r)) fr.
Proof. exact frames_of_source. Qed.
Theorem C53_endless : forall r n, reach r -> r_playing r = true -> loop_good r ->
  exists fuel fr r', r_read fuel r (Z.of_nat n) = Ok (fr, r') /\ length fr = n /\
    reach r' /\ r_playing r' = true /\ loop_good r'.
Proof. exact loop_endless. Qed.

(* ---- C43 ---- *)

(* setPlaybackRate(x) changes the rate, and the position only when the head is at
   or before the first frame (reverse) or before it (forward). *)
Theorem C43_rate : forall r x, r_dual r = false -> is_finite x = true ->
  0 <= r_ls r <= r_fsamples r -> 0 <= r_lf r <= r_fsamples r -> 0 <= r_nch r ->
  0 <= r_hdr r -> frame_pos r (r_fsamples r) < 2 ^ 31 ->
  r_nch r < 2 ^ 31 -> r_fsamples r < 2 ^ 31 ->
  setPlaybackRate r x = Ok (r <| r_rate := x |> <| r_pos1 :=
    if Rlt_bool (B2R x) 0 then
      if r_pos1 r <=? r_hdr r
      then frame_pos r (match r_pstart r with PSample => r_fsamples r | _ => r_lf r end - 1)
      else r_pos1 r
    else
      if r_pos1 r <? r_hdr r
      then frame_pos r (match r_pstart r with PSample => 0 | _ => r_ls r end)
      else r_pos1 r |>).
Proof. exact rate_moves. Qed.

Example C43_case : reach lh2 /\ r_dual lh2 = false /\ 0 <= r_ls lh2 <= r_fsamples lh2 /\
  0 <= r_lf lh2 <= r_fsamples lh2 /\ 0 <= r_nch lh2 < 2 ^ 31 /\ 0 <= r_hdr lh2 /\
  frame_pos lh2 (r_fsamples lh2) < 2 ^ 31 /\ r_fsamples lh2 < 2 ^ 31.
Proof. exact rate_case. Qed.

(* With two heads: nothing moves unless the crossfade is at 0; then a forward
   rate brings a head in front of the audio to its first sample *)
Theorem C43_two_heads : forall r x, r_dual r = true -> is_finite x = true ->
  0 <= r_lf r <= r_fsamples r -> 0 <= r_nch r ->
  0 <= r_hdr r -> frame_pos r (r_fsamples r) < 2 ^ 31 ->
  r_nch r < 2 ^ 31 -> r_fsamples r < 2 ^ 31 ->
  setPlaybackRate r x = Ok (r <| r_rate := x |> <| r_pos1 :=
    if deq (r_cf r) d0 then
      if Rlt_bool (B2R x) 0 then
        if r_pos1 r <=? r_hdr r
        then frame_pos r (match r_pstart r with PSample => r_fsamples r | _ => r_lf r end - 1)
        else r_pos1 r
      else Z.max (r_pos1 r) (r_hdr r)
    else r_pos1 r |>).
Proof. exact rate_moves_dual. Qed.
Example C43_case_two : let r := setUseDualPlaybackHead lh2 true in r_dual r = true /\ deq (r_cf r) d0 = true /\ 0 <= r_lf r <= r_fsamples r /\
  0 <= r_nch r < 2 ^ 31 /\ 0 <= r_hdr r /\ frame_pos r (r_fsamples r) < 2 ^ 31 /\ r_fsamples r < 2 ^ 31.
Proof. cbv zeta. repeat split; vm_compute; congruence. Qed.

(* ---- C44 ---- *)

(* loop(n) on an array at frame i, forwards at rate 1.0: the n frames from i, for
   ever.  Missing: backwards, other rates; false for files with a header. *)
Theorem C44_loop_here_partial : forall m off len nch r i n, array_holds m off len nch ->
  plain 0 nch r -> r_src r = SArr m off -> is_finite (r_rate r) = true -> B2R (r_rate r) = 1%R ->
  dlt (r_cf r) d1 = true -> is_finite (r_rem r) = true -> B2R (r_rem r) = 0%R ->
  r_pos1 r = i * Z.of_nat nch -> 0 <= i -> 1 <= n -> i + n <= len ->
  exists r', r_loop_from_here r n = Ok r' /\
    delivers r' (endless_stream (fun k => src_frame m off nch (i + Z.of_nat k mod n))).
Proof. exact loop_here. Qed.

(* With a header of h samples (a WAV file) loop(n) at frame i loops from frame
   i + h/nch instead *)
Theorem C44_header : forall r n h i, r_hdr r = h -> dlt (r_cf r) d1 = true -> 0 < r_nch r ->
  r_pos1 r = h + i * r_nch r -> 0 <= h -> 0 <= i -> 0 <= n -> h + (i + n) * r_nch r < 2 ^ 31 ->
  exists r', r_loop_from_here r n = Ok r' /\ r_ls r' = i + h / r_nch r /\ r_lf r' = i + h / r_nch r + n.
Proof. exact loop_here_header. Qed.

Example C44_case : array_holds (ramp 12) 0 6 2 /\ plain 0 2 lh2 /\ r_src lh2 = SArr (ramp 12) 0 /\
  is_finite (r_rate lh2) = true /\ B2R (r_rate lh2) = 1%R /\ dlt (r_cf lh2) d1 = true /\
  is_finite (r_rem lh2) = true /\ B2R (r_rem lh2) = 0%R /\
  r_pos1 lh2 = 2 * Z.of_nat 2.
Proof. exact loop_here_case. Qed.

Print Assumptions C11_repeat.
Print Assumptions C11_periodic.
Print Assumptions C12_triangle_partial.
Print Assumptions C12_refuted_leaves.
Print Assumptions C12_refuted_skips.
Print Assumptions C51_inside.
Print Assumptions C51_pingpong_mono.
Print Assumptions C50_forward.
Print Assumptions C50_backward.
Print Assumptions C13_endless_partial.
Print Assumptions C13_refuted.
Print Assumptions C13_empty_loop.
Print Assumptions C14_safe_partial.
Print Assumptions C14_refuted.
Print Assumptions C14_refuted_parked.
Print Assumptions C15_frames_partial.
Print Assumptions C15_refuted.
Print Assumptions C43_rate.
Print Assumptions C43_two_heads.
Print Assumptions C44_loop_here_partial.
Print Assumptions C44_header.
Print Assumptions C52_safe.
Print Assumptions C52_frames.
Print Assumptions C53_endless.
