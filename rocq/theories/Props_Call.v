(* C102-C105: calls of the sketch interrupted by update(). *)

From Coq Require Import ZArith List Bool Reals.
From Flocq Require Import IEEE754.BinarySingleNaN.
From Verif Require Import Machine Floats FloatFacts WavModel CacheModel ReaderModel PlayerModel PlayerCases FadeCases ReplayCases PlayProofs CacheSpec CacheFinal
  CallModel CallSpec CallProofs CallAtomic CallQuiet CallRate CallCases.
Import ListNotations.
Local Open Scope Z_scope.

(* The steps of the calls, uninterrupted, are the calls *)
Theorem C102_same_call : forall s r, prog_run (setter_steps s) r = Ok (true, setter_run s r).
Proof. exact setter_steps_run. Qed.
Print Assumptions C102_same_call.

Theorem C102_setters_atomic : forall s r, atomic (setter_steps s) (fun r => Ok (true, setter_run s r)) r.
Proof. exact setter_atomic. Qed.
Print Assumptions C102_setters_atomic.

Theorem C103_same_call : forall f r, prog_run (rate_steps f) r = rate_call f r.
Proof. exact rate_steps_run. Qed.
Print Assumptions C103_same_call.

Theorem C103_refuted_bounds : exists r0 o r,
  playRaw_array (at_rate dm1 INone LNone) (ramp 16) 0 16 1 = Ok r0 /\ updates 200 [give] r0 = Ok (o, r) /\
  interrupted 200 (rate_steps d1) [[]; [give]] r = UB UbOutOfBounds /\
  forall l1 l2, [give] = l1 ++ l2 -> exists x, between 200 (rate_call d1) l1 l2 r = Ok x.
Proof. exact rate_oob. Qed.
Print Assumptions C103_refuted_bounds.

Theorem C103_refuted_close : exists r o b r1,
  r_play_file (new_reader KSd) (Some (ramp_file 3000)) false 1 (fun _ => 0) dirty = Ok (true, r) /\
  interrupted 200 (rate_steps dm1) [[]; [give]] r = Ok (o, b, r1) /\ events o = [evClose] /\
  forall l1 l2, [give] = l1 ++ l2 -> exists o b r1, between 200 (rate_call dm1) l1 l2 r = Ok (o, b, r1) /\ events o = [evReload].
Proof. exact rate_cut. Qed.
Print Assumptions C103_refuted_close.

Theorem C103_forward_partial : forall f r mids, calm_head r -> fin64 f = true -> (0 <= R64 f)%R -> r_hdr r <= r_pos1 r ->
  at_once (rate_steps f) (rate_call f) r mids.
Proof. exact rate_forward. Qed.
Print Assumptions C103_forward_partial.

Theorem C103_reverse_partial : forall f K r mids, calm_head r -> fin64 f = true -> 0 <= K < 2 ^ 40 -> (- IZR K <= R64 f < 0)%R ->
  Z.of_nat (length (hd [] mids)) * (128 * ((K + 1) * r_nch r)) < r_pos1 r - r_hdr r ->
  at_once (rate_steps f) (rate_call f) r mids.
Proof. exact rate_reverse. Qed.
Print Assumptions C103_reverse_partial.

Example C103_forward_case : exists r0 o r, playRaw_array (at_rate d1 INone LNone) (ramp 2000) 0 2000 2 = Ok r0 /\ updates 200 [give] r0 = Ok (o, r) /\
  calm_head r /\ r_nch r = 2 /\ r_pos1 r = 256 /\ r_hdr r = 0 /\ loopless r.
Proof. exact calm_case. Qed.
Example C103_reverse_case : exists r0 o r, playRaw_array (at_rate d1 INone LNone) (ramp 2000) 0 2000 2 = Ok r0 /\ updates 200 [give; give; give] r0 = Ok (o, r) /\
  calm_head r /\ fin64 dm1 = true /\ 0 <= 1 < 2 ^ 40 /\ (- IZR 1 <= R64 dm1 < 0)%R /\
  Z.of_nat (length (hd [] [[give]; [give; give]])) * (128 * ((1 + 1) * r_nch r)) < r_pos1 r - r_hdr r.
Proof. exact reverse_room. Qed.

Theorem C104_same_call : forall n r, prog_run (loop_steps n) r = loop_call n r.
Proof. exact loop_steps_run. Qed.
Print Assumptions C104_same_call.

Theorem C104_refuted : exists r0 o0 r o b r1,
  playRaw_array (at_rate d1 INone LRepeat) (ramp 100) 0 100 1 = Ok r0 /\ updates 200 [give] r0 = Ok (o0, r) /\
  interrupted 200 (loop_steps 10) [[]; []; []; [give]] r = Ok (o, b, r1) /\ left_blocks o = [run_of 28 72 ++ run_of 28 56] /\
  forall l1 l2, [give] = l1 ++ l2 -> exists o b r1, between 200 (loop_call 10) l1 l2 r = Ok (o, b, r1) /\
    (left_blocks o = [loop_of 28 38 128] \/ left_blocks o = [run_of 28 72 ++ run_of 0 56]).
Proof. exact loop_mixed. Qed.
Print Assumptions C104_refuted.

Theorem C104_first_loop_partial : forall n r, loopless r -> loops_late n r.
Proof. exact loop_late. Qed.
Print Assumptions C104_first_loop_partial.

Example C104_case : exists r0 o r, playRaw_array (at_rate d1 INone LNone) (ramp 2000) 0 2000 2 = Ok r0 /\ updates 200 [give] r0 = Ok (o, r) /\
  calm_head r /\ r_nch r = 2 /\ r_pos1 r = 256 /\ r_hdr r = 0 /\ loopless r.
Proof. exact calm_case. Qed.

Theorem C105_same_call : forall k c s r, r_kind r = k -> r_cfg r = c -> prog_run (starter_steps k c s) r = starter_run s r.
Proof. exact starter_steps_run. Qed.
Print Assumptions C105_same_call.

Theorem C105_silent_start : forall k c s r, r_kind r = k -> r_cfg r = c -> stops_first (starter_steps k c s) (starter_run s) r.
Proof. exact starter_stops_first. Qed.
Print Assumptions C105_silent_start.

Example C105_case : exists r0 r1 o b r2, playRaw_array (at_rate d1 INone LNone) (ramp 2000) 0 2000 2 = Ok r0 /\
  r_kind r0 = KArray /\ r_nch r0 = 2 /\ r_playing r0 = true /\
  starter_run (PlRaw (ramp 16) 0 16 1) r0 = Ok (true, r1) /\ r_nch r1 = 1 /\ r_playing r1 = true /\
  interrupted 200 (starter_steps KArray (r_cfg r0) (PlRaw (ramp 16) 0 16 1)) (repeat [give] 16) r0 = Ok (o, b, r2) /\
  events o = [evReload; evReload; evClose] /\ firstn 20 (nth 2 (left_blocks o) []) = run_of 0 16 ++ [0; 0; 0; 0].
Proof. exact start_case. Qed.
