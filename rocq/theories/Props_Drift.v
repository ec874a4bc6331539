(* C08, C77: how far the position drifts from the sum of the rates. *)

From Coq Require Import ZArith List Reals.
From Flocq Require Import Core.Core IEEE754.BinarySingleNaN.
From Verif Require Import Machine Floats FloatFacts WavModel InterpModel CacheModel ReaderModel ReaderSpec ReplayCases FadeCases DriftProofs DriftCases.
Import ListNotations.
Local Open Scope R_scope.

(* C08, one frame: whatever the source, the loop type, the heads and the interpolation *)
Theorem C08_step_partial : forall r r', advance r = Ok r' -> fin64 (r_rem r) = true -> fin64 (r_rate r) = true -> Rabs (R64 (r_rem r)) < 1 ->
  moved r r' (R64 (r_rate r)) (bpow radix2 (-53) * (Rabs (R64 (r_rate r)) + 1)) /\ fin64 (r_rem r') = true /\ Rabs (R64 (r_rem r')) < 1 /\ r_rate r' = r_rate r.
Proof. exact advance_moves. Qed.
(* C77: any sequence of rate changes and reads, one head, no loop *)
Theorem C77_drift : forall fuel r s r', driven fuel r s r' -> one_way r -> one_way r' /\ moved r r' (way s) (slack s).
Proof. exact drift_bounded. Qed.
Theorem C77_heard : forall m off fuel r s r' p0 fr r'' f2, driven fuel r s r' -> one_way r -> r_src r = SArr m off -> r_interp r = INone ->
  r_pos1 r = (p0 * r_nch r)%Z -> R64 (r_rem r) = 0 -> r_read f2 r' 1 = Ok ([fr], r'') ->
  exists p, fr = src_frame m off (Z.to_nat (r_nch r)) p /\ Rabs (IZR p - (IZR p0 + way s)) < 1 + slack s.
Proof. exact drift_heard. Qed.
Example C77_case : exists r s r', playRaw_array (at_rate d1 INone LNone) (ramp 16) 0 16 1 = Ok r /\ one_way r /\
  driven 20 r s r' /\ map snd s = [5%nat; 2%nat; 4%nat; 3%nat] /\ r_pos1 r' = 6%Z.
Proof. exact drift_case. Qed.
(* C08 as stated is false for large rates *)
Theorem C08_refuted : exists r r1, playRaw_array (at_rate d1 INone LNone) (ramp 16) 0 16 1 = Ok r /\
  is_finite (d_of_Z (2 ^ 31)) = true /\ setPlaybackRate r (d_of_Z (2 ^ 31)) = Ok r1 /\ r_read 20 r1 1 = UB UbFloatToInt.
Proof. exact rate_too_big. Qed.

Print Assumptions C08_step_partial.
Print Assumptions C77_drift.
Print Assumptions C77_heard.
Print Assumptions C08_refuted.
