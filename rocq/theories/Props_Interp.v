(* C16-C19, C71-C73: the interpolators and interpolated playback of arrays. *)

From Coq Require Import ZArith Lia List Bool Reals Lra.
From RecordUpdate Require Import RecordUpdate.
From Flocq Require Import Core.Core IEEE754.BinarySingleNaN.
From Verif Require Import Machine Floats FloatFacts WavModel InterpModel CacheModel ReaderModel ReaderSpec ReplayCases FadeCases
  CubicProofs QuadProofs LagrangeProofs InterpSafe InterpWalk InterpCases.
Import ListNotations.
Local Open Scope Z_scope.

(* C71, C17, C95: the cubic through four samples *)
Theorem C71_accuracy : forall a b c d x, in_s16 a -> in_s16 b -> in_s16 c -> in_s16 d -> fin32 x = true -> (1 <= R32 x <= 2)%R ->
  exists v, fastinterpolate a b c d x = Ok v /\ in_s16 v /\
    forall f, cubic f -> f 0%R = IZR a -> f 1%R = IZR b -> f 2%R = IZR c -> f 3%R = IZR d -> (Rabs (IZR v - clampR (f (R32 x))) <= 1.125)%R.
Proof. exact cubic_accuracy_weak. Qed.
Theorem C17_accuracy : forall a b c d x, in_s16 a -> in_s16 b -> in_s16 c -> in_s16 d -> fin32 x = true -> (1 <= R32 x <= 2)%R ->
  exists v, fastinterpolate a b c d x = Ok v /\ in_s16 v /\
    forall f, cubic f -> f 0%R = IZR a -> f 1%R = IZR b -> f 2%R = IZR c -> f 3%R = IZR d -> (Rabs (IZR v - clampR (f (R32 x))) <= 1.1)%R.
Proof. exact cubic_accuracy. Qed.
Theorem C95_sharp : exists a b c d x v, in_s16 a /\ in_s16 b /\ in_s16 c /\ in_s16 d /\ fin32 x = true /\ (1 <= R32 x <= 2)%R /\ fastinterpolate a b c d x = Ok v /\
  forall f, cubic f -> f 0%R = IZR a -> f 1%R = IZR b -> f 2%R = IZR c -> f 3%R = IZR d -> (1.055 <= Rabs (IZR v - clampR (f (R32 x))))%R.
Proof. exact cubic_sharp. Qed.
Example C71_case : fastinterpolate 0 (-32765) 0 0 one32 = Ok (-32764).
Proof. exact delay_off. Qed.

Example C71_exists : forall a b c d : Z, exists f, cubic f /\ f 0%R = IZR a /\ f 1%R = IZR b /\ f 2%R = IZR c /\ f 3%R = IZR d.
Proof. exact cubic_exists. Qed.

(* C18 *)
Theorem C18_nodes : forall pts k x y, (length pts <= 16)%nat -> (forall a b, In (a, b) pts -> 0 <= a < 2 ^ 32 /\ in_s16 b) ->
  NoDup (map fst pts) -> nth_error pts k = Some (x, y) -> interpolate pts (d_of_Z x) = Ok y.
Proof. exact lagrange_node. Qed.
Example C18_case : interpolate [(0, 5); (1, -7); (3, 30000); (4294967295, -32768)] (d_of_Z 3) = Ok 30000.
Proof. vm_compute. reflexivity. Qed.

(* C72, and C16 for arrays *)
Theorem C72_delay : forall m off len nch r ps pb, array_holds m off len nch -> (nch <= 8)%nat -> interp_settings IQuadratic r LNone ps pb ->
  r_rate r = d1 -> (ps = PArbitrary -> 0 <= pb <= len) ->
  let p0 := match ps with PArbitrary => pb | _ => 0 end in
  exists r' f, playRaw_array r m off len (Z.of_nat nch) = Ok r' /\
    delivers r' (finite_stream (Z.to_nat (len - p0)) f) /\
    (forall k, (k < 3)%nat -> f k = repeat 0 nch) /\
    (forall k, (3 <= k)%nat -> near_frame (f k) (src_frame m off nch (p0 + Z.of_nat k - 2))).
Proof. exact quadratic_delay. Qed.
Theorem C16_array : forall m off len nch r ps pb, array_holds m off len nch -> (nch <= 8)%nat -> interp_settings IQuadratic r LNone ps pb ->
  r_rate r = d1 -> (ps = PArbitrary -> 0 <= pb <= len) ->
  let p0 := match ps with PArbitrary => pb | _ => 0 end in
  exists r' f, playRaw_array r m off len (Z.of_nat nch) = Ok r' /\
    delivers r' (finite_stream (Z.to_nat (len - p0)) f) /\
    (forall k, (k < 3)%nat -> f k = repeat 0 nch) /\
    (forall k, (3 <= k)%nat -> near_frame (f k) (src_frame m off nch (p0 + Z.of_nat k - 2))).
Proof. exact quadratic_delay. Qed.
Example C72_case : exists r l s, playRaw_array (at_rate d1 IQuadratic LNone) (ramp 8) 0 8 1 = Ok r /\ r_read 20 r 10 = Ok (l, s) /\
  concat l = [0; 0; 0; 1; 2; 3; 4; 5].
Proof. exact delay_case. Qed.

(* C73: when interpolated playback of an array stays inside it *)
Theorem C73_forward : forall m off len nch r i l ps pb, array_holds m off len nch -> (nch <= 8)%nat -> interp_settings i r l ps pb ->
  pts_ok (r_pts r) -> fin64 (r_rate r) = true -> (0 <= R64 (r_rate r) <= IZR (2 ^ 26))%R -> (ps = PArbitrary -> 0 <= pb <= len) ->
  let p0 := match ps with PArbitrary => pb | _ => 0 end in
  l = LNone \/ l = LRepeat /\ 1 <= len /\ (i = IQuadratic -> (R64 (r_rate r) <= 1)%R) ->
  (i = IQuadratic -> Z.min (Zceil (R64 (r_rate r))) 4 - 1 <= p0) ->
  exists r', playRaw_array r m off len (Z.of_nat nch) = Ok r' /\ sessions_safe r' nch.
Proof. exact forward_safe. Qed.
Theorem C73_backward : forall m off len nch r i ps pb s0, array_holds m off len nch -> (nch <= 8)%nat -> interp_settings i r LNone ps pb ->
  pts_ok (r_pts r) -> fin64 (r_rate r) = true -> (- IZR (2 ^ 26) <= R64 (r_rate r) < 0)%R -> (ps = PArbitrary -> 0 <= pb < len) ->
  s0 = match ps with PSample => len - Z.of_nat nch | PLoop => (len - Z.of_nat nch) * Z.of_nat nch | PArbitrary => pb * Z.of_nat nch end ->
  (i = IQuadratic -> s0 + Z.min (Zceil (- R64 (r_rate r))) 4 * Z.of_nat nch <= len * Z.of_nat nch) ->
  exists r', playRaw_array r m off len (Z.of_nat nch) = Ok r' /\ r_pos1 r' = s0 /\ sessions_safe r' nch.
Proof. exact backward_safe. Qed.
Example C73_case_forward : exists r, playRaw_array (setPlayStart (at_rate dthree_halves IQuadratic LNone) PArbitrary 2) (ramp 8) 0 8 1 = Ok r /\ sessions_safe r 1.
Proof. exact forward_safe_case. Qed.
Example C73_case_backward : exists r, playRaw_array (setPlayStart (at_rate (dneg dthree_halves) IQuadratic LNone) PArbitrary 6) (ramp 8) 0 8 1 = Ok r /\
  r_pos1 r = 6 /\ sessions_safe r 1.
Proof. exact backward_safe_case. Qed.

(* C19 as stated is false *)
Theorem C19_refuted_turn : exists r, playRaw_array (at_rate dthree_quarters IQuadratic LPingpong) (ramp 4) 0 4 1 = Ok r /\
  r_read 60 r 8 = UB UbOutOfBounds.
Proof. exact quad_turn_oob. Qed.
Theorem C19_refuted_wrap : exists r, playRaw_array (setPlayStart (at_rate dthree_halves IQuadratic LRepeat) PArbitrary 2) (ramp 8) 0 8 1 = Ok r /\
  r_read 60 r 8 = UB UbOutOfBounds.
Proof. exact quad_wrap_oob. Qed.
Theorem C19_refuted_linear : exists r l s t, playRaw_array (at_rate dthree_halves ILinear LNone) (ramp 8) 0 8 1 = Ok r /\ r_read 20 r 1 = Ok (l, s) /\
  playRaw_array (s <| r_rate := dneg dthree_halves |>) (ramp 8) 0 8 1 = Ok t /\ r_read 20 t 1 = UB UbOutOfBounds.
Proof. exact linear_back_oob. Qed.
Theorem C19_refuted_heard : exists r r2 l l2 s s2, same_after 12 (blanked (ramp 16) 12) (ramp 16) /\
  playRaw_array (at_rate (d_of_Z 4) IQuadratic LNone) (ramp 16) 12 8 1 = Ok r /\ r_read 20 r 1 = Ok (l, s) /\ concat l = [4] /\
  playRaw_array (at_rate (d_of_Z 4) IQuadratic LNone) (blanked (ramp 16) 12) 12 8 1 = Ok r2 /\ r_read 20 r2 1 = Ok (l2, s2) /\ concat l2 = [0].
Proof. exact quad_before_heard. Qed.
(* ... for every array at the start of the memory and every rate above 1 *)
Theorem C19_refuted_start : forall m len nch r l pb, array_holds m 0 len nch -> (nch <= 8)%nat -> 1 <= len -> interp_settings IQuadratic r l PSample pb ->
  fin64 (r_rate r) = true -> (1 < R64 (r_rate r) <= IZR (2 ^ 26))%R ->
  exists r', playRaw_array r m 0 len (Z.of_nat nch) = Ok r' /\
    forall fuel n, (1 <= fuel)%nat -> 1 <= n -> r_read fuel r' n = UB UbOutOfBounds.
Proof. exact quad_start_oob. Qed.

(* C74, C75: interpolated playback at rates up to 1 *)
Theorem C74_linear : forall m off len nch r ps pb, array_holds m off len nch -> (nch <= 8)%nat -> interp_settings ILinear r LNone ps pb ->
  grid_rate (r_rate r) -> (0 < R64 (r_rate r) <= 1)%R -> (ps = PArbitrary -> 0 <= pb <= len) ->
  let p0 := match ps with PArbitrary => pb | _ => 0 end in let t k := (INR k * R64 (r_rate r))%R in
  exists r' f, playRaw_array r m off len (Z.of_nat nch) = Ok r' /\ delivers r' (slow_stream len p0 (R64 (r_rate r)) f) /\
    forall k, p0 + Zfloor (t k) < len -> length (f k) = nch /\ forall c, (c < nch)%nat ->
      (k = O -> nth c (f k) 0 = y1 (r_pts r (Z.of_nat c))) /\
      linear_sample (fun p => nth c (src_frame m off nch p) 0) p0 (Zfloor (t k)) (t k - IZR (Zfloor (t k)))%R (nth c (f k) 0).
Proof. exact linear_playback. Qed.
Example C74_rate : grid_rate dthree_quarters /\ R64 dthree_quarters = 0.75%R.
Proof. exact three_quarters. Qed.
Example C74_case : exists r l s, playRaw_array (at_rate dthree_quarters ILinear LNone) (ramp 8) 0 8 1 = Ok r /\ r_read 20 r 11 = Ok (l, s) /\
  concat l = [0; 1; 1; 2; 3; 3; 4; 5; 6; 6; 7].
Proof. exact linear_slow_case. Qed.
Theorem C75_cubic : forall m off len nch r ps pb, array_holds m off len nch -> (nch <= 8)%nat -> interp_settings IQuadratic r LNone ps pb ->
  grid_rate (r_rate r) -> (0 < R64 (r_rate r) <= 1)%R -> (ps = PArbitrary -> 0 <= pb <= len) ->
  let p0 := match ps with PArbitrary => pb | _ => 0 end in let t k := (INR k * R64 (r_rate r))%R in
  exists r' f, playRaw_array r m off len (Z.of_nat nch) = Ok r' /\ delivers r' (slow_stream len p0 (R64 (r_rate r)) f) /\
    forall k, p0 + Zfloor (t k) < len -> length (f k) = nch /\ forall c, (c < nch)%nat ->
      cubic_sample (fun p => nth c (src_frame m off nch p) 0) p0 (Zfloor (t k)) (t k - IZR (Zfloor (t k)))%R (nth c (f k) 0).
Proof. exact cubic_playback. Qed.
Example C75_case : exists r l s, playRaw_array (at_rate dthree_quarters IQuadratic LNone) (ramp 8) 0 8 1 = Ok r /\ r_read 20 r 11 = Ok (l, s) /\
  concat l = [0; 0; 0; 0; 1; 2; 3; 4; 4; 5; 6].
Proof. exact cubic_slow_case. Qed.
(* C76 is false: above rate 1 *)
Theorem C76_refuted : exists r l s, playRaw_array (at_rate dfive_halves ILinear LNone) (ramp 16) 0 16 1 = Ok r /\ r_read 20 r 7 = Ok (l, s) /\
  concat l = [0; 2; 3; 7; 8; 12; 13].
Proof. exact linear_fast_bent. Qed.

Print Assumptions C71_accuracy.
Print Assumptions C17_accuracy.
Print Assumptions C95_sharp.
Print Assumptions C18_nodes.
Print Assumptions C72_delay.
Print Assumptions C16_array.
Print Assumptions C73_forward.
Print Assumptions C73_backward.
Print Assumptions C19_refuted_turn.
Print Assumptions C19_refuted_wrap.
Print Assumptions C19_refuted_linear.
Print Assumptions C19_refuted_heard.
Print Assumptions C19_refuted_start.
Print Assumptions C74_linear.
Print Assumptions C75_cubic.
Print Assumptions C76_refuted.
