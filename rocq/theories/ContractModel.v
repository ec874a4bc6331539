(* Fused arithmetic: what a compiler that contracts a * b + c into one fused operation (gcc by
   default for the Teensy 4, whose processor has the instruction) may make of the places of the
   source where a product is added to or subtracted from something.  These are the cubic of
   interpolation.cpp:36-55 and the mixtures of ResamplingReader.h:402, 435, 455-456 and 473-474;
   all other products stand alone, are integer, or are divided. *)

From Coq Require Import ZArith List Bool.
From Flocq Require Import IEEE754.BinarySingleNaN.
From Verif Require Import Machine Floats InterpModel ReaderModel.
Local Open Scope Z_scope.

(* a * b + c with one rounding *)
Definition ffma : b32 -> b32 -> b32 -> b32 := Bfma mode_NE.
Definition dfma : b64 -> b64 -> b64 -> b64 := Bfma mode_NE.

(* x_3 - a * x_2, interpolation.cpp:43-46: not fused, a * x_2 fused into the subtraction, or (across
   the statement of line 39) x_3 = x_2 * x_1 fused into it *)
Inductive fuse_sub := SubPlain | SubScale | SubCube.
(* The choice for one polynomial: of the subtraction, and whether b * x_1 is fused into the addition *)
Record fuse := mkFuse { fu_sub : fuse_sub; fu_add : bool }.

(* x_3 - a * x_2 + b * x_1, interpolation.cpp:43-46 *)
Definition fi_poly_c (k : fuse) (x1 x2 x3 : b32) (a b : Z) : b32 :=
  let s := match fu_sub k with
           | SubPlain => fsub x3 (fmul (f_of_Z a) x2)
           | SubScale => ffma (fneg (f_of_Z a)) x2 x3
           | SubCube => ffma x2 x1 (fneg (fmul (f_of_Z a) x2))
           end in
  if fu_add k then ffma (f_of_Z b) x1 s else fadd s (fmul (f_of_Z b) x1).

(* fastinterpolate, interpolation.cpp:36-55; k says what is done with each of the four polynomials.
   Products of products and quotients are never fused. *)
Definition fi_sum_c (k : nat -> fuse) (p1 p2 p3 p4 : Z) (x : b32) : b32 :=
  let x1 := fi_x1 x in
  let x2 := fmul x1 x1 in
  let x3 := fmul x2 x1 in
  fadd (fadd (fadd
    (fi_term p1 (fsub (fi_poly_c (k 0%nat) x1 x2 x3 6000 11000000) (f_of_Z 6000000000)) (-6000000000))
    (fi_term p2 (fi_poly_c (k 1%nat) x1 x2 x3 5000 6000000) 2000000000))
    (fi_term p3 (fi_poly_c (k 2%nat) x1 x2 x3 4000 3000000) (-2000000000)))
    (fi_term p4 (fi_poly_c (k 3%nat) x1 x2 x3 3000 2000000) 6000000000).
Definition fastinterpolate_c (k : nat -> fuse) (p1 p2 p3 p4 : Z) (x : b32) : res Z :=
  result <- f_to_s32 (fi_sum_c k p1 p2 p3 p4 x) ;;
  Ok (clamp16 result).

(* ga * a + gb * b narrowed to int16, ResamplingReader.h:402, 435, 455-456, 473-474: not fused, or
   either product fused into the addition *)
Inductive fuse_mix := MixPlain | MixLeft | MixRight.
Definition mix16_c (k : fuse_mix) (ga : b64) (a : Z) (gb : b64) (b : Z) : res Z :=
  d_to_s16 (match k with
            | MixPlain => dadd (dmul ga (d_of_Z a)) (dmul gb (d_of_Z b))
            | MixLeft => dfma ga (d_of_Z a) (dmul gb (d_of_Z b))
            | MixRight => dfma gb (d_of_Z b) (dmul ga (d_of_Z a))
            end).
