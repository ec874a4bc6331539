(* Model of src/interpolation.cpp. *)

From Coq Require Import ZArith Lia List Bool.
From Flocq Require Import Core.Core IEEE754.BinarySingleNaN.
From Verif Require Import Machine Floats.
Import ListNotations.
Local Open Scope Z_scope.

(* struct InterpolationData { uint32_t x; int16_t y; }, interpolation.h:17-21 *)
Definition ipoint := (Z * Z)%type.

(* Clamp of an int32 to int16, interpolation.cpp:27-31 and 49-53 *)
Definition clamp16 (z : Z) : Z :=
  if z <? -32768 then -32768 else if 32767 <? z then 32767 else z.

(* Inner loop of interpolate(), interpolation.cpp:17-21: j runs over the
   points; [j]/[i] are indices, xi_ the evaluation abscissa. *)
Fixpoint lagrange_term (l : list ipoint) (j i : nat) (x_i : Z) (xi : b64) (term : b64) : b64 :=
  match l with
  | [] => term
  | (xj, _) :: l' =>
      let term' :=
        if Nat.eqb j i then term
        else ddiv (dmul term (dsub xi (d_of_Z xj))) (dsub (d_of_Z x_i) (d_of_Z xj)) in
      lagrange_term l' (S j) i x_i xi term'
  end.

(* Outer loop of interpolate(), interpolation.cpp:13-25 *)
Fixpoint lagrange_sum (all l : list ipoint) (i : nat) (xi : b64) (result : b64) : b64 :=
  match l with
  | [] => result
  | (x_i, y_i) :: l' =>
      lagrange_sum all l' (S i) xi
        (dadd result (lagrange_term all 0 i x_i xi (d_of_Z y_i)))
  end.

(* int16_t interpolate(InterpolationData *f, double xi, int n),
   interpolation.cpp:11-33; the list holds the n points. *)
Definition interpolate (pts : list ipoint) (xi : b64) : res Z :=
  untruncated <- d_to_s32 (dround (lagrange_sum pts pts 0 xi d0)) ;;
  Ok (clamp16 untruncated).

(* float x_1 = x * 1000.0 (double product, narrowed), interpolation.cpp:37 *)
Definition fi_x1 (x : b32) : b32 := f_of_d (dmul (d_of_f x) (d_of_Z 1000)).

(* d * (x_3 - a*x_2 + b*x_1 - c) / q, float arithmetic, left to right,
   interpolation.cpp:43-46.  The integer constants are converted to float. *)
Definition fi_term (d : Z) (poly : b32) (q : Z) : b32 :=
  fdiv (fmul (f_of_Z d) poly) (f_of_Z q).

Definition fi_poly (x1 x2 x3 : b32) (a b : Z) : b32 :=
  fadd (fsub x3 (fmul (f_of_Z a) x2)) (fmul (f_of_Z b) x1).

(* int16_t fastinterpolate(d1,d2,d3,d4,x), interpolation.cpp:36-55 *)
Definition fi_sum (y1 y2 y3 y4 : Z) (x : b32) : b32 :=
  let x1 := fi_x1 x in
  let x2 := fmul x1 x1 in
  let x3 := fmul x2 x1 in
  fadd (fadd (fadd
    (fi_term y1 (fsub (fi_poly x1 x2 x3 6000 11000000) (f_of_Z 6000000000)) (-6000000000))
    (fi_term y2 (fi_poly x1 x2 x3 5000 6000000) 2000000000))
    (fi_term y3 (fi_poly x1 x2 x3 4000 3000000) (-2000000000)))
    (fi_term y4 (fi_poly x1 x2 x3 3000 2000000) 6000000000).

Definition fastinterpolate (y1 y2 y3 y4 : Z) (x : b32) : res Z :=
  result <- f_to_s32 (fi_sum y1 y2 y3 y4 x) ;;
  Ok (clamp16 result).
