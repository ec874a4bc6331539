(* IEEE-754 binary64 ("double") and binary32 ("float") as used by the C++ code,
   executable, round to nearest even, from Flocq. *)

From Coq Require Import ZArith Lia Bool.
From Flocq Require Import Core.Core IEEE754.BinarySingleNaN.
From Verif Require Import Machine.
Local Open Scope Z_scope.

Notation b64 := (binary_float 53 1024).
Notation b32 := (binary_float 24 128).

Definition prec53 : Prec_gt_0 53 := eq_refl.
Definition prec24 : Prec_gt_0 24 := eq_refl.
Definition emax1024 : Prec_lt_emax 53 1024 := eq_refl.
Definition emax128 : Prec_lt_emax 24 128 := eq_refl.
#[export] Existing Instances prec53 prec24 emax1024 emax128.

(* ---- double ------------------------------------------------------- *)
Definition dadd : b64 -> b64 -> b64 := Bplus mode_NE.
Definition dsub : b64 -> b64 -> b64 := Bminus mode_NE.
Definition dmul : b64 -> b64 -> b64 := Bmult mode_NE.
Definition ddiv : b64 -> b64 -> b64 := Bdiv mode_NE.
Definition dneg : b64 -> b64 := Bopp.
Definition dabs : b64 -> b64 := Babs.
Definition dlt : b64 -> b64 -> bool := Bltb.
Definition dle : b64 -> b64 -> bool := Bleb.
Definition deq : b64 -> b64 -> bool := Beqb.
Definition dfloor : b64 -> b64 := Bnearbyint mode_DN.
Definition dceil : b64 -> b64 := Bnearbyint mode_UP.
Definition dround : b64 -> b64 := Bnearbyint mode_NA.   (* C round(): halves away from zero *)
Definition d_of_Z (z : Z) : b64 := binary_normalize 53 1024 prec53 emax1024 mode_NE z 0 false.
Definition d0 : b64 := B754_zero false.
Definition d1 : b64 := d_of_Z 1.
(* m * 2^e rounded; used for literals and for witnesses *)
Definition d_of_me (m e : Z) : b64 := binary_normalize 53 1024 prec53 emax1024 mode_NE m e false.

(* ---- float -------------------------------------------------------- *)
Definition fadd : b32 -> b32 -> b32 := Bplus mode_NE.
Definition fsub : b32 -> b32 -> b32 := Bminus mode_NE.
Definition fmul : b32 -> b32 -> b32 := Bmult mode_NE.
Definition fdiv : b32 -> b32 -> b32 := Bdiv mode_NE.
Definition fneg : b32 -> b32 := Bopp.
Definition flt : b32 -> b32 -> bool := Bltb.
Definition fle : b32 -> b32 -> bool := Bleb.
Definition feq : b32 -> b32 -> bool := Beqb.
Definition f_of_Z (z : Z) : b32 := binary_normalize 24 128 prec24 emax128 mode_NE z 0 false.
Definition f0 : b32 := B754_zero false.

(* double -> float narrowing *)
Definition f_of_d (x : b64) : b32 :=
  match x with
  | B754_zero s => B754_zero s
  | B754_infinity s => B754_infinity s
  | B754_nan => B754_nan
  | B754_finite s m e _ =>
      binary_normalize 24 128 prec24 emax128 mode_NE (cond_Zopp s (Zpos m)) e s
  end.

(* float -> double widening (exact) *)
Definition d_of_f (x : b32) : b64 :=
  match x with
  | B754_zero s => B754_zero s
  | B754_infinity s => B754_infinity s
  | B754_nan => B754_nan
  | B754_finite s m e _ =>
      binary_normalize 53 1024 prec53 emax1024 mode_NE (cond_Zopp s (Zpos m)) e s
  end.

(* Conversions to integers truncate; undefined when the truncated value does not
   fit the destination (C++ [conv.fpint]). *)
Definition d_trunc (x : b64) : option Z := if is_finite x then Some (Btrunc x) else None.
Definition f_trunc (x : b32) : option Z := if is_finite x then Some (Btrunc x) else None.

Definition d_to_s32 (x : b64) : res Z :=
  match d_trunc x with
  | Some z => if in_s32b z then Ok z else UB UbFloatToInt
  | None => UB UbFloatToInt
  end.

Definition d_to_s16 (x : b64) : res Z :=
  match d_trunc x with
  | Some z => if in_s16b z then Ok z else UB UbFloatToInt
  | None => UB UbFloatToInt
  end.

Definition f_to_s32 (x : b32) : res Z :=
  match f_trunc x with
  | Some z => if in_s32b z then Ok z else UB UbFloatToInt
  | None => UB UbFloatToInt
  end.
