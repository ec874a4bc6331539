(* Specification of looping playback, independent of the reader model. *)

From Coq Require Import ZArith List Bool.
Import ListNotations.
Local Open Scope Z_scope.

(* The play head: frame number, pending fraction of a frame (numerator over the
   denominator of the rate), and whether it moves backwards *)
Record head := mkHead { hd_i : Z; hd_f : Z; hd_back : bool }.

(* A loop: ping-pong or repeat; where a forward repeat restarts; first frame;
   one past the last frame; where backward motion starts *)
Record lspec := mkLoop { lp_pp : bool; lp_re : Z; lp_lo : Z; lp_hi : Z; lp_top : Z }.

(* At the end of the loop the head jumps (the fraction is kept) *)
Definition turn (l : lspec) (h : head) : head :=
  if hd_back h then
    if hd_i h <? lp_lo l then
      if lp_pp l then mkHead (lp_lo l) (hd_f h) false else mkHead (lp_top l) (hd_f h) true
    else h
  else
    if lp_hi l <=? hd_i h then
      if lp_pp l then
        if lp_top l <? lp_lo l then mkHead (lp_lo l) (hd_f h) false else mkHead (lp_top l) (hd_f h) true
      else mkHead (lp_re l) (hd_f h) false
    else h.

(* Moving by num/den frames, in the direction of the head *)
Definition move (num den : Z) (h : head) : head :=
  let s := if hd_back h then hd_f h - num else hd_f h + num in
  mkHead (hd_i h + Z.quot s den) (Z.rem s den) (hd_back h).

(* The head when the k-th frame is delivered *)
Fixpoint orbit (l : lspec) (num den : Z) (h : head) (k : nat) : head :=
  match k with
  | O => turn l h
  | S k' => turn l (move num den (orbit l num den h k'))
  end.

(* ---- the closed forms at unity rate ------------------------------------- *)

(* Forward from frame p, then start..finish-1 over and over *)
Definition repeat_frame (start finish p : Z) (k : nat) : Z :=
  let n := p + Z.of_nat k in
  if n <? finish then n else start + (n - Z.max p finish) mod (finish - start).

(* Forward from frame p up to finish-1, then down from top to start, up to finish-1, ... *)
Definition triangle_frame (start finish top p : Z) (k : nat) : Z :=
  let n := p + Z.of_nat k in
  if n <? finish then n
  else
    let down := Z.max 0 (top - start + 1) in
    let m := (n - Z.max p finish) mod (down + (finish - start)) in
    if m <? down then top - m else start + (m - down).
