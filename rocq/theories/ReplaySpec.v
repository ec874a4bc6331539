(* Starting again on a used object (C31, C32): what must agree for two objects to
   deliver the same. *)

From Coq Require Import ZArith List Bool.
From Flocq Require Import IEEE754.BinarySingleNaN.
From Verif Require Import Machine Floats CacheModel ReaderModel.
Import ListNotations.
Local Open Scope Z_scope.

(* The settings made through the API *)
Definition same_settings (r s : reader) : Prop :=
  r_kind s = r_kind r /\ r_cfg s = r_cfg r /\ r_rate s = r_rate r /\ r_loop s = r_loop r /\ r_pstart s = r_pstart r /\
  r_pbstart s = r_pbstart r /\ r_dual s = r_dual r /\ r_cfdur s = r_cfdur r /\ r_interp s = r_interp r.
(* Loop bounds are settings too when a file is played looping *)
Definition same_bounds (r s : reader) : Prop := r_loop r <> LNone -> r_ls s = r_ls r /\ r_lf s = r_lf r.

(* What playback leaves behind and play() does not clear: the fraction of a frame, and with
   linear interpolation the last point of each channel *)
Definition same_leftovers (r s : reader) : Prop :=
  r_rem s = r_rem r /\ (r_interp r = ILinear -> forall c, y1 (r_pts s c) = y1 (r_pts r c)).

(* Reads of n_1, n_2, ... frames, each followed by a serviced reload or not *)
Fixpoint reads (fuel : nat) (r : reader) (ns : list (Z * bool)) : res (list (list (list Z))) :=
  match ns with
  | [] => Ok []
  | (n, b) :: ns' =>
      '(l, r1) <- r_read fuel r n ;;
      r2 <- (if b : bool then r_triggerReload fuel r1 else Ok r1) ;;
      ls <- reads fuel r2 ns' ;; Ok (l :: ls)
  end.
(* Start with [p], then read *)
Definition starts (fuel : nat) (p : res (bool * reader)) (ns : list (Z * bool)) : res (bool * list (list (list Z))) :=
  '(b, r) <- p ;; if b : bool then l <- reads fuel r ns ;; Ok (true, l) else Ok (false, []).

(* Anything done to an object short of changing its settings: from r to the last index.
   [ok]: whether files may be played as WAV (true), as RAW (false) *)
Inductive used (fuel : nat) (ok : bool -> Prop) (r : reader) : reader -> Prop :=
| used_none : used fuel ok r r
| used_raw : forall s m off len nch t, used fuel ok r s -> playRaw_array s m off len nch = Ok t -> used fuel ok r t
| used_wav : forall s m b t, used fuel ok r s -> playWav_array s m = Ok (b, t) -> used fuel ok r t
| used_file : forall s fo isw n stack g b t, used fuel ok r s -> ok isw -> r_play_file s fo isw n stack g = Ok (b, t) -> used fuel ok r t
| used_read : forall s n l t, used fuel ok r s -> r_read fuel s n = Ok (l, t) -> used fuel ok r t
| used_reload : forall s t, used fuel ok r s -> r_triggerReload fuel s = Ok t -> used fuel ok r t
| used_stop : forall s, used fuel ok r s -> used fuel ok r (r_stop s)
| used_close : forall s, used fuel ok r s -> used fuel ok r (r_close s).
Definition any_file : bool -> Prop := fun _ => True.
Definition raw_only : bool -> Prop := fun w => w = false.

(* A whole number of frames per output frame *)
Definition whole_rate (r : reader) : Prop := exists k, k <> 0 /\ Z.abs k < 2 ^ 31 /\ r_rate r = d_of_Z k.
