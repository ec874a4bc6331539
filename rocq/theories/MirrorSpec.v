(* Specification vocabulary for comparing playback from a file with playback from
   an array: sessions of operations on a reader, and the same reader on an array. *)

From Coq Require Import ZArith List Bool.
From RecordUpdate Require Import RecordUpdate.
From Flocq Require Import IEEE754.BinarySingleNaN.
From Verif Require Import Machine Floats WavModel InterpModel CacheModel ReaderModel CacheSpec.
Import ListNotations.
Local Open Scope Z_scope.

(* The operations on a reader that is open: reading a block, servicing a reload, and
   every setter *)
Inductive sop :=
| SRead (n : Z)
| SReload
| SRate (x : b64)
| SLoopType (l : loop_type)
| SLoopStart (v : Z)
| SLoopFinish (v : Z)
| SLoopHere (n : Z)
| SDual (b : bool)
| SFade (n : Z)
| SInterp (i : interp)
| SHeader (n : Z)
| SPlayStart (p : play_start) (v : Z).

Definition sop_run (fuel : nat) (o : sop) (r : reader) : res (list (list Z) * reader) :=
  let quiet (x : res reader) := r' <- x ;; Ok ([], r') in
  match o with
  | SRead n => r_read fuel r n
  | SReload => quiet (r_triggerReload fuel r)
  | SRate x => quiet (setPlaybackRate r x)
  | SLoopType l => quiet (Ok (setLoopType r l))
  | SLoopStart v => quiet (Ok (setLoopStart r v))
  | SLoopFinish v => quiet (Ok (setLoopFinish r v))
  | SLoopHere n => quiet (r_loop_from_here r n)
  | SDual b => quiet (Ok (setUseDualPlaybackHead r b))
  | SFade n => quiet (Ok (setCrossfadeDuration r n))
  | SInterp i => quiet (Ok (setInterpolationType r i))
  | SHeader n => quiet (Ok (setHeaderSizeInBytes r n))
  | SPlayStart p v => quiet (Ok (setPlayStart r p v))
  end.

Fixpoint session (fuel : nat) (r : reader) (os : list sop) : res (list (list (list Z)) * reader) :=
  match os with
  | [] => Ok ([], r)
  | o :: os' => '(b, r1) <- sop_run fuel o r ;; '(bs, r2) <- session fuel r1 os' ;; Ok (b :: bs, r2)
  end.

(* The array reader in the same state, on memory m starting at byte off *)
Definition on_array (m : mem) (off : Z) (r : reader) : reader := r <| r_kind := KArray |> <| r_src := SArr m off |>.

(* All bytes of a file, as memory *)
Definition file_mem (fl : file) : mem := mkMem (fsize fl) (fbyte fl).

(* Samples lo up to hi of a file, as memory; it is to be used at offset -2*lo, so that
   index i is still sample i of the file *)
Definition part_mem (fl : file) (lo hi : Z) : mem := mkMem (2 * (hi - lo)) (fun a => fbyte fl (2 * lo + a)).

(* Samples lo up to hi are in the file and in the buffers *)
Definition has_block (f : ifile) (q : Z) : Prop := exists b, In b (i_bufs f) /\ b_index b = q /\ 0 < b_size b.
Definition buffered (c : ccfg) (fl : file) (f : ifile) (lo hi : Z) : Prop :=
  0 <= lo /\ 2 * hi <= fsize fl /\ forall i, lo <= i < hi -> has_block f (i / BS c).

(* Everything that says where playback is and how it goes on: all of the reader but
   the source, the interpolator and its points *)
Definition timeline (r : reader) : reader :=
  r <| r_src := SNull |> <| r_kind := KArray |> <| r_interp := INone |>
    <| r_npts := fun _ => 0 |> <| r_pts := fun _ => mkQuad 0 0 0 0 |>.

(* The operations of a session without reloads and choices of the interpolator *)
Definition timed (o : sop) : bool := match o with SReload | SInterp _ => false | _ => true end.
