(* Specification vocabulary for reverse playback of files without any reload. *)

From Coq Require Import ZArith List Bool Reals.
From Flocq Require Import Core.Core.
From Verif Require Import Machine Floats WavModel CacheModel ReaderModel ReaderSpec FileSpec HeldSpec HeldBackSpec.
Import ListNotations.
Local Open Scope Z_scope.

(* Reverse playback of file audio from frame p0 at speed x: the k-th frame delivered is
   frame p0 - floor(k x), until the beginning is passed *)
Definition file_back (fl : file) (h : Z) (nch : nat) (p0 : Z) (x : R) : stream :=
  fun k => let i := p0 - Zfloor (INR k * x) in if i <? 0 then None else Some (file_frame fl h nch i).

(* Sample p is in the last block of a file that fits into the buffers, and that block is
   the only one, or at least half full *)
Definition last_held (c : ccfg) (fl : file) (p : Z) : Prop :=
  small_file c fl /\ fsize fl / 2 <= (p / BS c + 1) * BS c /\ (p < BS c \/ half_full c fl p).
