(* Specification vocabulary for files that are played without any reload: what
   opening a file buffers, and sessions without reloads. *)

From Coq Require Import ZArith List Bool.
From Verif Require Import Machine Floats WavModel CacheModel ReaderModel ReaderSpec CacheSpec FileSpec MirrorSpec.
Import ListNotations.
Local Open Scope Z_scope.

(* Everything but servicing a reload *)
Definition unserviced (o : sop) : Prop := o <> SReload.

(* The samples that opening a file at sample p for forward playback puts into the
   buffers: from the start of p's block, as many as the buffers hold *)
Definition held_from (c : ccfg) (p : Z) : Z := p / BS c * BS c.
Definition held_to (c : ccfg) (fl : file) (p : Z) : Z :=
  Z.min (fsize fl / 2) (held_from c p + Z.of_nat (c_nbuf c) * BS c).

(* The whole file fits into the buffers *)
Definition small_file (c : ccfg) (fl : file) : Prop := fsize fl <= 2 * (Z.of_nat (c_nbuf c) * BS c).

(* "Every session of reads on r, without any reload, delivers the stream, and no sample
   is missed" *)
Definition plays_alone (r : reader) (out : nat -> option (list Z)) : Prop :=
  forall ns, exists fuel r', read_seq fuel r ns = Ok (blocks_spec out 0 ns, r') /\ misses r' = 0.
