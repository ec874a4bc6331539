(* Specification vocabulary for repeat loops played from files. *)

From Coq Require Import ZArith List Bool.
From Verif Require Import Machine WavModel CacheModel ReaderModel ReaderSpec FileSpec LoopSpec.
Import ListNotations.
Local Open Scope Z_scope.

(* The frame where forward playback of a loop starts *)
Definition loop_start (ps : play_start) (ls pb : Z) : Z :=
  match ps with PSample => 0 | PLoop => ls | PArbitrary => pb end.

(* Forward from frame p0 in steps of num/den frames; ls .. lf-1 over and over *)
Definition file_repeat (fl : file) (h : Z) (nch : nat) (ls lf p0 num den : Z) : stream :=
  endless_stream (fun k => file_frame fl h nch
    (hd_i (orbit (mkLoop false ls ls lf lf) num den (mkHead p0 0 false) k))).

(* The file reaches into the last of the blocks that are buffered when playback
   starts at sample i *)
Definition buffers_fill (c : ccfg) (fl : file) (i : Z) : Prop :=
  2 * ((blk c i + Z.of_nat (c_nbuf c) - 1) * BS c) < fsize fl.

(* Starting at sample i, all blocks of the loop from sample i1 to sample i2 are
   buffered *)
Definition loop_buffered (c : ccfg) (i i1 i2 : Z) : Prop :=
  blk c i <= blk c i1 /\ blk c i2 <= blk c i + Z.of_nat (c_nbuf c) - 1.

(* The buffers do not begin inside the loop and reach beyond its end *)
Definition loop_ahead (c : ccfg) (i i1 i2 : Z) : Prop :=
  blk c i <= blk c i1 \/ blk c i + Z.of_nat (c_nbuf c) - 1 <= blk c i2.

(* Two consecutive updates of at most B frames, in steps of at most s frames, span
   at most the buffered blocks minus three *)
Definition loop_keeps_up (c : ccfg) (nch B : nat) (s : Z) : Prop :=
  2 * Z.of_nat B * s * Z.of_nat nch <= (Z.of_nat (c_nbuf c) - 3) * BS c.
