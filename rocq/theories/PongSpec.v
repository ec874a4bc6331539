(* Specification vocabulary for ping-pong loops played from files. *)

From Coq Require Import ZArith List Bool.
From Verif Require Import Machine WavModel CacheModel ReaderModel ReaderSpec FileSpec LoopSpec.
Import ListNotations.
Local Open Scope Z_scope.

(* The first frame of the loop *)
Definition loop_low (ps : play_start) (ls : Z) : Z := match ps with PSample => 0 | _ => ls end.

(* Forward from frame p0 in steps of num/den frames to the end lf, then back from frame
   lf - nch to frame lo, and so on *)
Definition file_pingpong (fl : file) (h : Z) (nch : nat) (lo lf p0 num den : Z) : stream :=
  endless_stream (fun k => file_frame fl h nch
    (hd_i (orbit (mkLoop true lo lo lf (lf - Z.of_nat nch)) num den (mkHead p0 0 false) k))).

(* Playback starts at sample i inside the loop from sample i1 to sample i2, and the
   blocks buffered at the start are blocks of the loop *)
Definition starts_inside (c : ccfg) (i i1 i2 : Z) : Prop :=
  i1 <= i /\ blk c i + Z.of_nat (c_nbuf c) - 1 <= blk c i2.

(* The frame where the direction changes reaches into the block of the loop end *)
Definition turns_in_last_block (c : ccfg) (h lf : Z) (nch : nat) : Prop :=
  blk c (h + (lf - Z.of_nat nch) * Z.of_nat nch + Z.of_nat nch - 1) = blk c (h + lf * Z.of_nat nch).

(* Two consecutive updates of at most B frames, in steps of at most s frames, span at
   most the buffered blocks minus two *)
Definition pingpong_keeps_up (c : ccfg) (nch B : nat) (s : Z) : Prop :=
  (2 * Z.of_nat B * s + Z.of_nat nch - 1) * Z.of_nat nch <= (Z.of_nat (c_nbuf c) - 2) * BS c.
