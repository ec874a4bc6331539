(* Loops and interpolated playback of files on the outputs: conditions and values. *)

From Coq Require Import ZArith List Bool Reals.
From Flocq Require Import Core.Core IEEE754.BinarySingleNaN.
From Verif Require Import Machine Floats FloatFacts WavModel CacheModel ReaderModel CacheFacts CacheSpec CacheFinal ReaderSpec FileSpec LoopSpec InterpWalk LoopFileSpec PongSpec TrackSpec.
Local Open Scope Z_scope.

(* A ping-pong loop from lo to lf, started in p0: buffered as a whole, or, with a rate
   num/2^q up to s, from a start in the loop, its buffers and those of the turns, in
   updates of 128 frames *)
Definition pong_buffered (c : ccfg) (h lf : Z) (nch : nat) (pos : Z -> Z) (p0 lo ls num q : Z) : Prop :=
  loop_buffered c (pos p0) (pos ls) (pos lf) \/
  (starts_inside c (pos p0) (pos lo) (pos lf) /\ blk c (pos lo) = blk c (pos ls) /\ turns_in_last_block c h lf nch /\
   exists s, num <= s * 2 ^ q /\ pingpong_keeps_up c nch 128 s).

(* Some stream is played that has the length of a finished recording at rate x, and the
   values of the linear or cubic interpolation; with the linear one, the first frame is
   a left-over *)
Definition out_linear (fl : file) (h len : Z) (nch : nat) (p0 : Z) (x : R) (old : nat -> Z) (plays : stream -> Prop) : Prop :=
  exists f, plays (slow_stream len p0 x f) /\
    forall k, let t := (INR k * x)%R in p0 + Zfloor t < len -> length (f k) = nch /\ forall c, (c < nch)%nat ->
      (k = O -> nth c (f k) 0 = old c) /\ linear_sample (file_chan fl h nch c) p0 (Zfloor t) (t - IZR (Zfloor t))%R (nth c (f k) 0).
Definition out_cubic (fl : file) (h len : Z) (nch : nat) (p0 : Z) (x : R) (plays : stream -> Prop) : Prop :=
  exists f, plays (slow_stream len p0 x f) /\
    forall k, let t := (INR k * x)%R in p0 + Zfloor t < len -> length (f k) = nch /\ forall c, (c < nch)%nat ->
      cubic_sample (file_chan fl h nch c) p0 (Zfloor t) (t - IZR (Zfloor t))%R (nth c (f k) 0).

