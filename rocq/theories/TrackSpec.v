(* Specification of interpolated forward playback of files (C16, C82-C84). *)

From Coq Require Import ZArith List Bool Reals.
From Flocq Require Import Core.Core IEEE754.BinarySingleNaN.
From Verif Require Import Machine Floats WavModel InterpModel CacheModel ReaderModel ReaderSpec FileSpec QuadProofs InterpWalk MirrorSpec.
Import ListNotations.
Local Open Scope Z_scope.

(* serviced playback in updates of at most B frames does what the same reader would do
   on an array with the file's bytes *)
Definition like_array (B : nat) (fl : file) (r : reader) : Prop := forall ns fuel bs ra, Forall (fun n => (n <= B)%nat) ns ->
  read_seq fuel (on_array (file_mem fl) 0 r) ns = Ok (bs, ra) ->
  exists fuel' r', serviced fuel' r ns = Ok (bs, r') /\ on_array (file_mem fl) 0 r' = ra /\ misses r' = 0.

Definition room (c : ccfg) (nch B : nat) (s : Z) : Prop := (2 * Z.of_nat B * s + 1) * Z.of_nat nch <= (Z.of_nat (c_nbuf c) - 1) * BS c.

(* room before the start for the points the cubic interpolator fetches first *)
Definition start_room (c : ccfg) (i : interp) (s h p0 : Z) (nch : nat) : Prop :=
  i = IQuadratic -> 1 < s -> s - 1 <= p0 /\ (s - 1) * Z.of_nat nch <= (h + p0 * Z.of_nat nch) mod BS c.

(* the samples of channel c of a file's audio *)
Definition file_chan (fl : file) (h : Z) (nch c : nat) (p : Z) : Z := nth c (file_frame fl h nch p) 0.

(* linear: as in linear_sample, first frame from the left-over point *)
Definition file_linear (B : nat) (fl : file) (h len : Z) (nch : nat) (p0 : Z) (x : R) (old : nat -> Z) (r : reader) : Prop :=
  exists f, file_delivers B r (slow_stream len p0 x f) /\
    forall k, let t := (INR k * x)%R in p0 + Zfloor t < len -> length (f k) = nch /\ forall c, (c < nch)%nat ->
      (k = O -> nth c (f k) 0 = old c) /\ linear_sample (file_chan fl h nch c) p0 (Zfloor t) (t - IZR (Zfloor t))%R (nth c (f k) 0).
Definition file_cubic (B : nat) (fl : file) (h len : Z) (nch : nat) (p0 : Z) (x : R) (r : reader) : Prop :=
  exists f, file_delivers B r (slow_stream len p0 x f) /\
    forall k, let t := (INR k * x)%R in p0 + Zfloor t < len -> length (f k) = nch /\ forall c, (c < nch)%nat ->
      cubic_sample (file_chan fl h nch c) p0 (Zfloor t) (t - IZR (Zfloor t))%R (nth c (f k) 0).
(* cubic at rate 1: three silent frames, then the audio two frames late *)
Definition file_delayed (B : nat) (fl : file) (h len : Z) (nch : nat) (p0 : Z) (r : reader) : Prop :=
  exists f, file_delivers B r (finite_stream (Z.to_nat (len - p0)) f) /\
    (forall k, (k < 3)%nat -> f k = repeat 0 nch) /\
    (forall k, (3 <= k)%nat -> p0 + Z.of_nat k < len -> near_frame (f k) (file_frame fl h nch (p0 + Z.of_nat k - 2))).

