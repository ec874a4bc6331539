(* Vocabulary for the second playback head and its crossfades. *)

From Coq Require Import ZArith Lia List Bool Reals.
From RecordUpdate Require Import RecordUpdate.
From Flocq Require Import Core.Core IEEE754.BinarySingleNaN.
From Verif Require Import Machine Floats CacheModel ReaderModel ReaderSpec.
Import ListNotations.
Local Open Scope Z_scope.

(* [v] is a blend of [a] (weight d-k) and [b] (weight k): exact at both ends, off by
   at most 1 in between, inside [a, b] up to 1, and never further from 0 than both *)
Definition blended (d k a b v : Z) : Prop :=
  (k = 0 -> v = a) /\ (k = d -> v = b) /\
  Z.abs (d * v - ((d - k) * a + k * b)) <= d /\
  Z.min a b - 1 <= v <= Z.max a b + 1 /\ Z.min 0 (Z.min a b) <= v <= Z.max 0 (Z.max a b).

(* The same for frames, channel by channel *)
Definition blended_frame (d k : Z) (a b v : list Z) : Prop :=
  length v = length a /\ length v = length b /\
  forall c, (c < length v)%nat -> blended d k (nth c a 0) (nth c b 0) (nth c v 0).

(* A gain *)
Definition gain_ok (x : b64) : Prop := is_finite x = true /\ (0 <= B2R x <= 1)%R.

(* Two heads, no fade in progress, a fade of at least one frame that fits into the loop *)
Definition ready_to_fade (r : reader) : Prop :=
  r_dual r = true /\ r_cfst r = 0 /\ gain_ok (r_cf r) /\
  is_finite (r_rem r) = true /\ (Rabs (B2R (r_rem r)) < 1)%R /\
  0 <= r_hdr r /\ 1 <= r_nch r < 2 ^ 15 /\ 0 <= r_ls r /\ 1 <= r_cfdur r /\
  r_ls r + r_cfdur r <= r_lf r /\ r_hdr r + r_lf r * r_nch r < 2 ^ 31.

(* Reads of any size and changes of rate that keep its sign *)
Inductive fades (fuel : nat) : reader -> reader -> Prop :=
| fades_none : forall r, fades fuel r r
| fades_read : forall r s n l t, fades fuel r s -> r_read fuel s n = Ok (l, t) -> fades fuel r t
| fades_rate : forall r s x t, fades fuel r s -> dlt d0 x = dlt d0 (r_rate s) ->
    setPlaybackRate s x = Ok t -> fades fuel r t.
