(* Any number of players of all four kinds used forwards (C125). *)

From Coq Require Import ZArith List Bool Reals.
From Flocq Require Import Core.Core IEEE754.BinarySingleNaN.
From Verif Require Import Machine Floats FloatFacts WavModel WavSpec WavPlayProofs CacheModel ReaderModel ReaderSpec LifeSpec ManySpec.
Import ListNotations.
Local Open Scope Z_scope.

(* Array players are used in one of two ways: slowly, at rates up to 1 with any
   interpolation, or at any rate without cubic interpolation *)
Definition mild_arr (slow : bool) (c : call) : Prop :=
  mild c /\
  match c with
  | CRate x => slow = true -> (R64 x <= 1)%R
  | CInterp i => slow = false -> i <> IQuadratic
  | _ => True
  end.

(* A WAV file in memory, sound or not: its headers are inside the array, 1 to 8 channels
   are declared and a data chunk accepted is complete *)
Definition mem_wav (m : mem) : Prop :=
  bytes_ok (mbyte m) /\ headers_inside m /\ header_safe (mbyte m) /\
  exists nch, hdr_channels (mbyte m) = Z.of_nat nch /\ (1 <= nch <= 8)%nat /\
    forall tags n, data_chunk (mbyte m) tags n -> array_holds m (44 + tags) (n / Z.of_nat nch / 2) nch.

Definition mild_any (kinds : nat -> rkind) (slow : nat -> bool) (o : wop) : Prop :=
  match o with
  | WPlayFile i _ _ _ _ _ => kinds i <> KArray /\ mild_op o
  | WPlayRaw i m off len n => kinds i = KArray /\ exists nch, n = Z.of_nat nch /\ (nch <= 8)%nat /\ array_holds m off len nch
  | WPlayWavLen i m off _ => kinds i = KArray /\ 0 <= off <= msize m
  | WPlayWav i m => kinds i = KArray /\ mem_wav m
  | WStop _ _ | WUpdate _ _ | WYield => True
  | WCall i c => match kinds i with KArray => mild_arr (slow i) c | _ => mild c end
  | WPoll | WForce _ => False
  end.

(* In polled mode (C126): also runPolled(), and responses stay forced *)
Definition mild_polled (kinds : nat -> rkind) (slow : nat -> bool) (o : wop) : Prop :=
  match o with
  | WPoll => True
  | WForce b => b = true
  | _ => mild_any kinds slow o
  end.
