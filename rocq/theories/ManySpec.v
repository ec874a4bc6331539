(* Any number of file players used forwards (C117). *)

From Coq Require Import ZArith List Bool Reals.
From Flocq Require Import Core.Core IEEE754.BinarySingleNaN.
From Verif Require Import Machine Floats FloatFacts WavModel WavSpec WavPlayProofs CacheModel ReaderModel LifeSpec.
Import ListNotations.
Local Open Scope Z_scope.

(* A rate forwards: finite, from 0 to 2^26 *)
Definition onwards (x : b64) : Prop := fin64 x = true /\ (0 <= R64 x <= IZR (2 ^ 26))%R.

(* Control calls that leave the direction forwards, the loop off and the second playback
   head unused; everything else may be set to anything *)
Definition mild (c : call) : Prop :=
  match c with
  | CRate x => onwards x
  | CLoopType l => l = LNone
  | CDual b => b = false
  | CStart p _ => p = PSample
  | CLoopStart _ | CLoopFinish _ | CFade _ | CInterp _ | CBegin | CReload => True
  end.

(* A WAV file, sound or not: outside the undefined sets of C02 and C03, with 1 to 8
   channels declared and less than 1 GB of audio *)
Definition wav_any (fl : file) : Prop :=
  bytes_ok (fbyte fl) /\ 36 <= fsize fl < 2 ^ 30 /\ header_safe (fbyte fl) /\ list_sane (fsize fl) (fbyte fl) /\
  1 <= hdr_channels (fbyte fl) <= 8 /\ (forall tags n, data_chunk (fbyte fl) tags n -> n < 2 ^ 30).

(* What may happen: starts of any such file or of a missing one, stops interrupted by
   updates, control calls, updates and yields *)
Definition mild_op (o : wop) : Prop :=
  match o with
  | WPlayFile _ fo isWave nraw stack _ =>
      bytes_ok stack /\ (isWave = false -> 1 <= nraw <= 8) /\
      (forall fl, fo = Some fl -> if isWave then wav_any fl else 0 <= fsize fl < 2 ^ 30)
  | WStop _ _ | WUpdate _ _ | WYield => True
  | WCall _ c => mild c
  | _ => False
  end.
