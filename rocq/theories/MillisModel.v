(* The constant B2M of ResamplingReader.h:679, and times in milliseconds. *)

From Coq Require Import ZArith Lia List Bool.
From RecordUpdate Require Import RecordUpdate.
From Flocq Require Import IEEE754.BinarySingleNaN.
From Verif Require Import Machine Floats ReaderModel.
Local Open Scope Z_scope.

(* (uint32_t)((double)4294967296000.0 / AUDIO_SAMPLE_RATE_EXACT / 2.0), where
   AUDIO_SAMPLE_RATE_EXACT is a float literal of the core library *)
Definition B2M (rate : b32) : res Z :=
  d_to_u32 (ddiv (ddiv (d_of_Z 4294967296000) (d_of_f rate)) (d_of_Z 2)).

(* AUDIO_SAMPLE_RATE_EXACT: 44100.0f (Teensy 4 and the Linux build) *)
Definition rate_t4 : b32 := f_of_Z 44100.
Definition b2m : Z := 48695774.
Lemma b2m_value : B2M rate_t4 = Ok b2m.
Proof. vm_compute. reflexivity. Qed.
