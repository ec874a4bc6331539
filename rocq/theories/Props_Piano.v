(* C118-C121: the piano example. *)

From Coq Require Import ZArith List Bool.
From Verif Require Import Machine Floats WavModel WavSpec ReaderModel ResponderModel PlayerModel LifeSpec SketchModel ManySpec PianoModel PianoSpec PianoProofs PianoQuiet PianoScore PianoCases.
Import ListNotations.
Local Open Scope Z_scope.

(* ---- C118, C119 ---- *)

(* Any score for eight voices, any card, any clock and timing: defined, and the score is carried out in order and in time *)
Theorem C118_defined : forall pow card evs x rest flags l, pow_ok pow -> card_ok card -> Forall event_ok evs -> 0 <= x < 16 -> 0 <= flags < 256 -> Forall pass_ok l ->
  exists F acts s, forall fuel, (F <= fuel)%nat -> play_piano pow card (mem_of (score_bytes evs x rest)) fuel flags l = Ok (acts, s).
Proof. exact piano_defined. Qed.

Theorem C119_in_order : forall pow card evs x rest flags l, pow_ok pow -> card_ok card -> Forall event_ok evs -> 0 <= x < 16 -> 0 <= flags < 256 -> Forall pass_ok l ->
  exists F acts s, (forall fuel, (F <= fuel)%nat -> play_piano pow card (mem_of (score_bytes evs x rest)) fuel flags l = Ok (acts, s)) /\ played 0 evs l acts.
Proof. exact piano_plays. Qed.

(* There is only one way to carry out a score *)
Theorem C119_unique : forall due evs l xs ys, played due evs l xs -> played due evs l ys -> xs = ys.
Proof. exact played_unique. Qed.

(* The score in the repository is such a score *)
Theorem C118_prelude : prelude_bytes = score_bytes prelude_events 0 [] /\ Forall event_ok prelude_events.
Proof. exact (conj prelude_is prelude_ok). Qed.

Example C118_case : pow_ok pow_ex /\ card_ok card_ex /\ Forall event_ok tune /\ Forall pass_ok tune_passes /\
  match play_piano pow_ex card_ex (mem_of (score_bytes tune 0 [])) 300 2 tune_passes with Ok (acts, s) => Some (acts, playing_of (pn_world s)) | _ => None end
  = Some ([PNote 0 4 0; PWait; PNote 1 4 2; PSkip 2; POff 0; PEnd], [false; true; false]).
Proof. exact (conj pow_ex_ok (conj card_ex_ok (conj (proj1 tune_ok) (conj (proj2 tune_ok) tune_run)))). Qed.

(* ---- C120 ---- *)

(* Generator 8: the array voices has eight elements *)
Theorem C120_refuted_channel : exists card score fuel l, card_ok card /\ Forall pass_ok l /\ score = [144 + 8; 60; 90; 240] /\
  play_piano pow_ex card (mem_of score) fuel 2 l = UB UbOutOfBounds.
Proof. exact channel_refuted. Qed.

(* A score that ends with the restart command 0xE0 *)
Theorem C120_refuted_restart : exists card score fuel l, card_ok card /\ Forall pass_ok l /\ score = flat_map event_bytes [On 0 60 90; Wait 0 250] ++ [224] /\
  play_piano pow_ex card (mem_of score) fuel 2 l = UB UbOutOfBounds.
Proof. exact restart_refuted. Qed.

(* ---- C121 ---- *)

(* After every pass, whatever score, card and pow(): no voice with silent envelopes plays *)
Theorem C121_silent : forall pow card score flags fuel l t acts s, play_piano pow card score fuel flags (l ++ [t]) = Ok (acts, s) ->
  forall i, (i < 8)%nat -> pp_env t i = false -> r_playing (w_rd (pn_world s) i) = false.
Proof. exact silent_voices. Qed.

(* Voice 0 played in the first pass of the run of C118_case *)
Example C121_case : tune_passes = firstn 7 tune_passes ++ [pass_at 255 env1] /\ pp_env (pass_at 255 env1) 0 = false /\
  match play_piano pow_ex card_ex (mem_of (score_bytes tune 0 [])) 300 2 (firstn 1 tune_passes) with Ok (_, s) => playing_of (pn_world s) | _ => [] end = [true; false; false].
Proof. exact (conj eq_refl (conj eq_refl tune_start)). Qed.

Print Assumptions C118_defined.
Print Assumptions C118_prelude.
Print Assumptions C119_in_order.
Print Assumptions C119_unique.
Print Assumptions C120_refuted_channel.
Print Assumptions C120_refuted_restart.
Print Assumptions C121_silent.
