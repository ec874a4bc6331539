(* Scores of the piano example and what playing them should do (C118-C121). *)

From Coq Require Import ZArith List Bool.
From Verif Require Import Machine Floats WavModel WavSpec ReaderModel ManySpec PianoModel.
Import ListNotations.
Local Open Scope Z_scope.

(* The commands of a score as MIDITONES writes them: wait for 256 hi + lo ms, a note on
   or off on a generator *)
Inductive event := Wait (hi lo : Z) | On (ch note velocity : Z) | Off (ch : Z).
Definition event_bytes (e : event) : list Z :=
  match e with Wait hi lo => [hi; lo] | On ch note velocity => [144 + ch; note; velocity] | Off ch => [128 + ch] end.
(* On the eight voices there are, with MIDI velocities *)
Definition event_ok (e : event) : Prop :=
  match e with
  | Wait hi lo => 0 <= hi < 128 /\ 0 <= lo < 256
  | On ch note velocity => 0 <= ch < 8 /\ 0 <= note < 256 /\ 0 <= velocity < 128
  | Off ch => 0 <= ch < 8
  end.
(* The bytes of a score: events, the stop command with any low nibble, whatever follows *)
Definition score_bytes (evs : list event) (x : Z) (rest : list Z) : list Z := flat_map event_bytes evs ++ (240 + x) :: rest.

(* Pitch 36 + 6 idx is the pitch of sample number idx (PlayPiano.ino:90-98: C2 is 36, then steps of
   6 semitones); a note is playable if it is at most 3 semitones below or 2 above one of the nine *)
Definition pitch_of (idx shift : Z) : Z := 36 + 6 * idx + shift.
Definition near (idx shift : Z) : Prop := 0 <= idx < 9 /\ -3 <= shift <= 2.

(* The act that carries out an event *)
Definition carries (e : event) (a : pact) : Prop :=
  match e with
  | Wait _ _ => a = PWait
  | Off ch => a = POff ch
  | On ch note velocity =>
      (exists idx shift, near idx shift /\ pitch_of idx shift = note /\ 0 < velocity /\ a = PNote ch idx shift) \/
      ((velocity <= 0 \/ forall idx shift, near idx shift -> pitch_of idx shift <> note) /\ a = PSkip ch)
  end.

(* What the passes of loop() should do: one event in each pass that is not before the time due;
   a wait sets that time; at the end the clock has to reach 2^32 - 1 *)
Inductive played : Z -> list event -> list ppass -> list pact -> Prop :=
| pl_over : forall due evs, played due evs [] []
| pl_early : forall due evs t l xs, pp_now t < due -> played due evs l xs -> played due evs (t :: l) xs
| pl_end : forall due t l xs, due <= pp_now t -> played (2 ^ 32 - 1) [] l xs -> played due [] (t :: l) (PEnd :: xs)
| pl_event : forall due e evs t l a xs, due <= pp_now t -> carries e a ->
    played (match e with Wait hi lo => (pp_now2 t + 256 * hi + lo) mod 2 ^ 32 | _ => due end) evs l xs ->
    played due (e :: evs) (t :: l) (a :: xs).

(* Assumptions on pow(), the card and the input *)
Definition pow_ok (pow : b64 -> b64 -> b64) : Prop := forall shift, -3 <= shift <= 2 -> onwards (pow (semitone pow) (d_of_Z shift)).
Definition card_ok (card : Z -> option file) : Prop := forall idx fl, card idx = Some fl -> wav_any fl.
Definition pass_ok (t : ppass) : Prop := bytes_ok (pp_stack t).
