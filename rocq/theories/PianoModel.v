(* The piano example, examples/PlayPiano/PlayPiano.ino: eight SD players play a score
   (prelude846.c) with nine samples at different rates.

   Simplifications: Serial, the codec, AudioMemory, the mixers and the envelopes have no
   effect on the players; what AudioEffectEnvelope::isActive() and millis() return is part
   of the input.  pow() is a parameter.  The audio interrupt and yield() may come
   between any two calls on the players, and the interrupt inside stop(). *)

From Coq Require Import ZArith List Bool.
From RecordUpdate Require Import RecordUpdate.
From Verif Require Import Machine Floats WavModel CacheModel ReaderModel ResponderModel PlayerModel LifeSpec SketchModel.
Import ListNotations.
Local Open Scope Z_scope.

(* LOWEST_NOTE, HIGHEST_NOTE, PlayPiano.ino:102 *)
Definition lowest_note : Z := 36 - 3.
Definition highest_note : Z := 84 + 2.
(* Number of elements of samples[] (88-100), velocity2amplitude[] (108) and voices[] (210-219) *)
Definition samples_count : Z := 9.
Definition amplitudes_count : Z := 127.
Definition voices_count : nat := 8.

(* An access to element i of an array of n *)
Definition at_index (n i : Z) : res unit := if (0 <=? i) && (i <? n) then Ok tt else UB UbOutOfBounds.

(* The variables: the players, active of each voice (zero at first: voices[] is static),
   and next and p of updatePlayer (p as an offset from score) *)
Record piano := mkPiano { pn_world : world; pn_active : nat -> bool; pn_next : Z; pn_pos : Z }.
#[export] Instance eta_piano : Settable _ := settable! mkPiano <pn_world; pn_active; pn_next; pn_pos>.

(* One pass of loop(): the two values of millis() in updatePlayer, whether the envelopes
   of a voice are active, what comes between the calls (an update of a player, or None for
   yield()), the updates that interrupt the stop() of a voice, and the content of fresh memory.
   Gaps: 0 first of all, 1 between playWav and setPlaybackRate, 2 + i before the poll of
   voice i, 10 at the end. *)
Record ppass := mkPass {
  pp_now : Z;
  pp_now2 : Z;
  pp_env : nat -> bool;
  pp_gap : nat -> list (option (nat * grant));
  pp_mid : nat -> list (nat * grant);
  pp_stack : bytes;
  pp_garbage : nat -> bytes }.
Definition bg_ops (l : list (option (nat * grant))) : list wop :=
  map (fun o => match o with Some (j, g) => WUpdate j g | None => WYield end) l.

(* What a command of the score did: noteOn that started a sample at a shift in semitones,
   noteOn that did nothing, noteOff, a delay, the end *)
Inductive pact := PNote (v idx shift : Z) | PSkip (v : Z) | POff (v : Z) | PWait | PEnd.

Section Piano.
Variable pow : b64 -> b64 -> b64.
Variable card : Z -> option file.
Variable score : mem.

(* semitone, PlayPiano.ino:103 *)
Definition semitone : b64 := pow (d_of_Z 2) (ddiv d1 (d_of_Z 12)).

(* Voice::noteOn, PlayPiano.ino:162-188 *)
Definition noteOn (fuel : nat) (t : ppass) (v : nat) (note velocity : Z) (s : piano) : res (pact * piano) :=
  if (lowest_note <=? note) && (note <=? highest_note) && (0 <? velocity) then
    let note := note - lowest_note in
    let idx := Z.quot note 6 in
    let shift := Z.rem note 6 - 3 in
    let rate := pow semitone (d_of_Z shift) in
    _ <- at_index samples_count idx ;;
    '(_, w) <- wops fuel ([WPlayFile v (card idx) true 0 (pp_stack t) (pp_garbage t)] ++ bg_ops (pp_gap t 1) ++ [WCall v (CRate rate)]) (pn_world s) ;;
    _ <- at_index amplitudes_count (velocity - 1) ;;
    Ok (PNote (Z.of_nat v) idx shift, s <| pn_world := w |> <| pn_active := fun i => if Nat.eqb i v then true else pn_active s i |>)
  else Ok (PSkip (Z.of_nat v), s).

(* *p++ on the score *)
Definition next_byte (s : piano) : res (Z * piano) :=
  _ <- at_index (msize score) (pn_pos s) ;;
  Ok (mbyte score (pn_pos s), s <| pn_pos := pn_pos s + 1 |>).

(* voices[ch] *)
Definition voice (ch : Z) : res nat := _ <- at_index (Z.of_nat voices_count) ch ;; Ok (Z.to_nat ch).

(* updatePlayer, PlayPiano.ino:228-265 *)
Definition updatePlayer (fuel : nat) (t : ppass) (s : piano) : res (list pact * piano) :=
  if pn_next s <=? pp_now t then
    '(cmd, s) <- next_byte s ;;
    let ch := Z.land cmd 15 in
    let op := Z.land cmd 240 in
    if op =? 240 then
      Ok ([PEnd], s <| pn_next := 4294967295 |> <| pn_pos := pn_pos s - 1 |>)
    else if op =? 144 then
      '(note, s) <- next_byte s ;;
      '(velocity, s) <- next_byte s ;;
      v <- voice ch ;;
      '(a, s) <- noteOn fuel t v note velocity s ;;
      Ok ([a], s)
    else if op =? 128 then
      _ <- voice ch ;;
      Ok ([POff ch], s)
    else
      '(b, s) <- next_byte s ;;
      Ok ([PWait], s <| pn_next := u32 (pp_now2 t + Z.lor (cmd * 256) b) |>)
  else Ok ([], s).

(* Voice::poll, PlayPiano.ino:199-206, for the voices from i on *)
Fixpoint poll_voices (fuel : nat) (t : ppass) (n i : nat) (s : piano) : res piano :=
  match n with
  | O => Ok s
  | S n' =>
      '(_, w) <- wops fuel (bg_ops (pp_gap t (2 + i))) (pn_world s) ;;
      if pn_active s i && negb (pp_env t i) then
        '(_, w) <- wops fuel [WStop i (pp_mid t i)] w ;;
        poll_voices fuel t n' (S i) (s <| pn_world := w |> <| pn_active := fun j => if Nat.eqb j i then false else pn_active s j |>)
      else poll_voices fuel t n' (S i) (s <| pn_world := w |>)
  end.

(* loop(), PlayPiano.ino:293-312; main() calls yield() after it *)
Definition piano_pass (fuel : nat) (t : ppass) (s : piano) : res (list pact * piano) :=
  '(_, w) <- wops fuel (bg_ops (pp_gap t 0)) (pn_world s) ;;
  '(a, s) <- updatePlayer fuel t (s <| pn_world := w |>) ;;
  s <- poll_voices fuel t voices_count 0 s ;;
  '(_, w) <- wops fuel (bg_ops (pp_gap t 10) ++ [WYield]) (pn_world s) ;;
  Ok (a, s <| pn_world := w |>).

Fixpoint piano_run (fuel : nat) (l : list ppass) (s : piano) : res (list pact * piano) :=
  match l with
  | [] => Ok ([], s)
  | t :: l' =>
      '(a, s1) <- piano_pass fuel t s ;;
      '(b, s2) <- piano_run fuel l' s1 ;;
      Ok (a ++ b, s2)
  end.

(* After setup(), which does nothing to the players *)
Definition piano0 (flags : Z) : piano := mkPiano (world0 (fun _ => KSd) flags) (fun _ => false) 0 0.
Definition play_piano (fuel : nat) (flags : Z) (l : list ppass) : res (list pact * piano) := piano_run fuel l (piano0 flags).
End Piano.
