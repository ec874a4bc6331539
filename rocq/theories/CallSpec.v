(* Calls of the sketch interrupted by update(): executions, and what it means that an
   interrupted call behaves like one that is not (C102-C105). *)

From Coq Require Import ZArith List Bool Reals.
From RecordUpdate Require Import RecordUpdate.
From Flocq Require Import IEEE754.BinarySingleNaN.
From Verif Require Import Machine Floats FloatFacts WavModel CacheModel ReaderModel PlayerModel CallModel.
Import ListNotations.
Local Open Scope Z_scope.

(* An update, given what allocate() returns in it, and what is observed of it: the use of
   the audio blocks and the event triggered *)
Definition irq : Type := nat -> option nat.
Definition seen : Type := list bact * option Z.

Fixpoint updates (fuel : nat) (l : list irq) (r : reader) : res (list seen * reader) :=
  match l with
  | [] => Ok ([], r)
  | a :: l' =>
      '(acts, ev, r1) <- p_update fuel a r ;;
      '(o, r2) <- updates fuel l' r1 ;;
      Ok ((acts, ev) :: o, r2)
  end.

(* A call with updates before each of its steps; those left over follow the call *)
Fixpoint interrupted (fuel : nat) (p : prog) (mids : list (list irq)) (r : reader)
  : res (list seen * bool * reader) :=
  match p with
  | Done b => '(o, r1) <- updates fuel (concat mids) r ;; Ok (o, b, r1)
  | Step g k =>
      '(o, r1) <- updates fuel (hd [] mids) r ;;
      r2 <- g r1 ;;
      '(o', b, r3) <- interrupted fuel (k r2) (tl mids) r2 ;;
      Ok (o ++ o', b, r3)
  end.

(* A call between updates *)
Definition between (fuel : nat) (call : reader -> res (bool * reader)) (l1 l2 : list irq) (r : reader)
  : res (list seen * bool * reader) :=
  '(o1, r1) <- updates fuel l1 r ;;
  '(b, r2) <- call r1 ;;
  '(o2, r3) <- updates fuel l2 r2 ;;
  Ok (o1 ++ o2, b, r3).

(* However it is interrupted, a call looks as if it had happened between two of the
   updates *)
Definition atomic (p : prog) (call : reader -> res (bool * reader)) (r : reader) : Prop :=
  forall fuel mids, exists l1 l2, concat mids = l1 ++ l2 /\
    interrupted fuel p mids r = between fuel call l1 l2 r.

(* The setters of playresmp.h:108-141 *)
Inductive setter :=
| SDual (b : bool)
| SFade (n : Z)
| SInterp (i : interp)
| SStart (p : play_start) (v : Z)
| SLoopType (l : loop_type)
| SLoopStart (v : Z)
| SLoopFinish (v : Z).
Definition setter_steps (s : setter) : prog :=
  match s with
  | SDual b => dual_steps b
  | SFade n => fade_steps n
  | SInterp i => interp_steps i
  | SStart p v => start_steps p v
  | SLoopType l => loop_type_steps l
  | SLoopStart v => loop_start_steps v
  | SLoopFinish v => loop_finish_steps v
  end.
Definition setter_run (s : setter) (r : reader) : reader :=
  match s with
  | SDual b => setUseDualPlaybackHead r b
  | SFade n => setCrossfadeDuration r n
  | SInterp i => setInterpolationType r i
  | SStart p v => setPlayStart r p v
  | SLoopType l => setLoopType r l
  | SLoopStart v => setLoopStart r v
  | SLoopFinish v => setLoopFinish r v
  end.

(* Calls that start with stop(): nothing is heard between that and their end *)
Definition nothing : seen := ([], None).
Definition stops_first (p : prog) (call : reader -> res (bool * reader)) (r : reader) : Prop :=
  forall fuel mids, exists l1 l2 l3, concat mids = l1 ++ l2 ++ l3 /\
    forall o1 r1 b r2, updates fuel l1 r = Ok (o1, r1) -> call r1 = Ok (b, r2) -> -1 <= r_nch r -> -1 <= r_nch r2 ->
    interrupted fuel p mids r = '(o3, r3) <- updates fuel l3 r2 ;; Ok (o1 ++ map (fun _ => nothing) l2 ++ o3, b, r3).

(* The calls of playresmp.h:44-102, 155-160 and close() on the reader, with the player's
   stop() before those that play *)
Inductive starter :=
| PlFile (fo : option file) (isWave : bool) (nraw : Z) (stack : bytes) (garbage : nat -> bytes)
| PlRaw (m : mem) (off len nch : Z)
| PlWavLen (m : mem) (off len : Z)
| PlWav (m : mem)
| PlAgain
| PlBegin
| PlStop
| PlClose.
Definition starter_steps (k : rkind) (c : ccfg) (s : starter) : prog :=
  match s with
  | PlFile fo isWave nraw stack garbage => pseq stop_steps (file_steps k c fo isWave nraw stack garbage)
  | PlRaw m off len nch => pseq stop_steps (raw_steps m off len nch)
  | PlWavLen m off len => pseq stop_steps (raw_steps m off 0 1)
  | PlWav m => pseq stop_steps (wav_steps m)
  | PlAgain => again_steps
  | PlBegin => begin_steps
  | PlStop => stop_steps
  | PlClose => close_steps
  end.
Definition yes (x : res reader) : res (bool * reader) := r <- x ;; Ok (true, r).
Definition starter_run (s : starter) (r : reader) : res (bool * reader) :=
  match s with
  | PlFile fo isWave nraw stack garbage => r_play_file (r_stop r) fo isWave nraw stack garbage
  | PlRaw m off len nch => yes (playRaw_array (r_stop r) m off len nch)
  | PlWavLen m off len => yes (playWav_array_len (r_stop r) m off len)
  | PlWav m => playWav_array (r_stop r) m
  | PlAgain => yes (r_play r)
  | PlBegin => Ok (true, r_begin r)
  | PlStop => Ok (true, r_stop r)
  | PlClose => Ok (true, r_close r)
  end.

(* However it is interrupted after its first step, a call looks as if all of it had
   happened at that step *)
Definition at_once (p : prog) (call : reader -> res (bool * reader)) (r : reader) (mids : list (list irq)) : Prop :=
  forall fuel, interrupted fuel p ([] :: mids) r = between fuel call [] (concat mids) r.

(* loop(n) lays the loop at one moment and switches it on at a later one *)
Definition loops_late (n : Z) (r : reader) : Prop :=
  forall fuel mids, exists l1 l2 l3, concat mids = l1 ++ l2 ++ l3 /\
    forall o1 r1 rl o2 r2, updates fuel l1 r = Ok (o1, r1) -> r_loop_from_here r1 n = Ok rl -> updates fuel l2 r1 = Ok (o2, r2) ->
    interrupted fuel (loop_steps n) mids r =
      '(o3, r3) <- updates fuel l3 (r2 <| r_ls := r_ls rl |> <| r_lf := r_lf rl |> <| r_loop := LRepeat |>) ;;
      Ok (o1 ++ o2 ++ o3, true, r3).

(* The blocks transmitted on the left output, and the events triggered *)
Definition left_blocks (o : list seen) : list (list Z) :=
  flat_map (fun s => flat_map (fun a => match a with BTransmit _ d ch => if ch =? 0 then [d] else [] | _ => [] end) (fst s)) o.
Definition events (o : list seen) : list Z := flat_map (fun s => match snd s with Some e => [e] | None => [] end) o.

(* One head that does not loop and has less than a frame pending *)
Definition calm_head (r : reader) : Prop :=
  r_dual r = false /\ r_loop r = LNone /\ fin64 (r_rem r) = true /\ (Rabs (R64 (r_rem r)) < 1)%R /\ 0 < r_nch r.
(* Nothing that plays depends on the loop bounds *)
Definition loopless (r : reader) : Prop := r_loop r = LNone /\ r_dual r = false /\ r_pstart r = PSample.

(* setPlaybackRate and loop(n) as calls *)
Definition rate_call (f : b64) (r : reader) : res (bool * reader) := yes (setPlaybackRate r f).
Definition loop_call (n : Z) (r : reader) : res (bool * reader) := yes (r_loop_from_here r n).
