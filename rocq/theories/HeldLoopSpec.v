(* Specification vocabulary for loops of files that are never reloaded. *)

From Coq Require Import ZArith List Bool.
From Verif Require Import Machine Floats WavModel CacheModel ReaderModel ReaderSpec CacheSpec FileSpec LoopSpec MirrorSpec HeldSpec.
Import ListNotations.
Local Open Scope Z_scope.

(* The calls that set a loop of type l over the frames ls to lf-1 of a file of len frames:
   setLoopType alone (the whole file), with setLoopFinish, or with both bounds *)
Definition loop_calls (l : loop_type) (ls lf len : Z) (pre : list sop) : Prop :=
  (pre = [SLoopType l] /\ ls = 0 /\ lf = len) \/ (pre = [SLoopType l; SLoopFinish lf] /\ ls = 0) \/
  pre = [SLoopType l; SLoopStart ls; SLoopFinish lf].

(* The loop as seen by the head: backward motion turns at frame 0 or at ls, depending on
   the start mode, and starts nch frames before lf *)
Definition loop_spec (l : loop_type) (ps : play_start) (ls lf : Z) (nch : nat) : lspec :=
  mkLoop (loop_eqb l LPingpong) ls (match ps with PSample => 0 | _ => ls end) lf (lf - Z.of_nat nch).

(* "Whatever loop is set now, all reads without any reload return the frames of the loop
   at num/2^q frames per frame, starting at frame p0, for ever; and no sample is missed" *)
Definition loops_alone (fl : file) (h len : Z) (nch : nat) (ps : play_start) (p0 num q : Z) (r : reader) : Prop :=
  forall l ls lf pre, l <> LNone -> 0 <= ls < lf -> lf <= len -> loop_calls l ls lf len pre ->
  forall ns, exists fuel r', session fuel r (pre ++ map (fun n => SRead (Z.of_nat n)) ns) =
    Ok (map (fun _ => []) pre ++
        blocks_spec (fun k => Some (file_frame fl h nch (hd_i (orbit (loop_spec l ps ls lf nch) num (2 ^ q) (mkHead p0 0 false) k)))) 0 ns, r') /\
    misses r' = 0.
