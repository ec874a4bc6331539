(* Model of a file reader whose reloads are interrupted by audio updates:
   the user's sketch calls ResamplingReader.h:190 triggerReload() between two
   updates, and any number of updates (ResamplingReader.h:217 read) may interrupt
   it between any two of its writes (the points of RaceModel.v).

   - An update is never interrupted by the sketch, so it is one step here.
   - The sketch does nothing else than reload: no setter, no play, no stop.
   - The reload passes the rate at the time it was called (190). *)

From Coq Require Import ZArith Lia List Bool.
From RecordUpdate Require Import RecordUpdate.
From Flocq Require Import IEEE754.BinarySingleNaN.
From Verif Require Import Machine Floats WavModel CacheModel ReaderModel RaceModel.
Import ListNotations.
Local Open Scope Z_scope.

(* No reload, or one in progress: the rate its decisions use, the rate passed,
   and how far it has got *)
Definition phase : Type := option (b32 * b32 * rpoint).

(* One step, with the update it is, if any: the frames asked for and delivered *)
Inductive cstep : reader * phase -> option (nat * list (list Z)) -> reader * phase -> Prop :=
(* the sketch calls triggerReload, ResamplingReader.h:190, IndexableFile.h:96-109 *)
| cs_begin : forall r f, r_src r = SFile f ->
    cstep (r, None) None (r, Some (reload_rate f (f_of_d (r_rate r)), f_of_d (r_rate r), AtTop))
(* it goes on *)
| cs_reload : forall r f x pbr pc pc' f', r_src r = SFile f -> rstep x pbr (pc, f) (pc', f') ->
    cstep (r, Some (x, pbr, pc)) None (r <| r_src := SFile f' |>, Some (x, pbr, pc'))
(* it returns *)
| cs_end : forall r x pbr, cstep (r, Some (x, pbr, AtEnd)) None (r, None)
(* an audio update *)
| cs_update : forall fuel n r p fs r', r_read fuel r (Z.of_nat n) = Ok (fs, r') ->
    cstep (r, p) (Some (n, fs)) (r', p).

(* Executions, with the sizes of the updates and what they delivered *)
Inductive crun : reader * phase -> list nat -> list (list (list Z)) -> reader * phase -> Prop :=
| cr_here : forall s, crun s [] [] s
| cr_sketch : forall s t u ns outs, cstep s None t -> crun t ns outs u -> crun s ns outs u
| cr_update : forall s t u n fs ns outs, cstep s (Some (n, fs)) t -> crun t ns outs u ->
    crun s (n :: ns) (fs :: outs) u.
