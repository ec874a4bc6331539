(* Specification vocabulary for the buffered file: what its samples are, and the
   histories of operations on it. *)

From Coq Require Import ZArith Lia List Bool.
From RecordUpdate Require Import RecordUpdate.
From Flocq Require Import IEEE754.BinarySingleNaN.
From Verif Require Import Machine Floats WavModel CacheModel CacheFacts.
Import ListNotations.
Local Open Scope Z_scope.

(* Sample number i of a file of 16-bit little-endian samples *)
Definition file_sample (fl : file) (i : Z) : Z := le16 (fbyte fl) (2 * i).
Definition in_file (fl : file) (i : Z) : Prop := 0 <= i /\ 2 * i + 2 <= fsize fl.

(* The operations on an open buffered file *)
Inductive cop :=
| CoPreload (i : Z) (forwards : bool)
| CoReload (rate : b32)
| CoGet (i : Z)
| CoLoopType (l : loop_type)
| CoLoopStart (v : Z)
| CoLoopFinish (v : Z).

Definition cop_run (fuel : nat) (o : cop) (f : ifile) : res ifile :=
  match o with
  | CoPreload i fw => '(_, f') <- preLoadBuffers f i fw ;; Ok f'
  | CoReload x => triggerReload fuel f x
  | CoGet i => Ok (snd (if_get f i))
  | CoLoopType l => Ok (if_setLoopType f l)
  | CoLoopStart v => Ok (if_setLoopStart f v)
  | CoLoopFinish v => Ok (if_setLoopFinish f v)
  end.

(* The states of the buffered file [fl] after any history, from any file position
   and whatever the new buffers contain *)
Inductive creach (c : ccfg) (fl : file) : ifile -> Prop :=
| cr_new : forall pos garbage, creach c fl (if_new c fl pos garbage)
| cr_op : forall fuel o f f', creach c fl f ->
    (match o with CoPreload i _ => in_s32 i | _ => True end) ->
    cop_run fuel o f = Ok f' -> creach c fl f'.

(* What a buffer stores, without its usage mark *)
Definition stored (b : ibuf) : Z * Z * bytes := (b_index b, b_size b, b_data b).

(* Two states with the same file, file position and stored data *)
Definition same_store (f f' : ifile) : Prop :=
  i_file f' = i_file f /\ i_pos f' = i_pos f /\ i_cfg f' = i_cfg f /\ i_prev f' = i_prev f /\
  i_loop f' = i_loop f /\ i_lsb f' = i_lsb f /\ i_lfb f' = i_lfb f /\
  map stored (i_bufs f') = map stored (i_bufs f).

(* The lowest block index among the buffers *)
Definition lowest (l : list ibuf) : Z :=
  match l with [] => 0 | b :: _ => min_index (b_index b) l end.

(* The condition under which reload never returns: reverse (or NaN) rate without
   looping, nothing but unused buffers, and no block before the first buffered one *)
Definition reload_stuck (f : ifile) (x : b32) : Prop :=
  i_loop f = LNone /\ fle f0 x = false /\ i_bufs f <> [] /\
  Forall (fun b => b_status b = StUnused) (i_bufs f) /\ s32 (lowest (i_bufs f) - 1) < 0.
