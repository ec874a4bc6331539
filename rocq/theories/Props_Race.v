(* C29, C78: fetches by the audio interrupt inside a reload. *)

From Coq Require Import ZArith List.
From Verif Require Import Machine Floats WavModel CacheModel CacheFacts CacheSpec CacheFinal RaceModel RaceProofs.
Import ListNotations.
Local Open Scope Z_scope.

(* C29 as stated is false: while a buffer is overwritten it still carries the index
   of the block it held, and a fetch in that block gets the new block's sample *)
Theorem C29_refuted : exists f pc g i, creach cfg_flash (ramp_file 4096) f /\ during (f_of_d d1) f (pc, g) /\ in_file (ramp_file 4096) i /\
  fst (if_get g i) <> file_sample (ramp_file 4096) i /\ fst (if_get g i) <> 0.
Proof. exact race_refuted. Qed.
(* C29 for every other block, C78 *)
Theorem C29_during_partial : forall c fl, cfg_ok c -> fsize fl <= 2 ^ 31 -> forall f x pc f' i, ireach c fl f -> during x f (pc, f') -> in_file fl i ->
  replacing (pc, f') <> Some (u32 (blk c i)) ->
  fst (if_get f' i) = file_sample fl i \/ (fst (if_get f' i) = 0 /\ i_fails (snd (if_get f' i)) = i_fails f' + 1).
Proof. exact during_right. Qed.
Theorem C78_during : forall c fl, cfg_ok c -> fsize fl <= 2 ^ 31 -> forall f x pc f' i, ireach c fl f -> during x f (pc, f') -> in_file fl i ->
  replacing (pc, f') <> Some (u32 (blk c i)) ->
  fst (if_get f' i) = file_sample fl i \/ (fst (if_get f' i) = 0 /\ i_fails (snd (if_get f' i)) = i_fails f' + 1).
Proof. exact during_right. Qed.
Theorem C78_between : forall c fl f i, cfg_ok c -> fsize fl <= 2 ^ 31 -> ireach c fl f -> in_file fl i ->
  fst (if_get f i) = file_sample fl i \/ (fst (if_get f i) = 0 /\ i_fails (snd (if_get f i)) = i_fails f + 1).
Proof. exact between_right. Qed.
(* the machine, uninterrupted, is the sequential reload *)
Theorem C78_sequential : forall fuel x f f', triggerReload fuel f x = Ok f' -> during x f (AtEnd, f').
Proof. exact reload_runs. Qed.
Theorem C78_histories : forall c fl f, creach c fl f -> ireach c fl f.
Proof. exact creach_ireach. Qed.
Example C78_case : exists f pc g, creach cfg_flash (ramp_file 4096) f /\ during (f_of_d d1) f (pc, g) /\ replacing (pc, g) = Some 0 /\
  fst (if_get f 5) = file_sample (ramp_file 4096) 5 /\
  fst (if_get g 5) = file_sample (ramp_file 4096) 261 /\ file_sample (ramp_file 4096) 261 <> file_sample (ramp_file 4096) 5 /\
  file_sample (ramp_file 4096) 261 <> 0 /\
  fst (if_get g 140) = file_sample (ramp_file 4096) 140 /\ fst (if_get g 261) = 0.
Proof. exact race_case. Qed.

Print Assumptions C29_refuted.
Print Assumptions C29_during_partial.
Print Assumptions C78_during.
Print Assumptions C78_between.
Print Assumptions C78_sequential.
Print Assumptions C78_histories.
