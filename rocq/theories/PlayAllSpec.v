(* What sd_play_all should play (C122-C124). *)

From Coq Require Import ZArith List Bool.
From Verif Require Import Machine Floats WavModel ReaderModel ManySpec SketchSpec PlayAllModel.
Import ListNotations.
Local Open Scope Z_scope.

(* ".WAV" or ".wav" somewhere behind the first character, and no underscore in front *)
Definition wanted (name : list Z) : Prop :=
  (exists a b, a <> [] /\ (name = a ++ [46; 87; 65; 86] ++ b \/ name = a ++ [46; 119; 97; 118] ++ b)) /\ ~ (exists b, name = 95 :: b).

(* The files to be played, in the order of the directory *)
Inductive picks : list entry -> list entry -> Prop :=
| pk_nil : picks [] []
| pk_take : forall e d ws, wanted (en_name e) -> picks d ws -> picks (e :: d) (e :: ws)
| pk_skip : forall e d ws, ~ wanted (en_name e) -> picks d ws -> picks (e :: d) ws.

(* The k-th file tried, the list repeated for ever *)
Definition in_turn (ws : list entry) (k : nat) : option file := option_map en_file (nth_error ws (k mod length ws)).

Definition dir_ok (d : list entry) : Prop := NoDup (map en_name d) /\ Forall (fun e => wanted (en_name e) -> wav_any (en_file e)) d.
Definition apass_ok (knob : Z -> Prop) (t : apass) : Prop := knob (ap_pot t) /\ bytes_ok (ap_stack t).
