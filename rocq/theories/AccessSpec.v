(* What is claimed about the example FileAccess.ino (C127-C130). *)

From Coq Require Import ZArith List Bool.
From Verif Require Import Machine Floats WavModel CacheModel CacheSpec ReaderModel ResponderModel PlayerModel LifeSpec SketchModel PianoModel AccessModel.
Import ListNotations.
Local Open Scope Z_scope.

(* A reader whose file was not touched: file, position, loop and buffered data are the same *)
Definition untouched (r r' : reader) : Prop :=
  match r_src r with
  | SFile f => exists f', r_src r' = SFile f' /\ same_store f f'
  | _ => r_src r' = r_src r
  end.

(* l is the content of the file *)
Definition is_content (fl : file) (l : list Z) : Prop :=
  Z.of_nat (length l) = fsize fl /\ forall i, 0 <= i < fsize fl -> nth (Z.to_nat i) l 0 = fbyte fl i.

(* A copy reported as complete is one *)
Definition true_copy (src : option file) (a : fact) : Prop :=
  match a with
  | FStart _ _ => True
  | FCopied dst count => exists fl, src = Some fl /\ is_content fl dst /\ count = fsize fl
  end.

(* The rates of the starts, as numbers of the array rates[] *)
Definition start_rates (l : list fact) : list Z := flat_map (fun a => match a with FStart k _ => [k] | _ => [] end) l.

Definition rnd_ok (t : fpass) : Prop := 0 <= fp_rnd t < 1100.
