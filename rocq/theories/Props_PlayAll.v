(* C122-C124: the example that plays all files. *)

From Coq Require Import ZArith List Bool.
From Verif Require Import Machine Floats WavModel WavSpec ReaderModel ResponderModel PlayerModel LifeSpec SketchModel SketchSpec ManySpec PianoModel PlayAllModel PlayAllSpec PlayAllProofs PlayAllCases.
Import ListNotations.
Local Open Scope Z_scope.

(* ---- C122 ---- *)

Theorem C122_listed : forall e, listed e = true <-> wanted (en_name e).
Proof. exact listed_spec. Qed.

Example C122_case : wanted (en_name entry_d) /\ listed entry_b = false /\ listed entry_c = false.
Proof. exact (conj (proj1 (listed_spec entry_d) eq_refl) (conj eq_refl eq_refl)). Qed.

(* ---- C123 ---- *)

(* With 1 to 65535 such files and the knob in its upper half: always defined, and the files tried are those of the directory, one after the other and round again *)
Theorem C123_in_turn : forall dir ws flags analog l, dir_ok dir -> picks dir ws -> (1 <= length ws)%nat -> Z.of_nat (length ws) < 2 ^ 16 -> 0 <= flags < 256 -> upper analog ->
  Forall (apass_ok upper) l -> exists F s m, forall fuel, (F <= fuel)%nat -> play_all dir fuel flags analog l = Ok (map (in_turn ws) (seq 0 m), s).
Proof. exact all_in_turn. Qed.

Example C123_case : dir_ok dir_ex /\ picks dir_ex [entry_a; entry_d] /\ Forall (apass_ok upper) passes_ex /\
  match play_all dir_ex 300 2 800 passes_ex with Ok (tried, s) => Some (length tried, pa_index s) | _ => None end = Some (4%nat, 0).
Proof. exact (conj (proj1 dir_ex_ok) (conj (proj2 dir_ex_ok) (conj passes_ex_ok all_ex_run))). Qed.

(* ---- C124 ---- *)

(* A card without WAV files: the sketch reads an element of an empty array *)
Theorem C124_refuted : exists dir flags analog t, dir_ok dir /\ picks dir [] /\ upper analog /\ apass_ok upper t /\
  exists F, forall fuel, (F <= fuel)%nat -> play_all dir fuel flags analog [t] = UB UbOutOfBounds.
Proof. exact none_refuted. Qed.

(* So does every run on such a card, once a second has passed *)
Theorem C124_none : forall dir flags analog t l, picks dir [] -> 0 <= flags < 256 -> upper analog -> upper (ap_pot t) -> 1000 < ap_now t ->
  exists F, forall fuel, (F <= fuel)%nat -> play_all dir fuel flags analog (t :: l) = UB UbOutOfBounds.
Proof. exact all_none. Qed.

(* 65536 files or more: setup() writes behind the array *)
Theorem C124_too_many : forall dir ws flags analog l, picks dir ws -> 2 ^ 16 <= Z.of_nat (length ws) -> 0 <= flags < 256 -> upper analog ->
  exists F, forall fuel, (F <= fuel)%nat -> play_all dir fuel flags analog l = UB UbOutOfBounds.
Proof. exact all_too_many. Qed.

Example C124_case : picks many_dir many_dir /\ Z.of_nat (length many_dir) = 2 ^ 16.
Proof. exact many_picks. Qed.

Print Assumptions C122_listed.
Print Assumptions C123_in_turn.
Print Assumptions C124_refuted.
Print Assumptions C124_none.
Print Assumptions C124_too_many.
