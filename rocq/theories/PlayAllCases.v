(* Runs of sd_play_all (C122-C124). *)

From Coq Require Import ZArith Lia List Bool.
From Verif Require Import Machine Floats WavModel WavSpec WavFinal CacheModel CacheFacts ReaderModel ResponderModel PlayerModel LifeSpec PlayerCases SketchModel SketchSpec
  ManySpec ManyCases PianoModel PlayAllModel PlayAllSpec PlayAllProofs.
Import ListNotations.
Local Open Scope Z_scope.

(* a.wav, _b.wav, c.txt, D.WAV *)
Definition entry_a : entry := mkEntry [97; 46; 119; 97; 118] (mkfile wav_ex).
Definition entry_b : entry := mkEntry [95; 98; 46; 119; 97; 118] (mkfile wav_ex).
Definition entry_c : entry := mkEntry [99; 46; 116; 120; 116] (mkfile [1; 2; 3]).
Definition entry_d : entry := mkEntry [68; 46; 87; 65; 86] (mkfile wav_ex).
Definition dir_ex : list entry := [entry_a; entry_b; entry_c; entry_d].
Lemma dir_ex_ok : dir_ok dir_ex /\ picks dir_ex [entry_a; entry_d].
Proof.
  assert (P : picks dir_ex [entry_a; entry_d]) by (apply picks_filter; reflexivity). split; [|exact P]. split.
  - cbn. repeat constructor; cbn; intuition discriminate.
  - assert (L : listed entry_c = false) by reflexivity.
    constructor; [intros _; exact wav_ex_any|]. constructor; [intros _; exact wav_ex_any|]. constructor; [|constructor; [intros _; exact wav_ex_any|constructor]].
    intros W. apply listed_spec in W. congruence.
Qed.

(* A pass: one update before, two in delay() with a yield between *)
Definition apass_at (pot now : Z) : apass :=
  mkApass pot now (fun k => if Nat.eqb k 0 then [Some (0%nat, give)] else if Nat.eqb k 2 then [Some (0%nat, give); None; Some (0%nat, give)] else []) (fun _ => 0) (fun _ _ => 0).
Definition passes_ex : list apass := map (fun k => apass_at 1023 (500 + 600 * Z.of_nat k)) (seq 0 8).
Lemma passes_ex_ok : Forall (apass_ok upper) passes_ex.
Proof. unfold passes_ex. apply Forall_forall. intros t I. apply in_map_iff in I. destruct I as (k & <- & _). split; [unfold upper; cbn; lia|intros i; split; cbn; lia]. Qed.
Lemma all_ex_run : match play_all dir_ex 300 2 800 passes_ex with Ok (tried, s) => Some (length tried, pa_index s) | _ => None end = Some (4%nat, 0).
Proof. vm_compute. reflexivity. Qed.

Lemma none_refuted : exists dir flags analog t, dir_ok dir /\ picks dir [] /\ upper analog /\ apass_ok upper t /\
  exists F, forall fuel, (F <= fuel)%nat -> play_all dir fuel flags analog [t] = UB UbOutOfBounds.
Proof.
  exists [entry_c], 2, 800, (apass_at 700 1001). assert (P : picks [entry_c] []) by (apply picks_filter; reflexivity).
  split; [split; [repeat constructor; cbn; auto|]|].
  { constructor; [|constructor]. intros W. apply listed_spec in W. discriminate. }
  split; [exact P|]. split; [unfold upper; lia|]. split; [split; [unfold upper; cbn; lia|intros i; split; cbn; lia]|].
  apply all_none; [exact P|lia|unfold upper; lia|unfold upper; cbn; lia|cbn; lia].
Qed.

(* 65536 files *)
Definition many_dir : list entry := repeat entry_a (Z.to_nat (2 ^ 16)).
Lemma many_picks : picks many_dir many_dir /\ Z.of_nat (length many_dir) = 2 ^ 16.
Proof.
  split.
  - unfold many_dir. generalize (Z.to_nat (2 ^ 16)). intros m. induction m as [|m IH]; [constructor|]. cbn [repeat]. apply pk_take; [|exact IH]. apply listed_spec. reflexivity.
  - unfold many_dir. rewrite repeat_length, Z2Nat.id by lia. reflexivity.
Qed.
