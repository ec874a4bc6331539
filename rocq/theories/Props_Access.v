(* C127-C130: the example FileAccess.ino. *)

From Coq Require Import ZArith List Bool.
From Verif Require Import Machine Floats WavModel CacheModel ReaderModel ResponderModel PlayerModel LifeSpec SketchModel PianoModel AccessModel AccessSpec AccessProofs AccessCases.
Import ListNotations.
Local Open Scope Z_scope.

(* ---- C127 ---- *)

(* Played in reverse, a file whose last block is less than half full has one buffer, and
   looping with less than all buffers accesses one that does not exist *)
Theorem C127_refuted : exists fl l, file_access (Some fl) 300 2 l = UB UbVector.
Proof. exact (ex_intro _ (wav_mono 2031) (ex_intro _ ub_passes access_ub)). Qed.

(* The first start of that run *)
Example C127_case : shape (file_access (Some (wav_mono 2031)) 300 2 (firstn 2 ub_passes)) = Some ([1], [], [true]).
Proof. exact access_before. Qed.

(* ---- C128 ---- *)

Theorem C128_untouched : forall src fuel flags l log s t a s1 b s2, 0 <= flags < 256 -> file_access src fuel flags l = Ok (log, s) ->
  access_front src fuel t s = Ok (a, s1) -> copy_update src fuel t s1 = Ok (b, s2) -> forall i, untouched (w_rd (fa_world s1) i) (w_rd (fa_world s2) i).
Proof. exact no_reload_copying. Qed.

Example C128_case : copy_check = true.
Proof. exact copy_check_ok. Qed.

(* ---- C129 ---- *)

Theorem C129_faithful : forall src fuel flags l log s, 0 <= flags < 256 -> (match src with Some fl => 0 <= fsize fl < 2 ^ 31 | None => True end) -> Forall rnd_ok l ->
  file_access src fuel flags l = Ok (log, s) -> Forall (true_copy src) log.
Proof. exact copies_faithful. Qed.

Theorem C129_finishes : forall fl fuel flags l log s, 0 <= flags < 256 -> 0 <= fsize fl < 2 ^ 31 -> Forall rnd_ok l -> Forall (fun t => fp_opens t = true) l ->
  fsize fl / 100 + 3 <= Z.of_nat (length l) -> file_access (Some fl) fuel flags l = Ok (log, s) -> exists dst n, In (FCopied dst n) log.
Proof. exact copies_finish. Qed.

(* Rates of the starts, sizes of the copies and the counts printed, success of playWav() *)
Example C129_case : (Forall rnd_ok good_passes /\ Forall (fun t => fp_opens t = true) good_passes /\ fsize (wav_mono 300) / 100 + 3 <= Z.of_nat (length good_passes)) /\
  shape (file_access (Some (wav_mono 300)) 300 2 good_passes) =
  Some ([1; 2; 3; 0; 1], [(644, 644); (644, 644); (644, 644)], [true; true; true; true; true]).
Proof. exact (conj good_passes_ok good_run). Qed.

(* ---- C130 ---- *)

Theorem C130_in_turn : forall src fuel flags l log s i k, 0 <= flags < 256 -> file_access src fuel flags l = Ok (log, s) ->
  nth_error (start_rates log) i = Some k -> k = (Z.of_nat i + 1) mod 4.
Proof. exact rates_in_turn. Qed.

Theorem C130_stops : forall src fuel flags l log s t a s', 0 <= flags < 256 -> file_access src fuel flags l = Ok (log, s) -> access_pass src fuel t s = Ok (a, s') ->
  u32 (fa_last s' + 1900) < fp_now t -> r_playing (w_rd (fa_world s') 0) = false.
Proof. exact stops_late. Qed.

Example C130_case : shape (file_access (Some (wav_mono 300)) 300 2 good_passes) =
  Some ([1; 2; 3; 0; 1], [(644, 644); (644, 644); (644, 644)], [true; true; true; true; true]).
Proof. exact good_run. Qed.

Print Assumptions C127_refuted.
Print Assumptions C128_untouched.
Print Assumptions C129_faithful.
Print Assumptions C129_finishes.
Print Assumptions C130_in_turn.
Print Assumptions C130_stops.
