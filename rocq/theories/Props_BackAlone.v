(* C142 and C143: small files played backwards without any reload; the backward test. *)

From Coq Require Import ZArith Lia List Bool Reals.
From RecordUpdate Require Import RecordUpdate.
From Flocq Require Import Core.Core.
From Verif Require Import Machine Floats FloatFacts WavModel CacheModel ReaderModel ReaderSpec CacheFacts CacheSpec WavSpec FileSpec FilePlay FileForward MirrorSpec BackSpec HeldSpec
  HeldBackSpec HeldBack UnitModel UnitCases BackAloneSpec BackAlone UnitBackModel UnitBack.
Import ListNotations.
Local Open Scope Z_scope.

(* ---- C142 ---- *)

Theorem C142_raw : forall r fl nch stack garbage ps pb p0, cfg_ok (r_cfg r) -> r_kind r <> KArray ->
  basic_settings r LNone ps pb -> r_hdr r = 0 -> (1 <= nch)%nat -> Z.of_nat nch < 2 ^ 15 -> 0 < fsize fl < 2 ^ 31 ->
  let len := fsize fl / 2 / Z.of_nat nch in
  begins (fsize fl) 0 len nch ps pb p0 -> 0 <= p0 < len -> last_held (r_cfg r) fl (p0 * Z.of_nat nch) ->
  grid_rate (r_rate r) -> (R64 (r_rate r) < 0)%R -> ((- R64 (r_rate r) + 1) * INR nch <= IZR (2 ^ 30))%R ->
  exists r', r_play_file r (Some fl) false (Z.of_nat nch) stack garbage = Ok (true, r') /\ plays_alone r' (file_back fl 0 nch p0 (- R64 (r_rate r))).
Proof. exact raw_back_alone. Qed.

Theorem C142_wav : forall r fl nch tags n nraw stack garbage ps pb p0, cfg_ok (r_cfg r) -> r_kind r <> KArray ->
  basic_settings r LNone ps pb -> bytes_ok stack -> wav_file fl nch tags n -> Z.of_nat nch < 2 ^ 15 ->
  let len := n / 2 / Z.of_nat nch in
  begins (fsize fl) ((44 + tags) / 2) len nch ps pb p0 -> 0 <= p0 < len -> last_held (r_cfg r) fl ((44 + tags) / 2 + p0 * Z.of_nat nch) ->
  grid_rate (r_rate r) -> (R64 (r_rate r) < 0)%R -> ((- R64 (r_rate r) + 1) * INR nch <= IZR (2 ^ 30))%R ->
  exists r', r_play_file r (Some fl) true nraw stack garbage = Ok (true, r') /\ plays_alone r' (file_back fl ((44 + tags) / 2) nch p0 (- R64 (r_rate r))).
Proof. exact wav_back_alone. Qed.

(* ---- C143 ---- *)

(* The backward test: with one block, or with the last block half full *)
Theorem C143_backward_partial : forall n stack garbage, bytes_ok stack -> 1 <= n <= 14314 -> n <= 2026 \/ 1024 <= (n + 21) mod 2048 + 1 ->
  exists fuel blocks, backward_test fuel blocks n stack garbage = Ok true.
Proof. exact backward_passes. Qed.

(* Not for all lengths *)
Theorem C143_refuted : exists fuel blocks, backward_test fuel blocks 2048 (fun _ => 0) (fun _ _ => 0) = Ok false.
Proof. exact backward_fails. Qed.

(* ---- cases ---- *)

(* Seven samples in two blocks of four *)
Example C142_case : exists r', r_play_file back_tiny (Some seven_file) false 1 (fun _ => 0) (fun _ _ => 0) = Ok (true, r') /\
  plays_alone r' (file_back seven_file 0 1 6 1).
Proof. exact seven_alone. Qed.
Example C142_run : shown_run (r_play_file back_tiny (Some seven_file) false 1 (fun _ => 0) (fun _ _ => 0)) (fun r => read_seq 100 r [4%nat; 4%nat])
  = Ok ([[[6]; [5]; [4]; [3]]; [[2]; [1]; [0]]], 0).
Proof. exact seven_reads. Qed.
(* The test as it is *)
Example C143_case : backward_test 300 3 258 (fun _ => 0) (fun _ _ => 0) = Ok true.
Proof. exact backward_258. Qed.

Print Assumptions C142_raw.
Print Assumptions C142_wav.
Print Assumptions C143_backward_partial.
Print Assumptions C143_refuted.
