(* Concrete cases and counterexamples for ping-pong loops played from files. *)

From Coq Require Import ZArith Reals List Bool Lia Lra.
From Flocq Require Import Core.Core IEEE754.BinarySingleNaN.
From RecordUpdate Require Import RecordUpdate.
From Verif Require Import Machine Floats FloatFacts WavModel CacheModel ReaderModel ReaderSpec FileSpec CacheSpec LoopSpec
  CacheFacts CacheFinal LoopFileSpec LoopCases PongSpec.
Import ListNotations.
Local Open Scope Z_scope.

(* n updates of 128 frames with m missed samples, and silence for frame k *)
Definition gap_check (n : nat) (m : Z) (k : nat) (r' : reader) : bool :=
  match serviced 200 r' (repeat 128%nat n) with
  | Ok (bs, r2) => (misses r' =? 0) && (misses r2 =? m) && match nth k (concat bs) [] with [v] => v =? 0 | _ => false end
  | _ => false
  end.
Lemma gap_check_inv : forall n m k r', gap_check n m k r' = true ->
  exists fuel bs r2, serviced fuel r' (repeat 128%nat n) = Ok (bs, r2) /\ misses r' = 0 /\ misses r2 = m /\ nth k (concat bs) [] = [0].
Proof.
  intros n m k r' X. unfold gap_check in X. destruct (serviced 200 r' (repeat 128%nat n)) as [[bs r2]| |] eqn:E2; try discriminate.
  exists 200%nat, bs, r2. apply andb_prop in X. destruct X as [X X3]. apply andb_prop in X. destruct X as [X1 X2].
  apply Z.eqb_eq in X1, X2. split; [exact E2|]. split; [exact X1|]. split; [exact X2|].
  destruct (nth k (concat bs) []) as [|v [|? ?]]; try discriminate. apply Z.eqb_eq in X3. now subst.
Qed.

(* A start close to the end of the loop: the buffers hold blocks beyond the loop, and on
   the way back the block before the start is missing *)
Lemma late_pong : exists r', sd_loop_open LPingpong 4096 12000 PArbitrary 11900 = Ok (true, r') /\
  (exists fuel bs r2, serviced fuel r' (repeat 128%nat 16) = Ok (bs, r2) /\ misses r' = 0 /\ misses r2 = 188 /\
    nth 1860 (concat bs) [] = [0]) /\
  file_frame (ramp_file 60000) 0 1 (triangle_frame 4096 12000 11999 11900 1860) = [20352].
Proof.
  destruct (opened_with (sd_loop_open LPingpong 4096 12000 PArbitrary 11900) (gap_check 16 188 1860)) as (r' & E & H); [vm_compute; reflexivity|].
  exists r'. split; [exact E|]. split; [exact (gap_check_inv _ _ _ r' H)|]. vm_compute. reflexivity.
Qed.

(* The start mode "sample": the way back goes on below the start of the loop, the
   buffers do not follow *)
Lemma below_pong : exists r', sd_loop_open LPingpong 4096 14400 PSample 0 = Ok (true, r') /\
  (exists fuel bs r2, serviced fuel r' (repeat 128%nat 212) = Ok (bs, r2) /\ misses r' = 0 /\ misses r2 = 384 /\
    nth 26752 (concat bs) [] = [0]) /\
  file_frame (ramp_file 60000) 0 1 (triangle_frame 0 14400 14399 0 26752) = [3968].
Proof.
  destruct (opened_with (sd_loop_open LPingpong 4096 14400 PSample 0) (gap_check 212 384 26752)) as (r' & E & H); [vm_compute; reflexivity|].
  exists r'. split; [exact E|]. split; [exact (gap_check_inv _ _ _ r' H)|]. vm_compute. reflexivity.
Qed.

(* ---- cases ---------------------------------------------------------------------- *)

(* Ten blocks, to and fro at rate 1.0: seven are buffered *)
Lemma pong_case : let r := sd_loop LPingpong 4096 22000 PLoop 0 in
  cfg_ok (r_cfg r) /\ r_kind r <> KArray /\ basic_settings r LPingpong PLoop 0 /\ r_ls r = 4096 /\ r_lf r = 22000 /\ r_hdr r = 0 /\
  0 < fsize (ramp_file 60000) < 2 ^ 31 /\ 22000 <= fsize (ramp_file 60000) / 2 / Z.of_nat 1 /\
  fin64 (r_rate r) = true /\ R64 (r_rate r) = (IZR 1 * bpow radix2 (- 0))%R /\
  ((R64 (r_rate r) + 1) * INR 1 <= IZR (2 ^ 30))%R /\
  buffers_fill (r_cfg r) (ramp_file 60000) (0 + 4096 * 1) /\ starts_inside (r_cfg r) (0 + 4096 * 1) (0 + 4096 * 1) (0 + 22000 * 1) /\
  turns_in_last_block (r_cfg r) 0 22000 1 /\ 1 <= 1 * 2 ^ 0 /\ pingpong_keeps_up (r_cfg r) 1 128 1.
Proof.
  cbv zeta. split; [split; cbn; lia|]. split; [discriminate|]. split; [repeat split|]. split; [reflexivity|].
  split; [reflexivity|]. split; [reflexivity|]. split; [cbn; lia|]. split; [vm_compute; congruence|].
  split; [reflexivity|]. change (r_rate (sd_loop LPingpong 4096 22000 PLoop 0)) with d1. rewrite R64_d1.
  split; [cbn; lra|]. split; [cbn [INR]; change (2 ^ 30) with 1073741824; lra|].
  split; [vm_compute; reflexivity|]. split; [split; vm_compute; congruence|]. split; [vm_compute; reflexivity|]. split; [cbn; lia|]. vm_compute; congruence.
Qed.
(* A loop of four blocks that is buffered as a whole *)
Lemma pong_case_short : let r := sd_loop LPingpong 4096 12000 PSample 0 in
  buffers_fill (r_cfg r) (ramp_file 60000) (0 + 0 * 1) /\ loop_buffered (r_cfg r) (0 + 0 * 1) (0 + 4096 * 1) (0 + 12000 * 1).
Proof. cbv zeta. split; [vm_compute; reflexivity|]. split; vm_compute; congruence. Qed.
(* What the counterexamples share with the theorems *)
Lemma late_pong_case : buffers_fill cfg_sd (ramp_file 60000) 11900 /\ turns_in_last_block cfg_sd 0 12000 1 /\
  pingpong_keeps_up cfg_sd 1 128 1 /\ ~ starts_inside cfg_sd 11900 4096 12000.
Proof. split; [vm_compute; reflexivity|]. split; [vm_compute; reflexivity|]. split; [vm_compute; congruence|]. intros [_ H]. vm_compute in H. congruence. Qed.
Lemma below_pong_case : buffers_fill cfg_sd (ramp_file 60000) 0 /\ turns_in_last_block cfg_sd 0 14400 1 /\
  pingpong_keeps_up cfg_sd 1 128 1 /\ starts_inside cfg_sd 0 0 14400 /\ blk cfg_sd 0 <> blk cfg_sd 4096.
Proof.
  split; [vm_compute; reflexivity|]. split; [vm_compute; reflexivity|]. split; [vm_compute; congruence|].
  split; [split; vm_compute; congruence|]. vm_compute. congruence.
Qed.
