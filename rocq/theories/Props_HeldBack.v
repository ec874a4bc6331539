(* C140 and C141: files opened for reverse playback, without any reload. *)

From Coq Require Import ZArith List Bool.
From RecordUpdate Require Import RecordUpdate.
From Verif Require Import Machine Floats WavModel CacheModel ReaderModel ReaderSpec CacheFacts CacheSpec FileSpec MirrorSpec HeldSpec UnitCases
  HeldBackSpec HeldBack.
Import ListNotations.
Local Open Scope Z_scope.

(* Opening a file for reverse playback buffers the samples held_low up to held_high.  Until
   a reload is serviced, whatever the program calls, the player does what the array player
   does on a memory that holds just these samples. *)
Theorem C140_held : forall r0 fl w n st g r fuel os bs a, cfg_ok (r_cfg r0) -> fsize fl < 2 ^ 31 ->
  r_play_file r0 (Some fl) w n st g = Ok (true, r) -> dle d0 (r_rate r) = false -> 0 <= r_pos1 r < 2 ^ 30 -> Forall unserviced os ->
  let lo := held_low (r_cfg r0) fl (r_pos1 r) in
  let part := on_array (part_mem fl lo (held_high (r_cfg r0) fl (r_pos1 r))) (- (2 * lo)) in
  session fuel (part r) os = Ok (bs, a) ->
  exists r', session fuel r os = Ok (bs, r') /\ a = part r' /\ misses r' = 0.
Proof. exact held_part_back. Qed.

(* A file that fits into the buffers, opened in its last block: as on the whole file, if
   that block is at least half full *)
Theorem C141_small_partial : forall r0 fl w n st g r fuel os bs a, cfg_ok (r_cfg r0) -> fsize fl < 2 ^ 31 -> small_file (r_cfg r0) fl ->
  r_play_file r0 (Some fl) w n st g = Ok (true, r) -> dle d0 (r_rate r) = false -> 0 <= r_pos1 r < 2 ^ 30 ->
  half_full (r_cfg r0) fl (r_pos1 r) -> fsize fl / 2 <= (r_pos1 r / BS (r_cfg r0) + 1) * BS (r_cfg r0) -> Forall unserviced os ->
  session fuel (on_array (file_mem fl) 0 r) os = Ok (bs, a) ->
  exists r', session fuel r os = Ok (bs, r') /\ a = on_array (file_mem fl) 0 r' /\ misses r' = 0.
Proof. exact held_small_back. Qed.

(* Not otherwise: five samples fit into two buffers of four, but without a reload only the
   last of them is heard *)
Theorem C141_refuted : exists r0 fl r fuel bs a bs' q, cfg_ok (r_cfg r0) /\ small_file (r_cfg r0) fl /\
  r_play_file r0 (Some fl) false 1 (fun _ => 0) (fun _ _ => 0) = Ok (true, r) /\ dle d0 (r_rate r) = false /\ 2 * r_pos1 r + 2 = fsize fl /\
  read_seq fuel (on_array (file_mem fl) 0 r) [5%nat] = Ok (bs, a) /\ read_seq fuel r [5%nat] = Ok (bs', q) /\ bs' <> bs.
Proof. exact short_block. Qed.

(* Seven samples, the last block three quarters full *)
Example C141_case : held_low (r_cfg back_tiny) seven_file 6 = 0 /\ held_high (r_cfg back_tiny) seven_file 6 = 7 /\ half_full (r_cfg back_tiny) seven_file 6 /\
  shown_run (r_play_file back_tiny (Some seven_file) false 1 (fun _ => 0) (fun _ _ => 0)) (fun r => read_seq 100 r [4%nat; 4%nat])
  = Ok ([[[6]; [5]; [4]; [3]]; [[2]; [1]; [0]]], 0).
Proof. split; [reflexivity|]. split; [reflexivity|]. split; [discriminate|]. exact seven_reads. Qed.
(* and five *)
Example C140_case : held_low (r_cfg back_tiny) five_file 4 = 4 /\ held_high (r_cfg back_tiny) five_file 4 = 5 /\
  shown_run (r_play_file back_tiny (Some five_file) false 1 (fun _ => 0) (fun _ _ => 0)) (fun r => read_seq 100 r [4%nat; 4%nat])
  = Ok ([[[4]; [0]; [0]; [0]]; [[0]]], 4).
Proof. split; [reflexivity|]. split; [reflexivity|]. exact five_reads. Qed.

Print Assumptions C140_held.
Print Assumptions C141_small_partial.
Print Assumptions C141_refuted.
