(* C79, C80, C81: playback of a file against playback of an array. *)

From Coq Require Import ZArith Lia List Bool.
From RecordUpdate Require Import RecordUpdate.
From Flocq Require Import IEEE754.BinarySingleNaN.
From Verif Require Import Machine Floats WavModel InterpModel CacheModel ReaderModel CacheFacts CacheSpec FileSpec CacheFinal
  MirrorSpec MirrorFinal TimingProofs.
Import ListNotations.
Local Open Scope Z_scope.

(* ---- C79 ---- *)

(* After opening a file: any session of reads, reloads and settings that returns
   without a single missed sample delivers exactly what the same session delivers on
   an array holding the bytes of the file, and ends in the same state. *)
Theorem C79_play : forall r0 fl w n st g r fuel os bs a bs' r', cfg_ok (r_cfg r0) -> fsize fl <= 2 ^ 31 ->
  r_play_file r0 (Some fl) w n st g = Ok (true, r) ->
  session fuel (on_array (file_mem fl) 0 r) os = Ok (bs, a) -> session fuel r os = Ok (bs', r') -> misses r' = 0 ->
  bs' = bs /\ a = on_array (file_mem fl) 0 r'.
Proof. exact play_mirror. Qed.

(* ... and so from any state of the buffers *)
Theorem C79_session : forall c fl fuel os r f bs a bs' r', cfg_ok c -> fsize fl <= 2 ^ 31 -> r_src r = SFile f -> creach c fl f ->
  session fuel (on_array (file_mem fl) 0 r) os = Ok (bs, a) -> session fuel r os = Ok (bs', r') -> misses r' = misses r ->
  bs' = bs /\ a = on_array (file_mem fl) 0 r'.
Proof. exact session_mirror. Qed.

(* cubic and linear interpolation, a crossfaded loop, changes of rate, 1356 frames *)
Example C79_case : cfg_ok (r_cfg (new_reader KSd)) /\ fsize mc_file <= 2 ^ 31 /\
  exists r bs a bs' r', mc_open = Ok (true, r) /\ session 1200 (on_array (file_mem mc_file) 0 r) mc_ops = Ok (bs, a) /\
    session 1200 r mc_ops = Ok (bs', r') /\ misses r' = 0 /\ Z.of_nat (length (concat bs')) = 1356 /\ mc_sum bs' = 4525207.
Proof. exact mirror_case. Qed.

(* ---- C80 ---- *)

(* One read while samples lo up to hi are buffered: if the array reader, given the
   bytes of these samples only, returns, then the file reader returns the same frames
   in the same state, without a miss. *)
Theorem C80_buffered : forall c fl r f lo hi fuel n out ra, cfg_ok c -> fsize fl <= 2 ^ 31 -> r_src r = SFile f -> creach c fl f ->
  buffered c fl f lo hi -> r_read fuel (on_array (part_mem fl lo hi) (- (2 * lo)) r) n = Ok (out, ra) ->
  exists r', r_read fuel r n = Ok (out, r') /\ ra = on_array (part_mem fl lo hi) (- (2 * lo)) r' /\ misses r' = misses r.
Proof. exact read_part. Qed.

Example C80_case : exists r f out ra, (with_linear mc_open) = Ok r /\ r_src r = SFile f /\ creach cfg_sd mc_file f /\
  buffered cfg_sd mc_file f 0 300 /\ r_read 200 (on_array (part_mem mc_file 0 300) (- (2 * 0)) r) 128 = Ok (out, ra) /\
  Z.of_nat (length out) = 128 /\ fold_right Z.add 0 (concat out) = 8128.
Proof. exact part_case. Qed.

(* ---- C81 ---- *)

(* Two sessions with the same reads and settings, on any two sources, with reloads at
   any points and any interpolators: the same numbers of frames, the same play
   positions. *)
Theorem C81_timeline : forall f1 f2 os os' r s bs r' ds s', timeline s = timeline r -> filter timed os = filter timed os' ->
  session f1 r os = Ok (bs, r') -> session f2 s os' = Ok (ds, s') ->
  timeline s' = timeline r' /\ map (@length Z) (concat bs) = map (@length Z) (concat ds).
Proof. exact timeline_session. Qed.

(* with timely reloads, and without any: 104 samples of the second session are missed *)
Example C81_case : filter timed tc_ops1 = filter timed tc_ops2 /\ exists r bs r1 ds r2, mc_open = Ok (true, r) /\
  session 600 r tc_ops1 = Ok (bs, r1) /\ session 600 r tc_ops2 = Ok (ds, r2) /\ misses r1 = 0 /\ misses r2 = 104 /\ r_pos1 r1 = 16000 /\
  bs <> ds.
Proof. exact timeline_case. Qed.

Print Assumptions C79_play.
Print Assumptions C79_session.
Print Assumptions C80_buffered.
Print Assumptions C81_timeline.
