(* C23, C24, C26, C27, C46, C54, C55: the buffered file. *)

From Coq Require Import ZArith Lia List Bool.
From RecordUpdate Require Import RecordUpdate.
From Flocq Require Import Core.Core IEEE754.BinarySingleNaN.
From Verif Require Import Machine Floats WavModel CacheModel ReaderModel ReaderSpec CacheFacts CacheSpec CacheProofs
  FileSpec WavFinal CacheFinal.
Import ListNotations.
Local Open Scope Z_scope.

(* ---- C23 ---- *)

(* After any history of operations on the buffered file fl, a fetched sample is the
   file's sample at that index, or silence counted as a miss. *)
Theorem C23_never_wrong : forall c fl f i, cfg_ok c -> fsize fl <= 2 ^ 31 -> creach c fl f -> in_file fl i ->
  fst (if_get f i) = file_sample fl i \/
  (fst (if_get f i) = 0 /\ i_fails (snd (if_get f i)) = i_fails f + 1).
Proof. exact never_wrong. Qed.

Example C23_case : cfg_ok cfg_sd /\ fsize (ramp_file 32768) <= 2 ^ 31 /\ in_file (ramp_file 32768) 5000 /\
  exists f, creach cfg_sd (ramp_file 32768) f /\ fst (if_get f 5000) = 9993 /\ fst (if_get f 16000) = 0.
Proof. exact never_wrong_case. Qed.

(* ---- C24 ---- *)

(* read() leaves the file, its position and everything buffered as they were *)
Theorem C24_read : forall fuel r n out r' f, r_src r = SFile f -> r_read fuel r n = Ok (out, r') ->
  exists f', r_src r' = SFile f' /\ same_store f f'.
Proof. exact read_store. Qed.

Example C24_case : exists r, open_raw KSd d1 32768 = Ok r /\ exists f, r_src r = SFile f /\
  exists out r', r_read 200 r 128 = Ok (out, r') /\ length out = 128%nat.
Proof. exact read_store_case. Qed.

(* ---- C26 and C54 ---- *)

(* Reload fails to return in exactly one situation: reverse, not looping, nothing but
   unused buffers, and no block before the first buffered one. *)
Theorem C54_reload_returns : forall c fl f x, cfg_ok c -> creach c fl f ->
  ((forall fuel, triggerReload fuel f x = NoFuel) <-> reload_stuck f x).
Proof. exact reload_returns_reach. Qed.

(* In particular it always returns forwards, and in looped playback *)
Theorem C26_forward_partial : forall c fl f x, cfg_ok c -> creach c fl f -> fle f0 x = true \/ i_loop f <> LNone ->
  exists fuel, triggerReload fuel f x <> NoFuel.
Proof. exact reload_returns_forward. Qed.

(* Reversing right after the start of a file longer than the buffers gets there *)
Theorem C26_refuted : exists r, c26_run = Ok r /\ r_playing r = true /\ forall fuel, r_triggerReload fuel r = NoFuel.
Proof. exact c26_hangs. Qed.

(* ---- C27 and C55 ---- *)

(* With the full number of buffers, no operation on the file touches a buffer that
   does not exist, and the number stays full *)
Theorem C55_full_safe : forall c fl fuel o f, cfg_ok c -> creach c fl f -> length (i_bufs f) = c_nbuf c ->
  (match o with CoPreload i _ => in_s32 i | _ => True end) ->
  (match o with CoPreload _ _ => True | _ => forall w, cop_run fuel o f <> UB w end) /\
  forall f', cop_run fuel o f = Ok f' -> length (i_bufs f') = c_nbuf c.
Proof. exact full_op. Qed.

(* Without looping reload is safe whatever the number of buffers *)
Theorem C27_none_partial : forall fuel f x w, i_loop f = LNone -> triggerReload fuel f x <> UB w.
Proof. exact reload_none_safe. Qed.

(* A looping file that fills only some of the buffers: reload accesses one that does
   not exist *)
Theorem C27_refuted : c27_run LRepeat = UB UbVector /\ c27_run LPingpong = UB UbVector.
Proof. exact c27_ub. Qed.

Example C55_case : is_full (cache_of (open_raw KSd d1 32768)) = true /\
  is_full (cache_of (open_raw KSd d1 12000)) = false.
Proof. exact full_case. Qed.

(* ---- C46 ---- *)

(* On drivers that seek past the end (serial flash) a block that starts after the end
   of the file is silent; missing: the rest of the last block, and the other drivers *)
Theorem C46_blocks_partial : forall c fl f i, cfg_ok c -> c_keep c = false -> creach c fl f -> 0 <= i < 2 ^ 31 ->
  fsize fl <= 2 * (blk c i * BS c) -> fst (if_get f i) = 0.
Proof. exact past_silent. Qed.

(* The rest of the last block is whatever the buffer contained before *)
Theorem C46_refuted : c46_run KSd = Ok [[10]; [20]; [30]; [40]; [1234]; [1234]; [1234]; [1234]] /\
  c46_run KFlash = Ok [[10]; [20]; [30]; [40]; [1234]; [1234]; [1234]; [1234]].
Proof. exact c46_dirty. Qed.

Example C46_case : cfg_ok cfg_flash /\ c_keep cfg_flash = false /\
  fsize (ramp_file 300) <= 2 * (blk cfg_flash 300 * BS cfg_flash).
Proof. split; [apply cfg_flash_ok|]. split; [reflexivity|]. vm_compute. discriminate. Qed.

Print Assumptions C23_never_wrong.
Print Assumptions C24_read.
Print Assumptions C54_reload_returns.
Print Assumptions C26_forward_partial.
Print Assumptions C26_refuted.
Print Assumptions C55_full_safe.
Print Assumptions C27_none_partial.
Print Assumptions C27_refuted.
Print Assumptions C46_blocks_partial.
Print Assumptions C46_refuted.
