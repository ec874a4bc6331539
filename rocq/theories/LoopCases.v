(* Concrete cases and counterexamples for loops played from files. *)

From Coq Require Import ZArith Reals List Bool Lia Lra.
From Flocq Require Import Core.Core IEEE754.BinarySingleNaN.
From RecordUpdate Require Import RecordUpdate.
From Verif Require Import Machine Floats FloatFacts WavModel CacheModel ReaderModel ReaderSpec FileSpec CacheSpec LoopSpec
  CacheFacts CacheFinal WavFinal LoopFileSpec.
Import ListNotations.
Local Open Scope Z_scope.

(* A mono player of SD files whose loop, start mode and start position are set *)
Definition sd_loop (l : loop_type) (ls lf : Z) (ps : play_start) (pb : Z) : reader :=
  new_reader KSd <| r_loop := l |> <| r_ls := ls |> <| r_lf := lf |> <| r_pstart := ps |> <| r_pbstart := pb |>.
Definition sd_loop_open l ls lf ps pb : res (bool * reader) :=
  r_play_file (sd_loop l ls lf ps pb) (Some (ramp_file 60000)) false 1 (fun _ => 0) dirty.

(* Started 100 frames before the end of the loop: the jump back to the start of the
   loop comes before its first block has been read *)
Definition late_check (r' : reader) : bool :=
  match serviced 200 r' (repeat 128%nat 4) with
  | Ok (bs, r2) => (misses r' =? 0) && (misses r2 =? 156) &&
      match nth 100 (nth 0 bs []) [] with [v] => v =? 0 | _ => false end
  | _ => false
  end.
Lemma late_check_inv : forall r', late_check r' = true ->
  exists fuel bs r2, serviced fuel r' (repeat 128%nat 4) = Ok (bs, r2) /\ misses r' = 0 /\ misses r2 = 156 /\
    nth 100 (nth 0 bs []) [] = [0].
Proof.
  intros r' X. unfold late_check in X. destruct (serviced 200 r' (repeat 128%nat 4)) as [[bs r2]| |] eqn:E2; try discriminate.
  exists 200%nat, bs, r2. apply andb_prop in X. destruct X as [X X3]. apply andb_prop in X. destruct X as [X1 X2].
  apply Z.eqb_eq in X1, X2. split; [exact E2|]. split; [exact X1|]. split; [exact X2|].
  destruct (nth 100 (nth 0 bs []) []) as [|v [|? ?]]; try discriminate. apply Z.eqb_eq in X3. now subst.
Qed.
Lemma late_start : exists r', sd_loop_open LRepeat 4096 12000 PArbitrary 11900 = Ok (true, r') /\
  (exists fuel bs r2, serviced fuel r' (repeat 128%nat 4) = Ok (bs, r2) /\ misses r' = 0 /\ misses r2 = 156 /\
    nth 100 (nth 0 bs []) [] = [0]) /\
  file_repeat (ramp_file 60000) 0 1 4096 12000 11900 1 1 100%nat = Some [8193].
Proof.
  destruct (opened_with (sd_loop_open LRepeat 4096 12000 PArbitrary 11900) late_check) as (r' & E & H); [vm_compute; reflexivity|].
  exists r'. split; [exact E|]. split; [exact (late_check_inv r' H)|]. vm_compute. reflexivity.
Qed.

(* A ping-pong loop whose end is the first sample of a block: that block is never
   read, so the direction of the buffers is never reversed, and nothing below the
   last seven blocks is heard again *)
Definition edge_check (r' : reader) : bool :=
  match serviced 200 r' (repeat 128%nat 288) with
  | Ok (bs, r2) => (misses r' =? 0) && (misses r2 =? 6144) &&
      forallb (fun fr => match fr with [v] => v =? 0 | _ => false end) (skipn 30720 (concat bs))
  | _ => false
  end.
Lemma edge_check_inv : forall r', edge_check r' = true ->
  exists fuel bs r2, serviced fuel r' (repeat 128%nat 288) = Ok (bs, r2) /\ misses r' = 0 /\ misses r2 = 6144 /\
    forall fr, In fr (skipn 30720 (concat bs)) -> fr = [0].
Proof.
  intros r' X. unfold edge_check in X. destruct (serviced 200 r' (repeat 128%nat 288)) as [[bs r2]| |] eqn:E2; try discriminate.
  exists 200%nat, bs, r2. apply andb_prop in X. destruct X as [X X3]. apply andb_prop in X. destruct X as [X1 X2].
  apply Z.eqb_eq in X1, X2. split; [exact E2|]. split; [exact X1|]. split; [exact X2|].
  rewrite forallb_forall in X3. intros fr I. apply X3 in I. destruct fr as [|v [|? ?]]; try discriminate. apply Z.eqb_eq in I. now subst.
Qed.
Lemma edge_pingpong : exists r', sd_loop_open LPingpong 4096 22528 PLoop 0 = Ok (true, r') /\
  exists fuel bs r2, serviced fuel r' (repeat 128%nat 288) = Ok (bs, r2) /\ misses r' = 0 /\ misses r2 = 6144 /\
    forall fr, In fr (skipn 30720 (concat bs)) -> fr = [0].
Proof.
  destruct (opened_with (sd_loop_open LPingpong 4096 22528 PLoop 0) edge_check) as (r' & E & H); [vm_compute; reflexivity|].
  exists r'. split; [exact E|]. exact (edge_check_inv r' H).
Qed.

(* ---- cases ---------------------------------------------------------------------- *)

(* Ten blocks, played round and round at rate 1.0: seven are buffered *)
Lemma loop_case : let r := sd_loop LRepeat 4096 22000 PLoop 0 in
  cfg_ok (r_cfg r) /\ r_kind r <> KArray /\ basic_settings r LRepeat PLoop 0 /\ r_ls r = 4096 /\ r_lf r = 22000 /\ r_hdr r = 0 /\
  0 < fsize (ramp_file 60000) < 2 ^ 31 /\ 22000 <= fsize (ramp_file 60000) / 2 / Z.of_nat 1 /\
  fin64 (r_rate r) = true /\ R64 (r_rate r) = (IZR 1 * bpow radix2 (- 0))%R /\
  ((R64 (r_rate r) + 1) * INR 1 <= IZR (2 ^ 30))%R /\
  buffers_fill (r_cfg r) (ramp_file 60000) (4096 * 1) /\ loop_ahead (r_cfg r) (4096 * 1) (4096 * 1) (22000 * 1) /\
  1 <= 1 * 2 ^ 0 /\ loop_keeps_up (r_cfg r) 1 128 1.
Proof.
  cbv zeta. split; [split; cbn; lia|]. split; [discriminate|]. split; [repeat split|]. split; [reflexivity|].
  split; [reflexivity|]. split; [reflexivity|]. split; [cbn; lia|]. split; [vm_compute; congruence|].
  split; [reflexivity|]. change (r_rate (sd_loop LRepeat 4096 22000 PLoop 0)) with d1. rewrite R64_d1.
  split; [cbn; lra|]. split; [cbn [INR]; change (2 ^ 30) with 1073741824; lra|].
  split; [vm_compute; reflexivity|]. split; [left; vm_compute; congruence|]. split; [cbn; lia|]. vm_compute; congruence.
Qed.
(* The same for a loop of four blocks that is buffered as a whole *)
Lemma loop_case_short : let r := sd_loop LRepeat 4096 12000 PSample 0 in
  buffers_fill (r_cfg r) (ramp_file 60000) (0 * 1) /\ loop_ahead (r_cfg r) (0 * 1) (4096 * 1) (12000 * 1) /\
  loop_buffered (r_cfg r) (0 * 1) (4096 * 1) (12000 * 1).
Proof.
  cbv zeta. split; [vm_compute; reflexivity|]. split; [left; vm_compute; congruence|]. split; vm_compute; congruence.
Qed.
Lemma late_case : loop_keeps_up cfg_sd 1 128 1 /\ buffers_fill cfg_sd (ramp_file 60000) 11900 /\
  buffers_fill cfg_sd (ramp_file 60000) 4096.
Proof. repeat split; vm_compute; congruence. Qed.

(* ---- loop(n) while a WAV file is played ------------------------------------------- *)

(* Frames 0 and 1 of a mono WAV file, then loop(3): the header of 22 samples is counted as frames *)
Definition here_run : res (list (list Z) * list (list Z)) :=
  '(_, r) <- r_play_file (new_reader KSd) (Some (mkfile wav_flash)) true 1 (fun _ => 0) dirty ;;
  '(b1, r1) <- r_read 9 r 2 ;; r2 <- r_loop_from_here r1 3 ;; '(b2, _) <- r_read 99 r2 31 ;; Ok (b1, b2).
Lemma here_wav : here_run =
  Ok ([[1000]; [1001]], map (fun v => [1000 + Z.of_nat v]) (seq 2 25) ++ [[1024]; [1025]; [1026]; [1024]; [1025]; [1026]]).
Proof. vm_compute. reflexivity. Qed.
