(* The backward reading test passes for every length whose last block is the only one or
   half full (C143), and not for every other. *)

From Coq Require Import ZArith Lia List Bool Reals Lra.
From RecordUpdate Require Import RecordUpdate.
From Flocq Require Import Core.Core IEEE754.BinarySingleNaN.
From Verif Require Import Machine Floats FloatFacts WavModel CacheModel ReaderModel ReaderFacts ReaderSpec Sessions StreamFacts CacheFacts CacheSpec WavSpec
  FileSpec PlayProofs FilePlay FileForward MirrorSpec BackSpec HeldSpec HeldProofs HeldPlay HeldBackSpec HeldBack UnitModel UnitProofs BackAloneSpec BackAlone UnitBackModel.
Import ListNotations.
Local Open Scope Z_scope.

Lemma rate_m1 : grid_rate (d_of_Z (-1)) /\ R64 (d_of_Z (-1)) = (-1)%R.
Proof.
  destruct (d_of_Z_ok (-1) ltac:(lia)) as [V F]. split; [|exact V]. split; [exact F|]. exists (-1), 0. split; [|lia].
  cbn [Z.opp bpow]. rewrite Rmult_1_r. exact V.
Qed.

Lemma back_reading : forall r1 r2 x wave fl st g h n e, setPlaybackRate pc_reader x = Ok r1 ->
  r_play_file r1 (Some fl) wave 1 st g = Ok (true, r2) -> r_playing r2 = true -> 0 <= n ->
  (forall ns, exists fuel r3, session fuel r2 ([SLoopType LNone] ++ reads ns) =
     Ok (map (fun _ => []) [SLoopType LNone] ++ blocks_spec (file_back fl h 1 (n - 1) 1) 0 ns, r3) /\ misses r3 = 0) ->
  (forall i, 0 <= i < n -> file_frame fl h 1 (n - 1 - i) = [e i]) ->
  exists fuel blocks, reading_test fuel blocks x wave fl st g e n = Ok (true, true, n).
Proof.
  intros r1 r2 x wave fl st g h n e E1 E2 PL N S V.
  set (frames := map (fun k => file_frame fl h 1 (n - 1 - Z.of_nat k)) (seq 0 (Z.to_nat n))).
  assert (FL : length frames = Z.to_nat n) by (unfold frames; now rewrite map_length, seq_length).
  assert (FE : forall k, file_back fl h 1 (n - 1) 1 k = nth_error frames k).
  { intro k. unfold frames. rewrite nth_error_map_seq. unfold file_back. cbv zeta. rewrite floor_same.
    destruct (Z.ltb_spec (n - 1 - Z.of_nat k) 0); destruct (Nat.ltb_spec k (Z.to_nat n)); auto; lia. }
  set (K := (2 + length frames)%nat). destruct (S (repeat 256%nat K)) as (F & r3 & Q & _).
  cbn [app map session sop_run bind] in Q. rewrite reads_session in Q. apply bind_ok in Q. destruct Q as ([bs q] & Q & Q').
  apply Ok_inj, pair_equal_spec in Q'. destruct Q' as [Q1 <-]. apply (f_equal (@tl _)) in Q1. cbn [tl] in Q1. subst bs.
  rewrite (blocks_spec_eq _ _ FE), blocks_list in Q. cbn [skipn] in Q.
  destruct (blocks_pass F e n K frames 0 _ _ Q) as (bs & r4 & B1 & B2 & B3).
  - unfold K. lia.
  - intros i I. pose proof (FE i) as NE. unfold file_back in NE. cbv zeta in NE. rewrite floor_same in NE.
    destruct (Z.ltb_spec (n - 1 - Z.of_nat i) 0) as [Y|Y]; [lia|].
    rewrite (nth_error_nth frames i [] (eq_sym NE)). rewrite V by lia. f_equal.
  - right. lia.
  - exists F, K. unfold reading_test. rewrite E1. cbn [bind]. rewrite E2. cbn [bind]. rewrite B1. cbn [bind]. rewrite B2. cbn [bind].
    rewrite PL, B3, FL, Z2Nat.id by lia. reflexivity.
Qed.

Lemma pc_back : exists p, setPlaybackRate pc_reader (d_of_Z (-1)) = Ok (pc_reader <| r_rate := d_of_Z (-1) |> <| r_pos1 := p |>).
Proof.
  destruct rate_m1 as [G V]. assert (L : dlt (d_of_Z (-1)) d0 = true) by (apply dlt0_true; [apply G|rewrite V; lra]).
  revert L. generalize (d_of_Z (-1)). intros x L. unfold setPlaybackRate. cbv zeta.
  change (r_dual (pc_reader <| r_rate := x |>)) with false. cbn [negb]. rewrite L.
  change (r_pos1 (pc_reader <| r_rate := x |>) <=? r_hdr (pc_reader <| r_rate := x |>)) with true.
  change (match r_pstart (pc_reader <| r_rate := x |>) with PSample => r_fsamples (pc_reader <| r_rate := x |>) | _ => r_lf (pc_reader <| r_rate := x |>) end) with 0.
  rewrite chk32_ok by (unfold in_s32; lia). cbn [bind]. eexists. reflexivity.
Qed.

Theorem backward_passes : forall n stack garbage, bytes_ok stack -> 1 <= n <= 14314 -> n <= 2026 \/ 1024 <= (n + 21) mod 2048 + 1 ->
  exists fuel blocks, backward_test fuel blocks n stack garbage = Ok true.
Proof.
  intros n st g BO N H. destruct rate_m1 as [G V]. destruct pc_back as (p & E1).
  set (r1 := pc_reader <| r_rate := d_of_Z (-1) |> <| r_pos1 := p |>) in *.
  destruct (pc_settings (d_of_Z (-1)) r1 p eq_refl) as (BSET & CC & K & HH & RR). clearbody r1.
  assert (LEN : 2 * n / 2 / Z.of_nat 1 = n) by (rewrite Z.div_1_r, Z.mul_comm, Z.div_mul; lia).
  assert (FH : fsize (ramp_wav n) / 2 = 22 + n).
  { cbn [ramp_wav fsize]. replace (44 + 2 * n) with ((22 + n) * 2) by lia. apply Z.div_mul. lia. }
  destruct (wav_back_held r1 (ramp_wav n) 1 0 (2 * n) 1 st g PSample 0 (n - 1)) as (r2 & E2 & PL & S); rewrite ?CC, ?RR, ?LEN; auto using pc_cfg; try discriminate.
  - apply wav_ok. lia.
  - lia.
  - unfold begins. rewrite FH. change ((44 + 0) / 2) with 22. lia.
  - lia.
  - change ((44 + 0) / 2) with 22. replace (22 + (n - 1) * Z.of_nat 1) with (n + 21) by lia.
    unfold last_held, small_file, half_full. rewrite FH. cbn [ramp_wav fsize c_nbuf]. change (BS (mkCfg 11 7 true false)) with 2048.
    pose proof (Z.div_mod (n + 21) 2048 ltac:(lia)). pose proof (Z.mod_pos_bound (n + 21) 2048 ltac:(lia)). lia.
  - rewrite V. lra.
  - rewrite V. cbn [INR]. apply Rle_trans with 2%R; [lra|]. apply IZR_le. lia.
  - rewrite RR, V in S. replace (- (-1))%R with 1%R in S by lra.
    destruct (back_reading r1 r2 (d_of_Z (-1)) true (ramp_wav n) st g 22 n (fun i => n - i - 1) E1 E2 PL) as (F & B & E); [lia|apply S; now right| |].
    + intros i I. unfold file_frame. cbn [seq map]. rewrite Z.mul_1_r, Z.add_0_r. rewrite wav_sample by lia. f_equal. lia.
    + exists F, B. unfold backward_test. rewrite E. reflexivity.
Qed.

(* 2048 samples: the last 22 are alone in their block *)
Lemma backward_fails : exists fuel blocks, backward_test fuel blocks 2048 (fun _ => 0) (fun _ _ => 0) = Ok false.
Proof. exists 300%nat, 10%nat. vm_compute. reflexivity. Qed.
Lemma backward_258 : backward_test 300 3 258 (fun _ => 0) (fun _ _ => 0) = Ok true.
Proof. vm_compute. reflexivity. Qed.

(* ---- a small file ------------------------------------------------------------------ *)

Lemma seven_alone : exists r', r_play_file back_tiny (Some seven_file) false 1 (fun _ => 0) (fun _ _ => 0) = Ok (true, r') /\
  plays_alone r' (file_back seven_file 0 1 6 1).
Proof.
  destruct rate_m1 as [G V].
  assert (RR : r_rate back_tiny = d_of_Z (-1)) by reflexivity.
  assert (CC : r_cfg back_tiny = mkCfg 2 2 true true) by reflexivity.
  destruct (raw_back_alone back_tiny seven_file 1 (fun _ => 0) (fun _ _ => 0) PSample 0 6) as (r' & E & H); rewrite ?CC, ?RR; try rewrite V.
  - unfold cfg_ok. cbn. lia.
  - discriminate.
  - repeat split.
  - reflexivity.
  - lia.
  - lia.
  - cbn [seven_file fsize]. lia.
  - split; reflexivity.
  - cbn. lia.
  - unfold last_held, small_file, half_full. cbn. lia.
  - exact G.
  - lra.
  - cbn [INR]. apply Rle_trans with 2%R; [lra|]. apply IZR_le. lia.
  - exists r'. split; [exact E|]. rewrite RR, V in H. replace (- (-1))%R with 1%R in H by lra. exact H.
Qed.
