(* Cases for C106 and C107: two players, the second one playing already; rates are
   turned before and after the reload. *)

From Coq Require Import ZArith Lia List Bool Reals Lra.
From RecordUpdate Require Import RecordUpdate.
From Flocq Require Import Core.Core IEEE754.BinarySingleNaN.
From Verif Require Import Machine Floats FloatFacts WavModel CacheModel ReaderModel ResponderModel PlayerModel CacheFacts CacheSpec
  ReaderSpec FileSpec LifeSpec WavSpec PlayProofs FilePlay FileForward CacheFinal InterpCases PlayerCases LifeProofs WorldProofs StageSpec StageCases
  TapeSpec TapeCases BackSpec BackCases ReelSpec.
Import ListNotations.
Local Open Scope Z_scope.

Definition turn (i : nat) (x : b64) : wop := WCall i (CRate x).
Definition turned (s : b64 -> b64) : list round :=
  [(some_blocks, [turn 0 (s dthree_halves); WUpdate 1 some_blocks; WYield; WYield]);
   (no_second, [WYield; turn 1 dthree_halves; WYield; turn 0 (s (d_of_Z 2)); WYield]);
   (some_blocks, [WYield; turn 0 (s dthree_halves); WYield; turn 0 (s d1); WUpdate 1 some_blocks]);
   (some_blocks, [WYield; WYield; WStop 1 []])].
Definition fwd_rounds : list round := turned (fun x => x).
Definition rev_rounds : list round := turned dneg.
Definition rev_before : list wop := before ++ [turn 0 (dneg d1)].

(* Sample k of output c in transmission j *)
Definition at_out (xs : list wout) (j c k : nat) : Z := nth k (snd (nth c (nth j (heard 0 xs) []) (0, []))) 0.

(* 450 frames: 0 to 127, then at double speed from 128, then from 384; 66 are left *)
Definition fwd_check (xs : list wout) (w : world) : bool :=
  Nat.eqb (length (heard 0 xs)) 4 && negb (r_playing (w_rd w 0)) && (at_out xs 0 0 127 =? file_sample (ramp_file 1800) (2 * 127)) && Nat.eqb (length (nth 1 (heard 0 xs) [])) 0 &&
  (at_out xs 2 0 0 =? file_sample (ramp_file 1800) (2 * 128)) && (at_out xs 2 0 1 =? file_sample (ramp_file 1800) (2 * 130)) &&
  (at_out xs 3 0 0 =? file_sample (ramp_file 1800) (2 * 384)) && (at_out xs 3 1 65 =? file_sample (ramp_file 1800) (2 * 449 + 1)) && (at_out xs 3 0 66 =? 0).
Lemma fwd_runs : exists xs w, ('(x0, w) <- wops 300 before (world0 two_kinds 2) ;;
  '(b, w0) <- p_play_file 0 (Some (ramp_file 1800)) false (Z.of_nat 2) (fun _ => 0) dirty w ;; wops 300 (rounds_ops 0 fwd_rounds) w0) = Ok (xs, w) /\ fwd_check xs w = true.
Proof. apply wops_with. vm_compute. reflexivity. Qed.

(* 8192 frames backwards: 8191 to 8064, at double speed from 8063, then from 7807 *)
Definition rev_check (xs : list wout) (w : world) : bool :=
  Nat.eqb (length (heard 0 xs)) 4 && r_playing (w_rd w 0) && (at_out xs 0 0 0 =? file_sample (ramp_file 32768) (2 * 8191)) && (at_out xs 0 0 127 =? file_sample (ramp_file 32768) (2 * 8064)) &&
  Nat.eqb (length (nth 1 (heard 0 xs) [])) 0 && (at_out xs 2 0 0 =? file_sample (ramp_file 32768) (2 * 8063)) && (at_out xs 2 0 1 =? file_sample (ramp_file 32768) (2 * 8061)) &&
  (at_out xs 3 0 0 =? file_sample (ramp_file 32768) (2 * 7807)) && (at_out xs 3 1 127 =? file_sample (ramp_file 32768) (2 * 7680 + 1)).
Lemma rev_runs : exists xs w, ('(x0, w) <- wops 300 rev_before (world0 two_kinds 2) ;;
  '(b, w0) <- p_play_file 0 (Some (ramp_file 32768)) false (Z.of_nat 2) (fun _ => 0) dirty w ;; wops 300 (rounds_ops 0 rev_rounds) w0) = Ok (xs, w) /\ rev_check xs w = true.
Proof. apply wops_with. vm_compute. reflexivity. Qed.

Lemma turned_ok : forall s, Forall (reel_ok two_kinds 2 0) (turned s).
Proof. intro s. repeat constructor; cbn; try discriminate; try lia. Qed.
Lemma turned_reel : forall s, reel 0 2 (turned s) =
  [Block 128; Speed (s dthree_halves); Speed (s (d_of_Z 2)); Block 128; Speed (s dthree_halves); Speed (s d1); Block 128].
Proof. intro s. reflexivity. Qed.

Lemma d1_rate : rate_ok 44 23 d1 /\ R64 d1 = 1%R.
Proof. change d1 with (d_of_Z 1). destruct (whole_rate 1 ltac:(lia)) as [A B]. split; [|exact B]. eapply rate_le; [exact A|lra]. Qed.
Lemma d2_rate : rate_ok 44 23 (d_of_Z 2) /\ R64 (d_of_Z 2) = 2%R.
Proof. destruct (whole_rate 2 ltac:(lia)) as [A B]. split; [|exact B]. eapply rate_le; [exact A|lra]. Qed.
Lemma sd_bounds : ((23 + 1) * INR 2 <= IZR (2 ^ 30))%R /\
  ((INR (2 * 128) * 23 + 2) * INR 2 <= IZR ((Z.of_nat (c_nbuf (cfg_of (two_kinds 0))) - 1) * BS (cfg_of (two_kinds 0))))%R.
Proof.
  change (INR 2) with 2%R. split; [cbn; lra|]. rewrite INR_IZR_INZ. change (Z.of_nat (2 * 128)) with 256.
  change ((Z.of_nat (c_nbuf (cfg_of (two_kinds 0))) - 1) * BS (cfg_of (two_kinds 0))) with 12288. lra.
Qed.

Lemma fwd_case : exists w, history two_kinds 2 2 w /\ (0 < 2)%nat /\ two_kinds 0 <> KArray /\
  basic_settings (w_rd w 0) LNone PSample 0 /\ r_hdr (w_rd w 0) = 0 /\ 0 < fsize (ramp_file 1800) < 2 ^ 31 /\
  rate_ok 44 23 (r_rate (w_rd w 0)) /\ ((23 + 1) * INR 2 <= IZR (2 ^ 30))%R /\
  ((INR (2 * 128) * 23 + 2) * INR 2 <= IZR ((Z.of_nat (c_nbuf (cfg_of (two_kinds 0))) - 1) * BS (cfg_of (two_kinds 0))))%R /\
  Forall (reel_ok two_kinds 2 0) fwd_rounds /\ Forall (tape_ok 44 23 128) (reel 0 2 fwd_rounds) /\
  exists b w0 xs w', p_play_file 0 (Some (ramp_file 1800)) false (Z.of_nat 2) (fun _ => 0) dirty w = Ok (b, w0) /\
    wops 300 (rounds_ops 0 fwd_rounds) w0 = Ok (xs, w') /\ fwd_check xs w' = true.
Proof.
  destruct fwd_runs as (xs & w' & E & CK). apply bind_ok in E. destruct E as ([x0 w] & E0 & E). apply bind_ok in E.
  destruct E as ([b w0] & E1 & E). exists w.
  pose proof (untouched 0 1 _ _ _ _ _ _ _ _ _ _ ltac:(discriminate) E0) as R. change (w_rd (world0 two_kinds 2) 0) with (new_reader KSd) in R. rewrite R.
  destruct d1_rate as [H1 V1], d2_rate as [H2 V2], halves_rate as [H3 V3], sd_bounds as [B1 B2].
  split; [|split; [lia|split; [discriminate|split; [repeat split|split; [reflexivity|split; [cbn; lia|]]]]]].
  - exists 300%nat, before, x0. split; [lia|]. split; [repeat constructor|]. split; [repeat constructor|]. split; [repeat constructor|exact E0].
  - split; [exact H1|]. split; [exact B1|]. split; [exact B2|]. split; [apply turned_ok|]. split; [|exists b, w0, xs, w'; auto].
    unfold fwd_rounds. rewrite turned_reel. repeat (apply Forall_cons; [cbn [tape_ok]; auto|]). apply Forall_nil.
Qed.

Lemma back_tuned : exists p, setPlaybackRate (new_reader KSd) (dneg d1) = Ok (back_reader KSd <| r_pos1 := p |>).
Proof.
  assert (D : dlt (dneg d1) d0 = true) by (vm_compute; reflexivity). unfold setPlaybackRate. cbv zeta. rewrite D. eexists. reflexivity.
Qed.
Lemma wops_last : forall fuel a o w xs w', wops fuel (a ++ [o]) w = Ok (xs, w') -> exists x1 w1 x, wops fuel a w = Ok (x1, w1) /\ wop_run fuel o w1 = Ok (x, w').
Proof.
  intros fuel. induction a as [|p a IH]; intros o w xs w' E; cbn [app] in E.
  - apply wops_cons in E. destruct E as (x & w1 & ys & A & E). cbn in E. apply Ok_inj, pair_equal_spec in E. destruct E as [_ <-]. exists [], w, x. auto.
  - cbn [wops] in *. apply bind_ok in E. destruct E as ([x w1] & A & E). apply bind_ok in E. destruct E as ([ys w2] & B & E).
    apply Ok_inj, pair_equal_spec in E. destruct E as [_ <-]. destruct (IH _ _ _ _ B) as (x1 & w3 & y & C & D). rewrite A. cbn [bind]. rewrite C. cbn [bind]. eauto.
Qed.

Lemma rev_case : exists w, history two_kinds 2 2 w /\ (0 < 2)%nat /\ two_kinds 0 <> KArray /\
  basic_settings (w_rd w 0) LNone PSample 0 /\ r_hdr (w_rd w 0) = 0 /\ 0 < fsize (ramp_file 32768) < 2 ^ 31 /\
  begins (fsize (ramp_file 32768)) 0 8192 2 PSample 0 8191 /\ first_block (BS (cfg_of (two_kinds 0))) (fsize (ramp_file 32768)) 0 2 8191 /\
  back_ok 44 23 (r_rate (w_rd w 0)) /\ ((23 + 1) * INR 2 <= IZR (2 ^ 30))%R /\
  ((INR (2 * 128) * 23 + 2) * INR 2 <= IZR ((Z.of_nat (c_nbuf (cfg_of (two_kinds 0))) - 1) * BS (cfg_of (two_kinds 0))))%R /\
  Forall (reel_ok two_kinds 2 0) rev_rounds /\ Forall (rtape_ok 44 23 128) (reel 0 2 rev_rounds) /\
  above (IZR 8191) (R64 (r_rate (w_rd w 0))) (reel 0 2 rev_rounds) /\
  exists b w0 xs w', p_play_file 0 (Some (ramp_file 32768)) false (Z.of_nat 2) (fun _ => 0) dirty w = Ok (b, w0) /\
    wops 300 (rounds_ops 0 rev_rounds) w0 = Ok (xs, w') /\ rev_check xs w' = true.
Proof.
  destruct rev_runs as (xs & w' & E & CK). apply bind_ok in E. destruct E as ([x0 w] & E0 & E). apply bind_ok in E.
  destruct E as ([b w0] & E1 & E). exists w. pose proof E0 as E2. unfold rev_before in E2. apply wops_last in E2. destruct E2 as (x1 & w1 & x & E2 & E3).
  pose proof (untouched 0 1 _ _ _ _ _ _ _ _ _ _ ltac:(discriminate) E2) as R. change (w_rd (world0 two_kinds 2) 0) with (new_reader KSd) in R.
  unfold turn, wop_run in E3. apply bind_ok in E3. destruct E3 as (r & E3 & E4). apply Ok_inj, pair_equal_spec in E4. destruct E4 as [_ E4].
  cbn [call_run] in E3. rewrite R in E3. destruct back_tuned as (p & BT). rewrite BT in E3. apply Ok_inj in E3.
  assert (RW : w_rd w 0 = back_reader KSd <| r_pos1 := p |>) by (rewrite <- E4, <- E3, rd_set; reflexivity). rewrite RW. clear E2 E3 E4 BT R RW.
  destruct d1_rate as [H1 V1], d2_rate as [H2 V2], halves_rate as [H3 V3], sd_bounds as [B1 B2].
  assert (K1 : back_ok 44 23 (dneg d1)) by (apply rate_back; [exact H1|lra]).
  assert (K2 : back_ok 44 23 (dneg (d_of_Z 2))) by (apply rate_back; [exact H2|lra]).
  assert (K3 : back_ok 44 23 (dneg dthree_halves)) by (apply rate_back; [exact H3|lra]).
  split; [|split; [lia|split; [discriminate|split; [repeat split|split; [reflexivity|split; [cbn; lia|]]]]]].
  - exists 300%nat, rev_before, x0. split; [lia|]. split; [repeat constructor|]. split; [repeat constructor|]. split; [repeat constructor|exact E0].
  - split; [split; reflexivity|]. split; [split; vm_compute; discriminate|]. split; [exact K1|]. split; [exact B1|]. split; [exact B2|]. split; [apply turned_ok|].
    unfold rev_rounds. rewrite turned_reel. split; [repeat (apply Forall_cons; [cbn [rtape_ok]; auto|]); apply Forall_nil|].
    split; [|exists b, w0, xs, w'; auto]. cbn [above]. change (r_rate (back_reader KSd <| r_pos1 := p |>)) with (dneg d1). rewrite !R64_neg, V1, V2.
    rewrite (INR_IZR_INZ 128). change (Z.of_nat 128) with 128. repeat split; lra.
Qed.
