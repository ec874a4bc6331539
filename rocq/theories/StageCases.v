(* A case for C85: two players, the second one playing already. *)

From Coq Require Import ZArith Lia List Bool Reals Lra.
From RecordUpdate Require Import RecordUpdate.
From Flocq Require Import Core.Core IEEE754.BinarySingleNaN.
From Verif Require Import Machine Floats FloatFacts WavModel CacheModel ReaderModel ResponderModel PlayerModel CacheFacts CacheSpec
  ReaderSpec FileSpec LifeSpec WavSpec PlayProofs FilePlay FileForward CacheFinal PlayerCases LifeProofs WorldProofs StageSpec.
Import ListNotations.
Local Open Scope Z_scope.

Definition two_kinds (i : nat) : rkind := match i with 0%nat => KSd | _ => KFlash end.
Definition some_blocks (c : nat) : option nat := Some c.
Definition no_second (c : nat) : option nat := match c with 0%nat => Some 0%nat | _ => None end.
Definition before : list wop := [WPlayFile 1 (Some (ramp_file 788)) false 1 (fun _ => 0) dirty; WUpdate 1 some_blocks].
(* Player 1 makes requests, too; one update of player 0 gets no second block *)
Definition three_rounds : list round :=
  [(some_blocks, [WUpdate 1 some_blocks; WYield; WYield]); (no_second, [WYield; WYield; WYield]);
   (some_blocks, [WYield; WUpdate 1 some_blocks; WYield; WStop 1 []])].

Notation run_before := (wops 300 before (world0 two_kinds 2)).
Notation run_case := ('(x0, w) <- run_before ;; '(b, w0) <- p_play_file 0 (Some (ramp_file 600)) false (Z.of_nat 2) (fun _ => 0) dirty w ;;
  wops 300 (rounds_ops 0 three_rounds) w0).
Definition case_check (xs : list wout) (w : world) : bool :=
  let h := heard 0 xs in
  Nat.eqb (length h) 3 && negb (r_playing (w_rd w 0)) &&
  (nth 5 (snd (nth 1 (nth 0 h []) (0, []))) 0 =? 12) && Nat.eqb (length (nth 1 h [])) 0 &&
  (nth 21 (snd (nth 0 (nth 2 h []) (0, []))) 0 =? 555) && (nth 22 (snd (nth 0 (nth 2 h []) (0, []))) 0 =? 0).
Lemma case_runs : exists xs w, run_case = Ok (xs, w) /\ case_check xs w = true.
Proof. apply wops_with. vm_compute. reflexivity. Qed.

Lemma rounds_case : Forall (round_ok two_kinds 2 0) three_rounds.
Proof. repeat constructor; cbn; try discriminate; try lia. Qed.

Lemma wops_cons : forall fuel o l w xs w', wops fuel (o :: l) w = Ok (xs, w') ->
  exists x w1 ys, wop_run fuel o w = Ok (x, w1) /\ wops fuel l w1 = Ok (ys, w').
Proof.
  intros fuel o l w xs w' E. cbn [wops] in E. apply bind_ok in E. destruct E as ([x w1] & A & E).
  apply bind_ok in E. destruct E as ([ys w2] & B & E). apply Ok_inj in E. apply pair_equal_spec in E. destruct E as [_ <-]. eauto.
Qed.
Lemma other_file : forall fuel i j fo v n st g w x w', i <> j -> wop_run fuel (WPlayFile j fo v n st g) w = Ok (x, w') -> w_rd w' i = w_rd w i.
Proof.
  intros fuel i j fo v n st g w x w' N E. unfold wop_run in E. apply bind_ok in E. destruct E as ([b w1] & E & E2).
  apply Ok_inj in E2. apply pair_equal_spec in E2. destruct E2 as [_ <-]. apply p_play_file_inv in E. destruct E as (r & _ & R & _).
  rewrite R. now destruct (Nat.eqb_spec i j).
Qed.
Lemma other_update : forall fuel i j al w x w', i <> j -> wop_run fuel (WUpdate j al) w = Ok (x, w') -> w_rd w' i = w_rd w i.
Proof.
  intros fuel i j al w x w' N E. unfold wop_run in E. apply bind_ok in E. destruct E as ([b w1] & E & E2).
  apply Ok_inj in E2. apply pair_equal_spec in E2. destruct E2 as [_ <-]. apply w_update_inv in E. destruct E as (ev & r & _ & R & _).
  rewrite R. now destruct (Nat.eqb_spec i j).
Qed.
Lemma untouched : forall i j fuel fo v n st g al w0 x0 w, i <> j ->
  wops fuel [WPlayFile j fo v n st g; WUpdate j al] w0 = Ok (x0, w) -> w_rd w i = w_rd w0 i.
Proof.
  intros i j fuel fo v n st g al w0 x0 w N E. apply wops_cons in E. destruct E as (x1 & w1 & y1 & A & E).
  apply wops_cons in E. destruct E as (x2 & w2 & y2 & B & E). apply Ok_inj in E. apply pair_equal_spec in E. destruct E as [_ <-].
  apply (other_update _ i) in B; [|exact N]. apply (other_file _ i) in A; [|exact N]. congruence.
Qed.

Lemma stage_case : exists w, history two_kinds 2 2 w /\ (0 < 2)%nat /\ two_kinds 0 <> KArray /\
  w_rd w 0 = new_reader KSd /\ basic_settings (w_rd w 0) LNone PSample 0 /\ r_hdr (w_rd w 0) = 0 /\
  0 < fsize (ramp_file 600) < 2 ^ 31 /\ grid_rate (r_rate (w_rd w 0)) /\ (0 <= R64 (r_rate (w_rd w 0)))%R /\
  ((R64 (r_rate (w_rd w 0)) + 1) * INR 2 <= IZR (2 ^ 30))%R /\
  keeps_up (cfg_of (two_kinds 0)) 2 128 (R64 (r_rate (w_rd w 0))) /\
  Forall (round_ok two_kinds 2 0) three_rounds /\
  exists b w0 xs w', p_play_file 0 (Some (ramp_file 600)) false (Z.of_nat 2) (fun _ => 0) dirty w = Ok (b, w0) /\
    wops 300 (rounds_ops 0 three_rounds) w0 = Ok (xs, w') /\ case_check xs w' = true.
Proof.
  destruct case_runs as (xs & w' & E & CK). apply bind_ok in E. destruct E as ([x0 w] & E0 & E). apply bind_ok in E.
  destruct E as ([b w0] & E1 & E). exists w.
  pose proof (untouched 0 1 _ _ _ _ _ _ _ _ _ _ ltac:(discriminate) E0) as R. change (w_rd (world0 two_kinds 2) 0) with (new_reader KSd) in R.
  destruct file_case as (F1 & F2 & F3 & F4 & F5 & F6 & F7 & F8 & F9). rewrite R.
  split; [|split; [lia|split; [discriminate|split; [reflexivity|split; [exact F3|split; [exact F4|split; [cbn; lia|]]]]]]].
  - exists 300%nat, before, x0. split; [lia|]. split; [repeat constructor|]. split; [repeat constructor|].
    split; [repeat constructor|exact E0].
  - split; [exact F7|]. split; [change (r_rate (new_reader KSd)) with d1; rewrite R64_d1; lra|].
    split; [exact F9|]. split; [exact F8|]. split; [exact rounds_case|]. exists b, w0, xs, w'. auto.
Qed.
