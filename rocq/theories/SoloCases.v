(* Cases for C108-C113: an array player between an SD player and another array player,
   with polling; an SD player in a loop, and interpolated, beside a flash player. *)

From Coq Require Import ZArith Lia List Bool Reals Lra.
From RecordUpdate Require Import RecordUpdate.
From Flocq Require Import Core.Core IEEE754.BinarySingleNaN.
From Verif Require Import Machine Floats FloatFacts WavModel InterpModel CacheModel ReaderModel ResponderModel PlayerModel CacheFacts CacheSpec CacheFinal
  ReaderSpec FileSpec LoopSpec LifeSpec WavSpec WavPlayProofs WavFinal PlayProofs FilePlay FileForward InterpCases PlayerCases LifeProofs WorldProofs ForwardProofs LoopFileSpec LoopProofs LoopCases PongSpec
  QuadProofs InterpWalk TrackSpec TrackCases StageSpec StageCases TapeSpec TapeCases BackSpec BackCases ReelSpec ReelCases SoloSpec SoloProofs OutSpec StageMore StageProofs PongCases.
Import ListNotations.
Local Open Scope Z_scope.

Definition three_kinds (i : nat) : rkind := match i with 1%nat => KSd | _ => KArray end.
Definition tones : mem := FadeCases.ramp 3000.
Definition tone (k : Z) : Z := file_sample (ramp_file 6000) k.
(* What the others did before; then the sketch sets up player 0 *)
Definition crowd (cs : list call) : list wop :=
  [WPlayFile 1 (Some (ramp_file 1800)) false 1 (fun _ => 0) dirty; WUpdate 1 some_blocks; WYield; WForce true; WPlayRaw 2 tones 0 500 1; WUpdate 1 some_blocks; WPoll; WUpdate 2 no_second]
  ++ map (WCall 0) cs.

Fixpoint calls_run (fuel : nat) (cs : list call) (r : reader) : res reader :=
  match cs with [] => Ok r | c :: cs' => r' <- call_run fuel c r ;; calls_run fuel cs' r' end.
Lemma alones_calls : forall fuel i cs r, alones fuel (map (WCall i) cs) r = (r' <- calls_run fuel cs r ;; Ok ([], r')).
Proof.
  intros fuel i. induction cs as [|c cs IH]; intro r; cbn [map alones alone calls_run]; [reflexivity|].
  destruct (call_run fuel c r) as [r1| |]; cbn [bind]; [|reflexivity..]. rewrite IH. destruct (calls_run fuel cs r1); reflexivity.
Qed.
Lemma own_calls : forall cs, flat_map (own 0) (map (WCall 0) cs) = map (WCall 0) cs.
Proof. induction cs as [|c cs IH]; [reflexivity|]. cbn. now rewrite IH. Qed.

Lemma crowd_case : forall cs starts deck (P : list wout -> world -> bool) r,
  match wops 300 (crowd cs) (world0 three_kinds 2) with
  | Ok (_, w) => match wops 0 starts w with Ok (_, w0) => match wops 300 deck w0 with Ok (xs, w') => P xs w' | _ => false end | _ => false end
  | _ => false end = true ->
  calls_run 300 cs (new_reader KArray) = Ok r ->
  exists w, array_history three_kinds 2 0 w /\ w_rd w 0 = r /\
    exists ys w0 xs w', wops 0 starts w = Ok (ys, w0) /\ wops 300 deck w0 = Ok (xs, w') /\ P xs w' = true.
Proof.
  intros cs starts deck P r E C. destruct (wops 300 (crowd cs) (world0 three_kinds 2)) as [[x0 w]| |] eqn:E0; [|discriminate..].
  destruct (wops 0 starts w) as [[ys w0]| |] eqn:E1; [|discriminate..]. destruct (wops 300 deck w0) as [[xs w']| |] eqn:E2; [|discriminate..].
  assert (NF : forall o, In o (crowd cs) -> ~ plays_file o 0).
  { intros o H. unfold crowd in H. apply in_app_or in H. destruct H as [H|H].
    - repeat (destruct H as [<-|H]; [cbn; congruence|]). destruct H.
    - apply in_map_iff in H. destruct H as (c & <- & _). exact (fun x => x). }
  exists w. split; [|split; [|exists ys, w0, xs, w'; auto]].
  - exists 300%nat, (crowd cs), x0. split; [|split; [exact NF|exact E0]]. unfold crowd. apply Forall_app. split; [repeat constructor|].
    apply Forall_map, Forall_forall. intros c _. exact I.
  - destruct (alone_wops _ _ _ _ _ _ (iso0 0 2 : isolated 0 (w_sys (world0 three_kinds 2))) NF E0) as [_ A]. unfold crowd in A. rewrite flat_map_app, own_calls in A.
    change (flat_map (own 0) _ ++ map (WCall 0) cs) with (map (WCall 0) cs) in A. rewrite alones_calls in A.
    change (w_rd (world0 three_kinds 2) 0) with (new_reader KArray) in A. rewrite C in A. cbn [bind] in A. apply Ok_inj, pair_equal_spec in A. destruct A as [_ A]. exact (eq_sym A).
Qed.

(* ---- C109 ---- *)

(* One update gets no second block, one comes while another player is being stopped *)
Definition deck_run1 (s : b64 -> b64) : list wop :=
  [WUpdate 0 some_blocks; turn 0 (s dthree_halves); WUpdate 1 some_blocks; WPoll; turn 0 (s (d_of_Z 2)); WUpdate 0 no_second;
   WStop 1 [(2%nat, some_blocks); (0%nat, some_blocks)]; WForce false; turn 0 (s d1); WYield; WUpdate 0 some_blocks; WPlayFile 1 (Some (ramp_file 788)) false 1 (fun _ => 0) dirty; WUpdate 0 some_blocks].
Lemma deck_run_ok : forall s, Forall (deck_op 0) (deck_run1 s).
Proof. intro s. repeat constructor; cbn; try discriminate; eauto; lia. Qed.
Lemma deck_run_tape : forall s, deck 0 2 (deck_run1 s) = [Block 128; Speed (s dthree_halves); Speed (s (d_of_Z 2)); Block 128; Speed (s d1); Block 128; Block 128].
Proof. reflexivity. Qed.
Lemma deck_run_chances : forall s, chances 0 2 (deck_run1 s) = [true; false; true; true; true].
Proof. reflexivity. Qed.

(* 450 stereo frames: 0 to 127, then at double speed from 128, then from 384; 66 are left,
   then silence *)
Definition deck_check (xs : list wout) (w : world) : bool :=
  Nat.eqb (length (heard 0 xs)) 5 && r_playing (w_rd w 0) && (at_out xs 0 0 127 =? tone (2 * 127 + 0)) && Nat.eqb (length (nth 1 (heard 0 xs) [])) 0 &&
  (at_out xs 2 0 0 =? tone (2 * 128 + 0)) && (at_out xs 2 0 1 =? tone (2 * 130 + 0)) && (at_out xs 3 0 0 =? tone (2 * 384 + 0)) && (at_out xs 3 1 65 =? tone (2 * 449 + 1)) && (at_out xs 3 0 66 =? 0) &&
  Nat.eqb (length (nth 4 (heard 0 xs) [])) 2 && (at_out xs 4 0 0 =? 0).
Lemma tones_hold : forall len nch, 0 <= len -> (1 <= nch)%nat -> Z.of_nat nch < 2 ^ 15 -> len * Z.of_nat nch <= 3000 -> array_holds tones 0 len nch.
Proof. intros len nch L N1 N2 U. unfold array_holds. change (msize tones) with 6000. repeat split; lia. Qed.

Lemma deck_case : exists w, array_history three_kinds 2 0 w /\ array_holds tones 0 450 2 /\ basic_settings (w_rd w 0) LNone PSample 0 /\
  rate_ok 44 23 (r_rate (w_rd w 0)) /\ ((23 + 1) * INR 2 <= IZR (2 ^ 30))%R /\
  Forall (deck_op 0) (deck_run1 (fun x => x)) /\ Forall (tape_ok 44 23 128) (deck 0 2 (deck_run1 (fun x => x))) /\
  exists ys w0 xs w', wops 0 [WPlayRaw 0 tones 0 450 (Z.of_nat 2)] w = Ok (ys, w0) /\ wops 300 (deck_run1 (fun x => x)) w0 = Ok (xs, w') /\ deck_check xs w' = true.
Proof.
  destruct (crowd_case [] [WPlayRaw 0 tones 0 450 (Z.of_nat 2)] (deck_run1 (fun x => x)) deck_check (new_reader KArray)) as (w & H & R & E); [vm_compute; reflexivity|reflexivity|].
  exists w. split; [exact H|]. split; [apply tones_hold; lia|]. rewrite R. split; [repeat split|]. destruct d1_rate as [H1 V1], d2_rate as [H2 V2], halves_rate as [H3 V3], sd_bounds as [B1 B2].
  split; [exact H1|]. split; [exact B1|]. split; [apply deck_run_ok|]. split; [|exact E].
  rewrite deck_run_tape. repeat (apply Forall_cons; [cbn [tape_ok]; auto|]). apply Forall_nil.
Qed.

(* Backwards from frame 800 of 1000: the rate is set before the start, which comes later *)
Definition rdeck_check (xs : list wout) (w : world) : bool :=
  Nat.eqb (length (heard 0 xs)) 5 && r_playing (w_rd w 0) && (at_out xs 0 0 0 =? tone (2 * 430 + 0)) && (at_out xs 0 0 127 =? tone (2 * 303 + 0)) && Nat.eqb (length (nth 1 (heard 0 xs) [])) 0 &&
  (at_out xs 2 0 0 =? tone (2 * 302 + 0)) && (at_out xs 2 1 1 =? tone (2 * 300 + 1)) && (at_out xs 3 0 0 =? tone (2 * 46 + 0)) && (at_out xs 3 1 46 =? tone 1) && (at_out xs 3 0 47 =? 0) &&
  Nat.eqb (length (nth 4 (heard 0 xs) [])) 2 && (at_out xs 4 0 0 =? 0).
Definition rdeck_calls : list call := [CStart PArbitrary 430; CRate (dneg d1)].
Lemma rdeck_tuned : exists p, calls_run 300 rdeck_calls (new_reader KArray) = Ok (new_reader KArray <| r_pstart := PArbitrary |> <| r_pbstart := 430 |> <| r_rate := dneg d1 |> <| r_pos1 := p |>).
Proof.
  assert (D : dlt (dneg d1) d0 = true) by (vm_compute; reflexivity). unfold rdeck_calls. cbn [calls_run call_run bind]. unfold setPlaybackRate. cbv zeta. rewrite D.
  eexists. reflexivity.
Qed.
Lemma rdeck_case : exists w, array_history three_kinds 2 0 w /\ array_holds tones 0 450 2 /\ basic_settings (w_rd w 0) LNone PArbitrary 430 /\
  back_ok 44 23 (r_rate (w_rd w 0)) /\ ((23 + 1) * INR 2 <= IZR (2 ^ 30))%R /\
  Forall (deck_op 0) (deck_run1 dneg) /\ Forall (rtape_ok 44 23 128) (deck 0 2 (deck_run1 dneg)) /\
  above (IZR 430) (R64 (r_rate (w_rd w 0))) (deck 0 2 (deck_run1 dneg)) /\
  exists ys w0 xs w', wops 0 [WPlayRaw 0 tones 0 450 (Z.of_nat 2)] w = Ok (ys, w0) /\ wops 300 (deck_run1 dneg) w0 = Ok (xs, w') /\ rdeck_check xs w' = true.
Proof.
  destruct rdeck_tuned as (p & T).
  destruct (crowd_case rdeck_calls [WPlayRaw 0 tones 0 450 (Z.of_nat 2)] (deck_run1 dneg) rdeck_check _ ltac:(vm_compute; reflexivity) T) as (w & H & R & E).
  exists w. split; [exact H|]. split; [apply tones_hold; lia|]. rewrite R. split; [repeat split|]. destruct d1_rate as [H1 V1], d2_rate as [H2 V2], halves_rate as [H3 V3], sd_bounds as [B1 B2].
  assert (K1 : back_ok 44 23 (dneg d1)) by (apply rate_back; [exact H1|lra]).
  assert (K2 : back_ok 44 23 (dneg (d_of_Z 2))) by (apply rate_back; [exact H2|lra]).
  assert (K3 : back_ok 44 23 (dneg dthree_halves)) by (apply rate_back; [exact H3|lra]).
  split; [exact K1|]. split; [exact B1|]. split; [apply deck_run_ok|]. rewrite deck_run_tape. split; [repeat (apply Forall_cons; [cbn [rtape_ok]; auto|]); apply Forall_nil|].
  split; [|exact E]. cbn [above]. match goal with |- context [r_rate ?x] => change (r_rate x) with (dneg d1) end. rewrite !R64_neg, V1, V2.
  rewrite (INR_IZR_INZ 128). change (Z.of_nat 128) with 128. repeat split; lra.
Qed.

(* The WAV of three stereo frames *)
Definition wdeck_check (xs : list wout) (w : world) : bool :=
  Nat.eqb (length (heard 0 xs)) 5 && r_playing (w_rd w 0) && (at_out xs 0 0 0 =? 10) && (at_out xs 0 1 0 =? 20) && (at_out xs 0 0 2 =? 50) && (at_out xs 0 0 3 =? 0).
Lemma wdeck_case : exists w, array_history three_kinds 2 0 w /\
  (bytes_ok (mbyte (mem_of wav_ex)) /\ headers_inside (mem_of wav_ex) /\ header_valid (mbyte (mem_of wav_ex)) /\ data_chunk (mbyte (mem_of wav_ex)) 12 12 /\
   hdr_channels (mbyte (mem_of wav_ex)) = Z.of_nat 2 /\ array_holds (mem_of wav_ex) (44 + 12) (12 / Z.of_nat 2 / 2) 2) /\
  basic_settings (w_rd w 0) LNone PSample 0 /\ rate_ok 44 23 (r_rate (w_rd w 0)) /\
  Forall (deck_op 0) (deck_run1 (fun x => x)) /\ Forall (tape_ok 44 23 128) (deck 0 2 (deck_run1 (fun x => x))) /\
  exists ys w0 xs w', wops 0 [WPlayWav 0 (mem_of wav_ex)] w = Ok (ys, w0) /\ wops 300 (deck_run1 (fun x => x)) w0 = Ok (xs, w') /\ wdeck_check xs w' = true.
Proof.
  destruct (crowd_case [] [WPlayWav 0 (mem_of wav_ex)] (deck_run1 (fun x => x)) wdeck_check (new_reader KArray)) as (w & H & R & E); [vm_compute; reflexivity|reflexivity|].
  exists w. split; [exact H|]. split; [destruct wav_ex_array as (A1 & A2 & A3 & A4 & A5 & A6 & A7); auto 10|]. rewrite R. split; [repeat split|].
  destruct d1_rate as [H1 V1], d2_rate as [H2 V2], halves_rate as [H3 V3]. split; [exact H1|]. split; [apply deck_run_ok|]. split; [|exact E].
  rewrite deck_run_tape. repeat (apply Forall_cons; [cbn [tape_ok]; auto|]). apply Forall_nil.
Qed.

(* ---- C108: the whole of it, and player 0 alone ---- *)
Definition whole_run : list wop := crowd [] ++ [WPlayRaw 0 tones 0 450 2] ++ deck_run1 (fun x => x).
Lemma whole_case : (forall o, In o whole_run -> ~ plays_file o 0) /\ length whole_run = 22%nat /\ length (flat_map (own 0) whole_run) = 9%nat /\
  exists xs w, wops 300 whole_run (world0 three_kinds 2) = Ok (xs, w) /\ length (seen 0 xs) = 6%nat /\ deck_check xs w = true.
Proof.
  split. { intros o H. unfold whole_run, crowd, deck_run1 in H. cbn [map app] in H. repeat (destruct H as [<-|H]; [cbn; congruence|]). destruct H. }
  split; [reflexivity|]. split; [reflexivity|].
  destruct (wops_with (wops 300 whole_run (world0 three_kinds 2)) (fun xs w => Nat.eqb (length (seen 0 xs)) 6 && deck_check xs w)) as (xs & w & E & C); [vm_compute; reflexivity|].
  apply andb_prop in C. destruct C as [C1 C2]. apply Nat.eqb_eq in C1. eauto.
Qed.

(* ---- C110 ---- *)

Definition plain_run : list wop :=
  [WUpdate 0 some_blocks; WUpdate 1 some_blocks; WPoll; WUpdate 0 no_second; WStop 1 [(2%nat, some_blocks); (0%nat, some_blocks)]; WForce false; WYield; WUpdate 0 some_blocks].
Lemma plain_run_ok : Forall (deck_op 0) plain_run.
Proof. repeat constructor; cbn; discriminate. Qed.
Lemma plain_run_tape : Forall (eq (Block 128)) (deck 0 2 plain_run) /\ chances 0 2 plain_run = [true; false; true; true].
Proof. split; [repeat constructor|reflexivity]. Qed.

(* Frames 0 to 199, then 100 to 199 *)
Definition round_check (xs : list wout) (w : world) : bool :=
  Nat.eqb (length (heard 0 xs)) 4 && r_playing (w_rd w 0) && (at_out xs 0 0 127 =? tone (2 * 127)) && Nat.eqb (length (nth 1 (heard 0 xs) [])) 0 && (at_out xs 2 0 71 =? tone (2 * 199)) &&
  (at_out xs 2 1 72 =? tone (2 * 100 + 1)) && (at_out xs 3 0 43 =? tone (2 * 199)) && (at_out xs 3 0 44 =? tone (2 * 100)).
Definition round_calls : list call := [CLoopType LRepeat].
Lemma round_case : exists w, array_history three_kinds 2 0 w /\ array_holds tones 0 500 2 /\ basic_settings (w_rd w 0) LRepeat PSample 0 /\
  is_finite (r_rate (w_rd w 0)) = true /\ B2R (r_rate (w_rd w 0)) = (IZR 1 * bpow radix2 (- 0))%R /\ ((B2R (r_rate (w_rd w 0)) + 1) * INR 2 <= IZR (2 ^ 30))%R /\
  Forall (deck_op 0) plain_run /\ Forall (eq (Block 128)) (deck 0 2 plain_run) /\
  exists ys w0 xs w', wops 0 (loop_calls 0 tones 0 500 2 100 200) w = Ok (ys, w0) /\ wops 300 plain_run w0 = Ok (xs, w') /\ round_check xs w' = true.
Proof.
  destruct (crowd_case round_calls (loop_calls 0 tones 0 500 2 100 200) plain_run round_check (new_reader KArray <| r_loop := LRepeat |>)) as (w & H & R & E); [vm_compute; reflexivity|reflexivity|].
  exists w. split; [exact H|]. split; [apply tones_hold; lia|]. rewrite R. split; [repeat split|]. change (r_rate (new_reader KArray <| r_loop := LRepeat |>)) with d1.
  split; [reflexivity|]. rewrite R64_d1. change (INR 2) with 2%R. split; [cbn; lra|]. split; [cbn; lra|]. split; [exact plain_run_ok|]. split; [apply plain_run_tape|exact E].
Qed.

(* From frame 250 down to 100, up to 299 and down again *)
Definition swing_check (xs : list wout) (w : world) : bool :=
  Nat.eqb (length (heard 0 xs)) 4 && r_playing (w_rd w 0) && (at_out xs 0 0 127 =? tone (2 * 123)) && Nat.eqb (length (nth 1 (heard 0 xs) [])) 0 && (at_out xs 2 0 22 =? tone (2 * 100)) &&
  (at_out xs 2 1 23 =? tone (2 * 100 + 1)) && (at_out xs 2 0 24 =? tone (2 * 101)) && (at_out xs 3 0 94 =? tone (2 * 299)) && (at_out xs 3 0 95 =? tone (2 * 298)).
Definition swing_calls : list call := [CLoopType LPingpong; CStart PArbitrary 250; CRate (dneg d1)].
Definition swung (p : Z) : reader :=
  new_reader KArray <| r_loop := LPingpong |> <| r_pstart := PArbitrary |> <| r_pbstart := 250 |> <| r_rate := dneg d1 |> <| r_pos1 := p |>.
Lemma swing_tuned : exists p, calls_run 300 swing_calls (new_reader KArray) = Ok (swung p).
Proof.
  assert (D : dlt (dneg d1) d0 = true) by (vm_compute; reflexivity). unfold swing_calls. cbn [calls_run call_run bind].
  assert (L : setLoopType (new_reader KArray) LPingpong = new_reader KArray <| r_loop := LPingpong |>) by reflexivity. rewrite L.
  unfold setPlaybackRate. cbv zeta. rewrite D. unfold swung. eexists. reflexivity.
Qed.
Lemma swing_case : exists w, array_history three_kinds 2 0 w /\ array_holds tones 0 500 2 /\ basic_settings (w_rd w 0) LPingpong PArbitrary 250 /\
  is_finite (r_rate (w_rd w 0)) = true /\ B2R (r_rate (w_rd w 0)) = (- (IZR 1 * bpow radix2 (- 0)))%R /\ ((- B2R (r_rate (w_rd w 0)) + 1) * INR 2 <= IZR (2 ^ 30))%R /\
  Forall (deck_op 0) plain_run /\ Forall (eq (Block 128)) (deck 0 2 plain_run) /\
  exists ys w0 xs w', wops 0 (loop_calls 0 tones 0 500 2 100 300) w = Ok (ys, w0) /\ wops 300 plain_run w0 = Ok (xs, w') /\ swing_check xs w' = true.
Proof.
  destruct swing_tuned as (p & T).
  destruct (crowd_case swing_calls (loop_calls 0 tones 0 500 2 100 300) plain_run swing_check (swung p) ltac:(vm_compute; reflexivity) T) as (w & H & R & E).
  exists w. split; [exact H|]. split; [apply tones_hold; lia|]. rewrite R. split; [repeat split|]. change (r_rate (swung p)) with (dneg d1).
  split; [reflexivity|]. rewrite R64_neg, R64_d1. change (INR 2) with 2%R. split; [cbn; lra|]. split; [cbn; lra|]. split; [exact plain_run_ok|]. split; [apply plain_run_tape|exact E].
Qed.

(* ---- C111 ---- *)

Definition blend_check (ip : interp) (xs : list wout) (w : world) : bool :=
  Nat.eqb (length (heard 0 xs)) 4 && r_playing (w_rd w 0) &&
  match ip with ILinear => (at_out xs 0 0 5 =? 6) && (at_out xs 0 0 86 =? 192) && (at_out xs 2 0 71 =? 553) | _ => (at_out xs 0 0 5 =? 4) && (at_out xs 0 0 86 =? 117) && (at_out xs 2 0 71 =? 551) end &&
  (at_out xs 2 0 72 =? 0) && Nat.eqb (length (nth 3 (heard 0 xs) [])) 2 && (at_out xs 3 0 0 =? 0).
Definition blend_calls (ip : interp) : list call := [CInterp ip; CRate dthree_quarters].
Lemma slow_ahead : dlt dthree_quarters d0 = false. Proof. vm_compute. reflexivity. Qed.
Lemma slow_ahead_ge : dle d0 dthree_quarters = true. Proof. vm_compute. reflexivity. Qed.
Lemma blend_tuned : forall ip k, calls_run 300 (blend_calls ip) (new_reader k) = Ok (new_reader k <| r_interp := ip |> <| r_rate := dthree_quarters |>).
Proof. intros ip k. unfold blend_calls. cbn [calls_run call_run bind]. unfold setPlaybackRate. cbv zeta. rewrite slow_ahead, slow_ahead_ge. reflexivity. Qed.
Lemma blend_case : forall ip, ip <> INone -> exists w, array_history three_kinds 2 0 w /\ array_holds tones 0 150 2 /\ (2 <= 8)%nat /\ interp_settings ip (w_rd w 0) LNone PSample 0 /\
  grid_rate (r_rate (w_rd w 0)) /\ (0 < R64 (r_rate (w_rd w 0)) <= 1)%R /\ Forall (deck_op 0) plain_run /\ Forall (eq (Block 128)) (deck 0 2 plain_run) /\
  exists ys w0 xs w', wops 0 [WPlayRaw 0 tones 0 150 (Z.of_nat 2)] w = Ok (ys, w0) /\ wops 300 plain_run w0 = Ok (xs, w') /\ blend_check ip xs w' = true.
Proof.
  intros ip NI. destruct (crowd_case (blend_calls ip) [WPlayRaw 0 tones 0 150 (Z.of_nat 2)] plain_run (blend_check ip) _ ltac:(destruct ip; [congruence|vm_compute; reflexivity..]) (blend_tuned ip KArray)) as (w & H & R & E).
  exists w. split; [exact H|]. split; [apply tones_hold; lia|]. split; [lia|]. rewrite R. split; [repeat split|].
  change (r_rate (new_reader KArray <| r_interp := ip |> <| r_rate := dthree_quarters |>)) with dthree_quarters. destruct three_quarters as [G V]. split; [exact G|]. rewrite V.
  split; [lra|]. split; [exact plain_run_ok|]. split; [apply plain_run_tape|exact E].
Qed.

(* ---- C112, C113 ---- *)

Definition booth (cs : list call) : list wop := before ++ map (WCall 0) cs.
Lemma wops_calls : forall fuel i cs w xs w', wops fuel (map (WCall i) cs) w = Ok (xs, w') -> calls_run fuel cs (w_rd w i) = Ok (w_rd w' i).
Proof.
  intros fuel i. induction cs as [|c cs IH]; intros w xs w' E; cbn [map wops] in E.
  - apply Ok_inj, pair_equal_spec in E. destruct E as [_ <-]. reflexivity.
  - apply bind_ok in E. destruct E as ([x w1] & E1 & E). apply bind_ok in E. destruct E as ([ys w2] & E2 & E). apply Ok_inj, pair_equal_spec in E. destruct E as [_ <-].
    cbn [wop_run] in E1. apply bind_ok in E1. destruct E1 as (r & E1 & E3). apply Ok_inj, pair_equal_spec in E3. destruct E3 as [_ <-]. apply IH in E2.
    rewrite rd_same in E2. cbn [calls_run]. rewrite E1. exact E2.
Qed.
Lemma booth_case : forall cs fl nch rounds (P : list wout -> world -> bool) r,
  match wops 300 (booth cs) (world0 two_kinds 2) with
  | Ok (_, w) => match p_play_file 0 (Some fl) false nch (fun _ => 0) dirty w with
    | Ok (_, w0) => match wops 300 (rounds_ops 0 rounds) w0 with Ok (xs, w') => P xs w' | _ => false end | _ => false end
  | _ => false end = true ->
  calls_run 300 cs (new_reader KSd) = Ok r ->
  exists w, history two_kinds 2 2 w /\ w_rd w 0 = r /\
    exists b w0 xs w', p_play_file 0 (Some fl) false nch (fun _ => 0) dirty w = Ok (b, w0) /\ wops 300 (rounds_ops 0 rounds) w0 = Ok (xs, w') /\ P xs w' = true.
Proof.
  intros cs fl nch rounds P r E C. destruct (wops 300 (booth cs) (world0 two_kinds 2)) as [[x0 w]| |] eqn:E0; [|discriminate..].
  destruct (p_play_file 0 (Some fl) false nch (fun _ => 0) dirty w) as [[b w0]| |] eqn:E1; [|discriminate..]. destruct (wops 300 (rounds_ops 0 rounds) w0) as [[xs w']| |] eqn:E2; [|discriminate..].
  exists w. split; [|split; [|exists b, w0, xs, w'; auto]].
  - exists 300%nat, (booth cs), x0. split; [lia|]. unfold booth in *. rewrite !Forall_app. split; [split; [repeat constructor|]|split; [split; [repeat constructor|]|split; [split; [repeat constructor|]|exact E0]]];
      apply Forall_map, Forall_forall; intros c _; exact I.
  - unfold booth in E0. apply wops_app in E0. destruct E0 as (y1 & w1 & y2 & A & B & _). pose proof (untouched 0 1 _ _ _ _ _ _ _ _ _ _ ltac:(discriminate) A) as R.
    change (w_rd (world0 two_kinds 2) 0) with (new_reader KSd) in R. apply wops_calls in B. rewrite R, C in B. apply Ok_inj in B. exact (eq_sym B).
Qed.

Definition calm : list round :=
  [(some_blocks, [WUpdate 1 some_blocks; WYield; WYield]); (no_second, [WYield; WYield; WYield]);
   (some_blocks, [WYield; WUpdate 1 some_blocks; WYield]); (some_blocks, [WYield; WYield; WStop 1 []])].
Lemma calm_ok : Forall (round_ok two_kinds 2 0) calm.
Proof. repeat constructor; cbn; try discriminate; try lia; try tauto. Qed.
Lemma calm_gets : map (StageSpec.gets 2) calm = [true; false; true; true]. Proof. reflexivity. Qed.

Definition chime (k : Z) : Z := file_sample (ramp_file 60000) k.
Definition disc_check (l : loop_type) (xs : list wout) (w : world) : bool :=
  Nat.eqb (length (heard 0 xs)) 4 && r_playing (w_rd w 0) && (at_out xs 0 0 127 =? chime (2 * 127)) && Nat.eqb (length (nth 1 (heard 0 xs) [])) 0 &&
  (at_out xs 2 0 71 =? chime (2 * 199)) && (at_out xs 2 1 72 =? chime (2 * (match l with LRepeat => 100 | _ => 198 end) + 1)).
Definition disc_calls (l : loop_type) : list call := [CLoopType l; CLoopStart 100; CLoopFinish 200].
Definition disc (l : loop_type) : reader := sd_loop l 100 200 PSample 0.

Lemma disc_tuned : forall l, calls_run 300 (disc_calls l) (new_reader KSd) = Ok (disc l).
Proof. intro l. reflexivity. Qed.
Lemma disc_case : forall l, l <> LNone -> exists w, history two_kinds 2 2 w /\ (0 < 2)%nat /\ two_kinds 0 <> KArray /\
  basic_settings (w_rd w 0) l PSample 0 /\ r_ls (w_rd w 0) = 100 /\ r_lf (w_rd w 0) = 200 /\ r_hdr (w_rd w 0) = 0 /\
  0 < fsize (ramp_file 60000) < 2 ^ 31 /\ 200 <= fsize (ramp_file 60000) / 2 / Z.of_nat 2 /\
  fin64 (r_rate (w_rd w 0)) = true /\ R64 (r_rate (w_rd w 0)) = (IZR 1 * bpow radix2 (- 0))%R /\ ((R64 (r_rate (w_rd w 0)) + 1) * INR 2 <= IZR (2 ^ 30))%R /\
  buffers_fill (cfg_of (two_kinds 0)) (ramp_file 60000) (0 * 2) /\ loop_ahead (cfg_of (two_kinds 0)) (0 * 2) (100 * 2) (200 * 2) /\
  loop_buffered (cfg_of (two_kinds 0)) (0 * 2) (100 * 2) (200 * 2) /\
  Forall (round_ok two_kinds 2 0) calm /\
  exists b w0 xs w', p_play_file 0 (Some (ramp_file 60000)) false (Z.of_nat 2) (fun _ => 0) dirty w = Ok (b, w0) /\ wops 300 (rounds_ops 0 calm) w0 = Ok (xs, w') /\ disc_check l xs w' = true.
Proof.
  intros l NL. destruct (booth_case (disc_calls l) (ramp_file 60000) (Z.of_nat 2) calm (disc_check l) _ ltac:(destruct l; [congruence|vm_compute; reflexivity..]) (disc_tuned l)) as (w & H & R & E).
  exists w. split; [exact H|]. split; [lia|]. split; [discriminate|]. rewrite R. split; [repeat split|]. split; [reflexivity|]. split; [reflexivity|]. split; [reflexivity|].
  split; [cbn; lia|]. split; [vm_compute; congruence|]. change (r_rate (disc l)) with d1. split; [reflexivity|]. rewrite R64_d1. change (INR 2) with 2%R.
  split; [cbn; lra|]. split; [cbn; lra|]. split; [vm_compute; reflexivity|]. split; [left; vm_compute; congruence|]. split; [split; vm_compute; congruence|]. split; [exact calm_ok|exact E].
Qed.

Definition film_check (ip : interp) (xs : list wout) (w : world) : bool :=
  Nat.eqb (length (heard 0 xs)) 4 && negb (r_playing (w_rd w 0)) &&
  match ip with ILinear => (at_out xs 0 0 5 =? 6) && (at_out xs 0 0 86 =? 192) && (at_out xs 2 0 71 =? 553) | _ => (at_out xs 0 0 5 =? 4) && (at_out xs 0 0 86 =? 117) && (at_out xs 2 0 71 =? 551) end &&
  (at_out xs 2 0 72 =? 0) && Nat.eqb (length (nth 3 (heard 0 xs) [])) 0.
Lemma film_case : forall ip, ip <> INone -> exists w, history two_kinds 2 2 w /\ (0 < 2)%nat /\ two_kinds 0 <> KArray /\ (1 <= 2 <= 8)%nat /\
  interp_settings ip (w_rd w 0) LNone PSample 0 /\ grid_rate (r_rate (w_rd w 0)) /\ (0 < R64 (r_rate (w_rd w 0)) <= 1)%R /\ room (cfg_of (two_kinds 0)) 2 128 1 /\
  r_hdr (w_rd w 0) = 0 /\ 0 < fsize (ramp_file 600) < 2 ^ 31 /\ Forall (round_ok two_kinds 2 0) calm /\
  exists b w0 xs w', p_play_file 0 (Some (ramp_file 600)) false (Z.of_nat 2) (fun _ => 0) dirty w = Ok (b, w0) /\ wops 300 (rounds_ops 0 calm) w0 = Ok (xs, w') /\ film_check ip xs w' = true.
Proof.
  intros ip NI. destruct (booth_case (blend_calls ip) (ramp_file 600) (Z.of_nat 2) calm (film_check ip) _ ltac:(destruct ip; [congruence|vm_compute; reflexivity..]) (blend_tuned ip KSd)) as (w & H & R & E).
  exists w. split; [exact H|]. split; [lia|]. split; [discriminate|]. split; [lia|]. rewrite R. split; [repeat split|].
  change (r_rate (new_reader KSd <| r_interp := ip |> <| r_rate := dthree_quarters |>)) with dthree_quarters. destruct three_quarters as [G V]. split; [exact G|]. rewrite V.
  split; [lra|]. split; [vm_compute; congruence|]. split; [reflexivity|]. split; [cbn; lia|]. split; [exact calm_ok|exact E].
Qed.
