(* C13, C14, C15, C43, C44: lemmas stated as in Props_Loop.v, and their cases. *)

From Coq Require Import ZArith Lia List Bool Reals Lra.
From RecordUpdate Require Import RecordUpdate.
From Flocq Require Import Core.Core IEEE754.BinarySingleNaN.
From Verif Require Import Machine Floats FloatFacts WavModel InterpModel CacheModel ReaderModel
  ReaderFacts ReaderSpec Sessions StreamFacts Walk ForwardProofs PlayProofs LoopSpec LoopProofs HistSpec HistProofs.
Import ListNotations.
Local Open Scope Z_scope.

Lemma no_ub : forall fuel o r, reach r -> aop_ok o r ->
  aop_run fuel o r = NoFuel \/ exists out r', aop_run fuel o r = Ok (out, r').
Proof.
  intros fuel o r H OK. destruct (hinv_step fuel o r (reach_hinv r H) OK) as [E|(out & r' & E & _)]; eauto.
Qed.

Lemma frames_of_source : forall r m off fuel n fr r', reach r -> r_src r = SArr m off ->
  r_read fuel r n = Ok (fr, r') ->
  Forall (good_frame m off (Z.to_nat (r_nch r)) (r_fsamples r)) fr.
Proof.
  intros r m off fuel n fr r' H S E. apply reach_hinv in H.
  destruct (r_playing r) eqn:P.
  - destruct (hinv_hread r H P) as (m' & off' & nch & HR).
    assert (m' = m /\ off' = off) as [-> ->].
    { destruct HR as (_ & _ & _ & i & HP). rewrite (hp_src _ _ _ _ _ HP) in S. inversion S; auto. }
    rewrite (pl_nch _ _ _ (hread_plain _ _ _ _ HR)), Nat2Z.id.
    destruct (hread_read m off nch fuel r n HR) as [E'|(fr' & r2 & E' & _ & A)]; congruence.
  - unfold r_read in E. rewrite P in E. inversion E; subst. constructor.
Qed.

Lemma loop_endless : forall r n, reach r -> r_playing r = true -> loop_good r ->
  exists fuel fr r', r_read fuel r (Z.of_nat n) = Ok (fr, r') /\ length fr = n /\
    reach r' /\ r_playing r' = true /\ loop_good r'.
Proof.
  intros r n H P G. pose proof (reach_hinv r H) as HI.
  destruct (hinv_hread r HI P) as (m & off & nch & HR).
  destruct (loop_frames m off nch n r HR G) as (F & fr & r' & E & LN & K & HR').
  assert (E2 : r_read F r (Z.of_nat n) = Ok (fr, r')).
  { unfold r_read. rewrite P. cbn [negb].
    destruct (Z.ltb_spec (r_nch r) 0); [rewrite (pl_nch _ _ _ (hread_plain _ _ _ _ HR)) in *; lia|]. exact E. }
  exists F, fr, r'. split; [auto|]. split; [auto|].
  split; [eapply (reach_op F (OpRead n)); [exact H|exact Logic.I|exact E2]|].
  split; [apply HR'|]. eapply loop_good_keeps; eauto.
Qed.

(* ---- concrete histories ------------------------------------------------- *)

Definition after (fuel : nat) (o : aop) (r : reader) : reader :=
  match aop_run fuel o r with Ok (_, r') => r' | _ => r end.
Definition runs_ok (fuel : nat) (o : aop) (r : reader) : bool :=
  match aop_run fuel o r with Ok _ => true | _ => false end.

Lemma reach_after : forall fuel o r, reach r -> aop_ok o r -> runs_ok fuel o r = true -> reach (after fuel o r).
Proof.
  intros fuel o r H OK E. unfold after, runs_ok in *. destruct (aop_run fuel o r) as [[out r']| |] eqn:X; try discriminate.
  eapply reach_op; eauto.
Qed.

(* Samples 0, 1, 2, ... *)
Definition ramp (n : Z) : mem := mkMem (2 * n) (fun i => if Z.even i then i / 2 else 0).

Definition hg0 := new_reader KArray.
Definition hg1 := after 9 (OpPlay (ramp 8) 0 4 2) hg0.
Definition hg2 := after 9 (OpLoopType LRepeat) hg1.
Definition hg3 := after 9 (OpRate dm1) hg2.
Definition hg4 := after 9 (OpPlayStart PLoop 0) hg3.
Definition hg5 := after 9 (OpLoopStart 3) hg4.
Definition hg6 := after 9 (OpRead 1) hg5.

Lemma dm1_ok : is_finite dm1 = true /\ (Rabs (B2R dm1) <= IZR (2 ^ 14))%R.
Proof.
  split; [reflexivity|]. change (B2R dm1) with (R64 dm1). rewrite R64_dm1. replace (Rabs (-1)) with 1%R by (rewrite Rabs_left; lra). apply IZR_le. lia.
Qed.

Lemma dm1_parked : forall a b, parked dm1 a b.
Proof. intros a b H. change (B2R dm1) with (R64 dm1) in H. rewrite R64_dm1 in H. lra. Qed.

Lemma pos_parked : forall x a b, is_finite x = true -> dlt d0 x = true -> parked x a b.
Proof.
  intros x a b F H Z0. rewrite dlt_R in H by auto using fin_d0. rewrite R64_d0 in H.
  change (R64 x = 0%R) in Z0. rewrite Z0 in H. destruct (Rlt_bool_spec 0 0); [lra|discriminate].
Qed.

Lemma ramp_holds : forall n len nch, 0 <= len -> len * Z.of_nat nch <= n -> n < 2 ^ 30 -> (1 <= nch)%nat ->
  Z.of_nat nch < 2 ^ 15 -> array_holds (ramp n) 0 len nch.
Proof. intros. unfold array_holds, ramp. cbn [msize]. repeat split; auto; lia. Qed.

Lemma hg_reach : reach hg6.
Proof.
  assert (R1 : reach hg1).
  { apply reach_after; [constructor| |vm_compute; reflexivity]. split; [apply ramp_holds; cbn; lia|].
    split; [left; reflexivity|]. intro H. change (R64 d1 = 0%R) in H. rewrite R64_d1 in H. lra. }
  assert (R2 : reach hg2) by (apply reach_after; [auto|exact Logic.I|vm_compute; reflexivity]).
  assert (R3 : reach hg3).
  { apply reach_after; [auto| |vm_compute; reflexivity]. split; [apply dm1_ok|]. split; [apply dm1_ok|].
    split; [|apply dm1_parked]. intros _. left. vm_compute. discriminate. }
  assert (R4 : reach hg4) by (apply reach_after; [auto|exact Logic.I|vm_compute; reflexivity]).
  assert (R5 : reach hg5).
  { apply reach_after; [auto| |vm_compute; reflexivity]. cbn [aop_ok].
    replace (r_fsamples hg4) with 4 by (vm_compute; reflexivity). lia. }
  apply reach_after; [auto|exact Logic.I|vm_compute; reflexivity].
Qed.

(* A stereo loop of one frame, played backwards, hangs *)
Lemma loop_hang : exists r, reach r /\ r_playing r = true /\ r_loop r = LRepeat /\ 0 <= r_ls r < r_lf r /\
  r_lf r <= r_fsamples r /\ forall fuel, r_read fuel r 1 = NoFuel.
Proof.
  exists hg6. split; [exact hg_reach|]. split; [vm_compute; reflexivity|]. split; [vm_compute; reflexivity|].
  replace (r_ls hg6) with 3 by (vm_compute; reflexivity). replace (r_lf hg6) with 4 by (vm_compute; reflexivity).
  replace (r_fsamples hg6) with 4 by (vm_compute; reflexivity). split; [lia|]. split; [lia|].
  destruct (hinv_hread hg6 (reach_hinv _ hg_reach) ltac:(vm_compute; reflexivity)) as (m & off & nch & HR).
  assert (N : Z.of_nat nch = 2).
  { rewrite <- (pl_nch _ _ _ (hread_plain _ _ _ _ HR)). vm_compute. reflexivity. }
  apply (repeat_hang_bwd m off nch); auto; try (vm_compute; reflexivity).
  rewrite N. vm_compute. reflexivity.
Qed.

(* An empty loop hangs *)
Definition he2 := after 9 (OpLoopFinish 0) hg2.
Lemma empty_hang : exists r, reach r /\ r_playing r = true /\ r_loop r = LRepeat /\ r_ls r = r_lf r /\
  forall fuel, r_read fuel r 1 = NoFuel.
Proof.
  assert (R1 : reach hg1).
  { apply reach_after; [constructor| |vm_compute; reflexivity]. split; [apply ramp_holds; cbn; lia|].
    split; [left; reflexivity|]. intro H. change (R64 d1 = 0%R) in H. rewrite R64_d1 in H. lra. }
  assert (R2 : reach hg2) by (apply reach_after; [auto|exact Logic.I|vm_compute; reflexivity]).
  assert (R3 : reach he2).
  { apply reach_after; [auto| |vm_compute; reflexivity]. cbn [aop_ok].
    replace (r_fsamples hg2) with 4 by (vm_compute; reflexivity). split; [lia|].
    apply pos_parked; vm_compute; reflexivity. }
  exists he2. split; [auto|]. split; [vm_compute; reflexivity|]. split; [vm_compute; reflexivity|].
  split; [vm_compute; reflexivity|].
  destruct (hinv_hread he2 (reach_hinv _ R3) ltac:(vm_compute; reflexivity)) as (m & off & nch & HR).
  apply (repeat_hang_fwd m off nch); auto; try (vm_compute; reflexivity). vm_compute. discriminate.
Qed.

(* A playable loop *)
Lemma loop_good_case : reach hg2 /\ r_playing hg2 = true /\ loop_good hg2.
Proof.
  split; [|split; [vm_compute; reflexivity|]].
  - assert (R1 : reach hg1).
    { apply reach_after; [constructor| |vm_compute; reflexivity]. split; [apply ramp_holds; cbn; lia|].
      split; [left; reflexivity|]. intro H. change (R64 d1 = 0%R) in H. rewrite R64_d1 in H. lra. }
    apply reach_after; [auto|exact Logic.I|vm_compute; reflexivity].
  - split; [|split].
    + replace (r_loop hg2) with LRepeat by (vm_compute; reflexivity). discriminate.
    + vm_compute. reflexivity.
    + intros _ H. exfalso. vm_compute in H. discriminate.
Qed.

(* Reversing exactly at the end of the array reads past it *)
Lemma reversal_oob : exists m len fuel, array_holds m 0 len 1 /\
  aop_runs fuel [OpPlay m 0 len 1; OpRead 4; OpRate dm1; OpRead 1] (new_reader KArray) = UB UbOutOfBounds.
Proof.
  exists (ramp 4), 4, 9%nat. split; [apply ramp_holds; cbn; lia|]. vm_compute. reflexivity.
Qed.

(* At rate zero a ping-pong loop that finishes in the first frames reads before the array *)
Lemma parked_oob : exists m len fuel, array_holds m 0 len 2 /\
  aop_runs fuel [OpPlay m 0 len 2; OpLoopType LPingpong; OpRead 2; OpRate d0; OpLoopFinish 1; OpRead 1]
    (new_reader KArray) = UB UbOutOfBounds.
Proof.
  exists (ramp 8), 4, 9%nat. split; [apply ramp_holds; cbn; lia|]. vm_compute. reflexivity.
Qed.

(* Started backwards, a stereo array of odd length has its channels swapped *)
Lemma swapped : exists m len fuel fr r', array_holds m 0 len 2 /\
  aop_runs fuel [OpRate dm1; OpPlay m 0 len 2; OpRead 1] (new_reader KArray) = Ok ([[]; []; [fr]], r') /\
  ~ good_frame m 0 2 len fr.
Proof.
  exists (ramp 6), 3, 9%nat, [1; 2].
  destruct (aop_runs 9 [OpRate dm1; OpPlay (ramp 6) 0 3 2; OpRead 1] (new_reader KArray)) as [[b r']| |] eqn:E.
  - exists r'. split; [apply ramp_holds; cbn; lia|]. split.
    + f_equal. f_equal. apply (f_equal (fun x => match x with Ok (b, _) => b | _ => [] end)) in E.
      rewrite <- E. vm_compute. reflexivity.
    + intros (i & Hi & X). assert (i = 0 \/ i = 1 \/ i = 2) as [ -> | [ -> | -> ] ] by lia; vm_compute in X; discriminate.
  - exfalso. apply (f_equal (fun x => match x with Ok _ => true | _ => false end)) in E. vm_compute in E. discriminate.
  - exfalso. apply (f_equal (fun x => match x with Ok _ => true | _ => false end)) in E. vm_compute in E. discriminate.
Qed.

(* ---- C43 ------------------------------------------------------------------- *)

(* Position of frame n of the audio *)
Definition frame_pos (r : reader) (n : Z) : Z := r_hdr r + n * r_nch r.

Lemma spos_frame : forall r n, in_s32 (frame_pos r n) -> spos r n = frame_pos r n.
Proof. intros r n H. unfold spos, sts. rewrite s32_u32. now apply s32_id. Qed.

Lemma rate_moves : forall r x, r_dual r = false -> is_finite x = true ->
  0 <= r_ls r <= r_fsamples r -> 0 <= r_lf r <= r_fsamples r -> 0 <= r_nch r ->
  0 <= r_hdr r -> frame_pos r (r_fsamples r) < 2 ^ 31 ->
  r_nch r < 2 ^ 31 -> r_fsamples r < 2 ^ 31 ->
  setPlaybackRate r x = Ok (r <| r_rate := x |> <| r_pos1 :=
    if Rlt_bool (B2R x) 0 then
      if r_pos1 r <=? r_hdr r
      then frame_pos r (match r_pstart r with PSample => r_fsamples r | _ => r_lf r end - 1)
      else r_pos1 r
    else
      if r_pos1 r <? r_hdr r
      then frame_pos r (match r_pstart r with PSample => 0 | _ => r_ls r end)
      else r_pos1 r |>).
Proof.
  intros r x D F LS LF N H M N2 M2. unfold frame_pos in M.
  assert (SP : forall n, -1 <= n <= r_fsamples r -> spos (r <| r_rate := x |>) n = frame_pos r n).
  { intros n Hn. apply (spos_frame r). unfold frame_pos, in_s32. nia. }
  assert (ID : forall p, p = r_pos1 r -> r <| r_rate := x |> = r <| r_rate := x |> <| r_pos1 := p |>).
  { intros p ->. destruct r; reflexivity. }
  unfold setPlaybackRate. set (r0 := r <| r_rate := x |>) in *.
  change (r_dual r0) with (r_dual r). rewrite D. cbn [negb].
  change (r_pos1 r0) with (r_pos1 r). change (r_hdr r0) with (r_hdr r).
  change (r_pstart r0) with (r_pstart r). change (r_fsamples r0) with (r_fsamples r).
  change (r_lf r0) with (r_lf r). change (r_ls r0) with (r_ls r).
  rewrite dlt_R by (auto using fin_d0). rewrite R64_d0.
  destruct (Rlt_bool_spec (R64 x) 0) as [C|C].
  - destruct (r_pos1 r <=? r_hdr r); [|f_equal; auto].
    set (n := match r_pstart r with PSample => r_fsamples r | _ => r_lf r end - 1).
    assert (-1 <= n <= r_fsamples r) by (unfold n; destruct (r_pstart r); lia).
    rewrite chk32_ok by (unfold in_s32; lia). cbn [bind]. now rewrite SP.
  - rewrite (dge0_true x F C). cbn [andb].
    destruct (r_pos1 r <? r_hdr r); [|f_equal; auto].
    rewrite SP by (destruct (r_pstart r); lia). reflexivity.
Qed.

(* ---- C44 ------------------------------------------------------------------- *)

Lemma loop_here : forall m off len nch r i n, array_holds m off len nch ->
  plain 0 nch r -> r_src r = SArr m off -> is_finite (r_rate r) = true -> B2R (r_rate r) = 1%R ->
  dlt (r_cf r) d1 = true -> is_finite (r_rem r) = true -> B2R (r_rem r) = 0%R -> r_pos1 r = i * Z.of_nat nch ->
  0 <= i -> 1 <= n -> i + n <= len ->
  exists r', r_loop_from_here r n = Ok r' /\
    delivers r' (endless_stream (fun k => src_frame m off nch (i + Z.of_nat k mod n))).
Proof.
  intros m off len nch r i n A PL SR RTF RT CF RF R0 PO HI HN HL.
  pose proof A as (A1 & A2 & A3 & A4 & A5 & A6).
  assert (LB : len < 2 ^ 30) by nia.
  unfold r_loop_from_here. rewrite CF, PO, (pl_nch _ _ _ PL).
  unfold sdiv32. destruct (Z.eqb_spec (Z.of_nat nch) 0); [lia|].
  rewrite Z.quot_mul by lia. rewrite chk32_ok by (unfold in_s32; lia). cbn [bind].
  rewrite s32_u32, s32_id by (unfold in_s32; lia).
  eexists. split; [reflexivity|].
  set (r' := r <| r_ls := i |> <| r_lf := i + n |> <| r_loop := LRepeat |>).
  assert (PL' : plain 0 nch r') by (destruct PL; constructor; auto).
  assert (SR' : r_src r' = SArr m off) by exact SR.
  assert (E : with_loop r' i (i + n) = r').
  { assert (LS : r_ls r' = i) by reflexivity. assert (LF : r_lf r' = i + n) by reflexivity.
    clearbody r'. unfold with_loop, setLoopStart, setLoopFinish.
    rewrite !s32_id by (unfold in_s32; lia).
    change (r_src (r' <| r_ls := i |>)) with (r_src r'). rewrite SR'.
    change (r_src (r' <| r_ls := i |> <| r_lf := i + n |>)) with (r_src r'). rewrite SR'.
    destruct r'; cbn in LS, LF; subst; reflexivity. }
  rewrite <- E. eapply delivers_ext; [|apply (loop_delivers m off len nch r' LRepeat (r_pstart r') i (i + n) (r_rate r) 1 0 i false A)];
    auto; try lia; try discriminate.
  - intros k. unfold endless_stream, loop_of. cbn [loop_eqb]. change (2 ^ 0) with 1.
    rewrite orbit_repeat by lia. f_equal. f_equal. unfold repeat_frame.
    rewrite Z.max_r by lia. replace (i + n - i) with n by lia.
    destruct (Z.ltb_spec (i + Z.of_nat k) (i + n)).
    + rewrite Z.mod_small by lia. reflexivity.
    + replace (i + Z.of_nat k - (i + n)) with (Z.of_nat k + (-1) * n) by lia. now rewrite Z_mod_plus_full.
  - change (B2R (r_rate r) = (1 * 1)%R). lra.
  - change (R64 (r_rate r)) with (B2R (r_rate r)). rewrite RT. pose proof (d1_bound nch ltac:(auto)) as B. now rewrite R64_d1 in B.
Qed.

(* loop() while playing the WAV data of a memory position with a header: the
   header is counted twice *)
Lemma loop_here_header : forall r n h i, r_hdr r = h -> dlt (r_cf r) d1 = true -> 0 < r_nch r ->
  r_pos1 r = h + i * r_nch r -> 0 <= h -> 0 <= i -> 0 <= n -> h + (i + n) * r_nch r < 2 ^ 31 ->
  exists r', r_loop_from_here r n = Ok r' /\ r_ls r' = i + h / r_nch r /\ r_lf r' = i + h / r_nch r + n.
Proof.
  intros r n h i H CF NC PO Hh Hi Hn B. unfold r_loop_from_here. rewrite CF, PO.
  unfold sdiv32. destruct (Z.eqb_spec (r_nch r) 0); [lia|].
  rewrite Z.quot_div_nonneg by nia. rewrite Z.div_add by lia.
  assert (0 <= h / r_nch r <= h) by (split; [apply Z.div_pos; lia|apply Z.div_le_upper_bound; nia]).
  assert (h / r_nch r * r_nch r <= h) by (pose proof (Z.mul_div_le h (r_nch r)); lia).
  assert (i + n + h / r_nch r < 2 ^ 31) by nia.
  rewrite chk32_ok by (unfold in_s32; lia). cbn [bind].
  rewrite s32_u32, s32_id by (unfold in_s32; lia).
  eexists. split; [reflexivity|]. cbn. lia.
Qed.

(* ---- loops: cases and counterexamples ---------------------------------- *)

Definition loop_reader (l : loop_type) (ps : play_start) (x : b64) : reader :=
  setPlayStart (setLoopType (ex_reader x) l) ps 0.

Lemma loop_reader_basic : forall l ps x, basic_settings (loop_reader l ps x) l ps 0.
Proof. intros l ps x. unfold basic_settings. repeat split. Qed.

(* The blocks a program delivers *)
Definition shown (p : res (list (list Z) * reader)) : res (list (list Z)) :=
  '(b, _) <- p ;; Ok b.

(* The loop 2..3 of a mono array started from the beginning: the way back goes
   to frame 0 *)
Lemma pingpong_leaves : exists m len r ls lf fuel, array_holds m 0 len 1 /\
  basic_settings r LPingpong PSample 0 /\ r_rate r = d1 /\ 0 <= ls < lf /\ lf <= len /\
  exists b, shown (r1 <- playRaw_array r m 0 len 1 ;; r_read fuel (with_loop r1 ls lf) 8) = Ok b /\
    (* the last frame delivered is outside the loop *)
    nth 7 b [] = src_frame m 0 1 0 /\ forall i, ls <= i < lf -> nth 7 b [] <> src_frame m 0 1 i.
Proof.
  exists (ramp 6), 6, (loop_reader LPingpong PSample d1), 2, 4, 20%nat.
  split; [apply ramp_holds; cbn; lia|]. split; [apply loop_reader_basic|]. split; [reflexivity|].
  split; [lia|]. split; [lia|]. exists [[0]; [1]; [2]; [3]; [3]; [2]; [1]; [0]].
  split; [vm_compute; reflexivity|]. split; [vm_compute; reflexivity|].
  intros i Hi. assert (i = 2 \/ i = 3) as [ -> | -> ] by lia; vm_compute; discriminate.
Qed.

(* Three channels, started from the loop: the turn at the top skips a frame *)
Lemma pingpong_skips : exists m len r ls lf fuel, array_holds m 0 len 3 /\
  basic_settings r LPingpong PLoop 0 /\ r_rate r = d1 /\ 0 <= ls < lf /\ lf <= len /\
  exists b, shown (r1 <- playRaw_array r m 0 len 3 ;; r_read fuel (with_loop r1 ls lf) 5) = Ok b /\
    nth 3 b [] = src_frame m 0 3 3 /\ nth 4 b [] = src_frame m 0 3 1.
Proof.
  exists (ramp 12), 4, (loop_reader LPingpong PLoop d1), 0, 4, 20%nat.
  split; [apply ramp_holds; cbn; lia|]. split; [apply loop_reader_basic|]. split; [reflexivity|].
  split; [lia|]. split; [lia|]. exists [[0; 1; 2]; [3; 4; 5]; [6; 7; 8]; [9; 10; 11]; [3; 4; 5]].
  split; [vm_compute; reflexivity|]. split; vm_compute; reflexivity.
Qed.

(* The triangle stays in the loop once it has entered it *)
Lemma triangle_inside : forall start finish top p k, start < finish -> top < finish -> p < finish ->
  finish <= p + Z.of_nat k -> start <= triangle_frame start finish top p k < finish.
Proof.
  intros start finish top p k H1 H2 H3 H4. unfold triangle_frame.
  destruct (Z.ltb_spec (p + Z.of_nat k) finish); [lia|].
  set (d := Z.max 0 (top - start + 1)).
  pose proof (Z.mod_pos_bound (p + Z.of_nat k - Z.max p finish) (d + (finish - start)) ltac:(lia)) as B.
  set (x := _ mod _) in *. destruct (Z.ltb_spec x d); lia.
Qed.

(* Mono: one period is start..finish-1 backwards then forwards *)
Lemma triangle_mono : forall start finish p j, start < finish -> p <= finish -> 0 <= j ->
  let P := 2 * (finish - start) in
  let x := j mod P in
  triangle_frame start finish (finish - 1) p (Z.to_nat (finish - p + j)) =
    if x <? finish - start then finish - 1 - x else start + (x - (finish - start)).
Proof.
  intros start finish p j H1 H2 H3 P x. unfold triangle_frame. rewrite Z2Nat.id by lia.
  replace (p + (finish - p + j)) with (finish + j) by lia.
  destruct (Z.ltb_spec (finish + j) finish); [lia|].
  rewrite (Z.max_r p finish) by lia. rewrite Z.max_r by lia.
  replace (finish + j - finish) with j by lia.
  replace (finish - 1 - start + 1 + (finish - start)) with P by (unfold P; lia).
  replace (finish - 1 - start + 1) with (finish - start) by lia. reflexivity.
Qed.

(* A repeat loop is periodic once it has been entered *)
Lemma repeat_periodic : forall start finish p k, start < finish -> p <= finish -> 0 <= k ->
  repeat_frame start finish p (Z.to_nat (finish - p + k)) = start + k mod (finish - start).
Proof.
  intros start finish p k H1 H2 H3. unfold repeat_frame. rewrite Z2Nat.id by lia.
  destruct (Z.ltb_spec (p + (finish - p + k)) finish); [lia|].
  rewrite Z.max_r by lia. f_equal. f_equal. lia.
Qed.

Lemma three_eighths_case :
  let r := loop_reader LPingpong PSample (d_of_me 3 (-3)) in
  array_holds (ramp 12) 0 6 2 /\ basic_settings r LPingpong PSample 0 /\ is_finite (r_rate r) = true /\
  B2R (r_rate r) = (IZR 3 * bpow radix2 (- 3))%R /\ ((B2R (r_rate r) + 1) * INR 2 <= IZR (2 ^ 30))%R.
Proof.
  cbv zeta. destruct (grid_me 3 3 ltac:(lia) ltac:(lia)) as [V G]. cbn [Z.opp] in *.
  split; [apply ramp_holds; cbn; lia|]. split; [apply loop_reader_basic|].
  change (r_rate (loop_reader LPingpong PSample (d_of_me 3 (-3)))) with (d_of_me 3 (-3)).
  split; [apply G|]. change (B2R (d_of_me 3 (-3))) with (R64 (d_of_me 3 (-3))). rewrite V.
  split; [reflexivity|]. cbn. lra.
Qed.

Lemma back_three_eighths_case :
  let r := loop_reader LRepeat PSample (d_of_me (-3) (-3)) in
  array_holds (ramp 12) 0 6 2 /\ basic_settings r LRepeat PSample 0 /\ is_finite (r_rate r) = true /\
  B2R (r_rate r) = (- (IZR 3 * bpow radix2 (- 3)))%R /\ ((- B2R (r_rate r) + 1) * INR 2 <= IZR (2 ^ 30))%R.
Proof.
  cbv zeta. destruct (grid_me (-3) 3 ltac:(lia) ltac:(lia)) as [V G]. cbn [Z.opp] in *.
  split; [apply ramp_holds; cbn; lia|]. split; [apply loop_reader_basic|].
  change (r_rate (loop_reader LRepeat PSample (d_of_me (-3) (-3)))) with (d_of_me (-3) (-3)).
  split; [apply G|]. change (B2R (d_of_me (-3) (-3))) with (R64 (d_of_me (-3) (-3))). rewrite V.
  split; [cbn; lra|]. cbn. lra.
Qed.

(* A state in the middle of a playback, for loop(n) *)
Definition lh1 := after 9 (OpPlay (ramp 12) 0 6 2) hg0.
Definition lh2 := after 9 (OpRead 2) lh1.
Lemma deq_eq : forall x y, fin64 x = true -> fin64 y = true -> deq x y = true -> R64 x = R64 y.
Proof.
  intros x y F G H. rewrite deq_R in H by auto.
  destruct (Req_bool_spec (R64 x) (R64 y)); [auto|discriminate].
Qed.

Lemma loop_here_case : array_holds (ramp 12) 0 6 2 /\ plain 0 2 lh2 /\ r_src lh2 = SArr (ramp 12) 0 /\
  is_finite (r_rate lh2) = true /\ B2R (r_rate lh2) = 1%R /\ dlt (r_cf lh2) d1 = true /\
  is_finite (r_rem lh2) = true /\ B2R (r_rem lh2) = 0%R /\
  r_pos1 lh2 = 2 * Z.of_nat 2.
Proof.
  split; [apply ramp_holds; cbn; lia|].
  assert (PL : plain 0 2 lh2) by (constructor; vm_compute; reflexivity).
  split; [exact PL|]. split; [vm_compute; reflexivity|]. split; [vm_compute; reflexivity|].
  split; [rewrite <- R64_d1; apply deq_eq; vm_compute; reflexivity|].
  split; [vm_compute; reflexivity|]. split; [vm_compute; reflexivity|].
  split; [|vm_compute; reflexivity].
  rewrite <- R64_d0. apply deq_eq; vm_compute; reflexivity.
Qed.

(* A reverse change in the middle of the playback, and one at its start *)
Lemma rate_case : reach lh2 /\ r_dual lh2 = false /\ 0 <= r_ls lh2 <= r_fsamples lh2 /\
  0 <= r_lf lh2 <= r_fsamples lh2 /\ 0 <= r_nch lh2 < 2 ^ 31 /\ 0 <= r_hdr lh2 /\
  frame_pos lh2 (r_fsamples lh2) < 2 ^ 31 /\ r_fsamples lh2 < 2 ^ 31.
Proof.
  split.
  { assert (R1 : reach lh1).
    { apply reach_after; [constructor| |vm_compute; reflexivity]. split; [apply ramp_holds; cbn; lia|].
      split; [left; reflexivity|]. intro H. change (R64 d1 = 0%R) in H. rewrite R64_d1 in H. lra. }
    apply reach_after; [auto|exact Logic.I|vm_compute; reflexivity]. }
  split; [vm_compute; reflexivity|]. repeat split; vm_compute; congruence.
Qed.

(* Ping-pong in mono, started from the loop or with the loop starting at frame 0 *)
Lemma pingpong_mono : forall m off len r ps pb ls lf, array_holds m off len 1 ->
  basic_settings r LPingpong ps pb -> (ps = PArbitrary -> 0 <= pb <= len) ->
  (ps = PSample -> ls = 0) ->
  r_rate r = d1 -> 0 <= ls < lf -> lf <= len ->
  exists r1, playRaw_array r m off len 1 = Ok r1 /\
    delivers (with_loop r1 ls lf) (endless_stream (fun k => src_frame m off 1
      (let p := match ps with PArbitrary => pb | _ => 0 end in
       let n := p + Z.of_nat k in
       if n <? lf then n
       else let x := (n - Z.max p lf) mod (2 * (lf - ls)) in
            if x <? lf - ls then lf - 1 - x else ls + (x - (lf - ls))))).
Proof.
  intros m off len r ps pb ls lf A B Hp Hs RT HL HF.
  destruct (pingpong_unity m off len 1 r ps pb ls lf A B Hp RT HL HF) as (r1 & E & D).
  exists r1. split; [exact E|]. eapply delivers_ext; [|exact D].
  intros k. unfold endless_stream. f_equal. f_equal.
  assert (L : match ps with PSample => 0 | _ => ls end = ls) by (destruct ps; auto; rewrite Hs; auto).
  rewrite L. unfold triangle_frame. cbv zeta.
  set (p := match ps with PArbitrary => pb | _ => 0 end).
  destruct (Z.ltb_spec (p + Z.of_nat k) lf); [reflexivity|].
  change (Z.of_nat 1) with 1. rewrite (Z.max_r 0 (lf - 1 - ls + 1)) by lia.
  replace (lf - 1 - ls + 1) with (lf - ls) by lia.
  replace (lf - ls + (lf - ls)) with (2 * (lf - ls)) by lia. reflexivity.
Qed.
