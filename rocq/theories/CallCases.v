(* Interrupted calls: concrete cases. *)

From Coq Require Import ZArith Lia List Bool Reals Lra.
From RecordUpdate Require Import RecordUpdate.
From Flocq Require Import Core.Core IEEE754.BinarySingleNaN.
From Verif Require Import Machine Floats FloatFacts WavModel CacheModel CacheFacts ReaderModel PlayerModel CacheSpec CacheFinal PlayerCases FadeCases
  ReplayCases FilePlay PlayProofs TapeCases CallModel CallSpec CallProofs CallTweak CallAtomic CallRate.
Import ListNotations.
Local Open Scope Z_scope.

Lemma split_one : forall A (x : A) l1 l2, [x] = l1 ++ l2 -> l1 = [] /\ l2 = [x] \/ l1 = [x] /\ l2 = [].
Proof. intros A x [|a l1] l2 H; [left; auto|]. right. injection H as -> H. symmetry in H. apply app_eq_nil in H. destruct H as [-> ->]. auto. Qed.

(* outcomes as booleans *)
Definition is_oob {A} (x : res A) : bool := match x with UB UbOutOfBounds => true | _ => false end.
Lemma is_oob_ok : forall A (x : res A), is_oob x = true -> x = UB UbOutOfBounds.
Proof. intros A [a|[]|]; try discriminate. reflexivity. Qed.
Definition is_ok {A} (x : res A) : bool := match x with Ok _ => true | _ => false end.
Lemma is_ok_ok : forall A (x : res A), is_ok x = true -> exists a, x = Ok a.
Proof. intros A [a|u|]; try discriminate. eauto. Qed.
Definition sounds (x : res (list seen * bool * reader)) (P : list seen -> bool) : bool := match x with Ok (o, _, _) => P o | _ => false end.
Lemma sounds_ok : forall x P, sounds x P = true -> exists o b r, x = Ok (o, b, r) /\ P o = true.
Proof. intros [[[o b] r]|u|] P H; try discriminate. eauto. Qed.
Lemma after_update : forall fuel l r (P : reader -> bool), match updates fuel l r with Ok (_, r1) => P r1 | _ => false end = true ->
  exists o r1, updates fuel l r = Ok (o, r1) /\ P r1 = true.
Proof. intros fuel l r P H. destruct (updates fuel l r) as [[o r1]|u|]; try discriminate. eauto. Qed.
Lemma started : forall e (P : reader -> bool), match e with Ok r => P r | _ => false end = true -> exists r, e = Ok r /\ P r = true.
Proof. intros [r|u|] P H; try discriminate. eauto. Qed.

(* An array that has played in reverse to its beginning, and is turned forwards: an update
   after the rate is written and before the position is corrected reads in front of the
   array *)
Definition turned (r : reader) : bool :=
  is_oob (interrupted 200 (rate_steps d1) [[]; [give]] r) &&
  is_ok (between 200 (rate_call d1) [] [give] r) && is_ok (between 200 (rate_call d1) [give] [] r).
Theorem rate_oob : exists r0 o r,
  playRaw_array (at_rate dm1 INone LNone) (ramp 16) 0 16 1 = Ok r0 /\ updates 200 [give] r0 = Ok (o, r) /\
  interrupted 200 (rate_steps d1) [[]; [give]] r = UB UbOutOfBounds /\
  forall l1 l2, [give] = l1 ++ l2 -> exists x, between 200 (rate_call d1) l1 l2 r = Ok x.
Proof.
  assert (C : match playRaw_array (at_rate dm1 INone LNone) (ramp 16) 0 16 1 with
    Ok r0 => match updates 200 [give] r0 with Ok (_, r) => turned r | _ => false end | _ => false end = true) by (vm_compute; reflexivity).
  apply started in C. destruct C as (r0 & E0 & C). apply after_update in C. destruct C as (o & r & E & C).
  unfold turned in C. rewrite !andb_true_iff in C. destruct C as ((C1 & C2) & C3). exists r0, o, r. split; [exact E0|]. split; [exact E|]. split; [now apply is_oob_ok|].
  intros l1 l2 S. apply split_one in S. destruct S as [[-> ->]|[-> ->]]; now apply is_ok_ok.
Qed.

(* A file just started and turned to reverse: an update between the two plays one sample
   and reports the end of the file *)
Definition event_is (e : Z) (o : list seen) : bool := match events o with [x] => x =? e | _ => false end.
Definition cut (r : reader) : bool :=
  sounds (interrupted 200 (rate_steps dm1) [[]; [give]] r) (event_is evClose) &&
  sounds (between 200 (rate_call dm1) [] [give] r) (event_is evReload) && sounds (between 200 (rate_call dm1) [give] [] r) (event_is evReload).
Lemma event_is_ok : forall e o, event_is e o = true -> events o = [e].
Proof. intros e o H. unfold event_is in H. destruct (events o) as [|x [|]]; try discriminate. apply Z.eqb_eq in H. now subst. Qed.
Theorem rate_cut : exists r o b r1,
  r_play_file (new_reader KSd) (Some (ramp_file 3000)) false 1 (fun _ => 0) dirty = Ok (true, r) /\
  interrupted 200 (rate_steps dm1) [[]; [give]] r = Ok (o, b, r1) /\ events o = [evClose] /\
  forall l1 l2, [give] = l1 ++ l2 -> exists o b r1, between 200 (rate_call dm1) l1 l2 r = Ok (o, b, r1) /\ events o = [evReload].
Proof.
  assert (C : match r_play_file (new_reader KSd) (Some (ramp_file 3000)) false 1 (fun _ => 0) dirty with
    Ok (b, r) => b && cut r | _ => false end = true) by (vm_compute; reflexivity).
  destruct (r_play_file (new_reader KSd) (Some (ramp_file 3000)) false 1 (fun _ => 0) dirty) as [[b r]|u|]; try discriminate.
  apply andb_true_iff in C. destruct C as [-> C]. unfold cut in C. rewrite !andb_true_iff in C. destruct C as ((C1 & C2) & C3).
  apply sounds_ok in C1. destruct C1 as (o & b & r1 & E1 & C1). exists r, o, b, r1. split; [reflexivity|]. split; [exact E1|]. split; [now apply event_is_ok|].
  intros l1 l2 S. apply split_one in S. destruct S as [[-> ->]|[-> ->]].
  - apply sounds_ok in C2. destruct C2 as (o2 & b2 & r2 & E & C2). exists o2, b2, r2. split; [exact E|now apply event_is_ok].
  - apply sounds_ok in C3. destruct C3 as (o2 & b2 & r2 & E & C3). exists o2, b2, r2. split; [exact E|now apply event_is_ok].
Qed.

(* In a loop over 100 samples, loop(10) at sample 28: an update between the writes of the
   new start and of the new end plays from 28 to 99 and goes on from 28.  Sample k has the
   value k + 1. *)
Definition loop_of (a b n : Z) : list Z := map (fun k => 1 + a + Z.of_nat k mod (b - a)) (seq 0 (Z.to_nat n)).
Definition run_of (a n : Z) : list Z := map (fun k => 1 + a + Z.of_nat k) (seq 0 (Z.to_nat n)).
Definition is_blocks (l : list (list Z)) (o : list seen) : bool := if list_eq_dec (list_eq_dec Z.eq_dec) (left_blocks o) l then true else false.
Lemma is_blocks_ok : forall l o, is_blocks l o = true -> left_blocks o = l.
Proof. intros l o H. unfold is_blocks in H. destruct (list_eq_dec _ _ _); [auto|discriminate]. Qed.
Definition mixed (r : reader) : bool :=
  sounds (interrupted 200 (loop_steps 10) [[]; []; []; [give]] r) (is_blocks [run_of 28 72 ++ run_of 28 56]) &&
  sounds (between 200 (loop_call 10) [] [give] r) (is_blocks [loop_of 28 38 128]) &&
  sounds (between 200 (loop_call 10) [give] [] r) (is_blocks [run_of 28 72 ++ run_of 0 56]).
Theorem loop_mixed : exists r0 o0 r o b r1,
  playRaw_array (at_rate d1 INone LRepeat) (ramp 100) 0 100 1 = Ok r0 /\ updates 200 [give] r0 = Ok (o0, r) /\
  interrupted 200 (loop_steps 10) [[]; []; []; [give]] r = Ok (o, b, r1) /\ left_blocks o = [run_of 28 72 ++ run_of 28 56] /\
  forall l1 l2, [give] = l1 ++ l2 -> exists o b r1, between 200 (loop_call 10) l1 l2 r = Ok (o, b, r1) /\
    (left_blocks o = [loop_of 28 38 128] \/ left_blocks o = [run_of 28 72 ++ run_of 0 56]).
Proof.
  assert (C : match playRaw_array (at_rate d1 INone LRepeat) (ramp 100) 0 100 1 with
    Ok r0 => match updates 200 [give] r0 with Ok (_, r) => mixed r | _ => false end | _ => false end = true) by (vm_compute; reflexivity).
  apply started in C. destruct C as (r0 & E0 & C). apply after_update in C. destruct C as (o0 & r & E & C).
  unfold mixed in C. rewrite !andb_true_iff in C. destruct C as ((C1 & C2) & C3).
  apply sounds_ok in C1. destruct C1 as (o & b & r1 & E1 & C1). exists r0, o0, r, o, b, r1. split; [exact E0|]. split; [exact E|]. split; [exact E1|]. split; [now apply is_blocks_ok|].
  intros l1 l2 S. apply split_one in S. destruct S as [[-> ->]|[-> ->]].
  - apply sounds_ok in C2. destruct C2 as (o2 & b2 & r2 & E2 & C2). exists o2, b2, r2. split; [exact E2|left; now apply is_blocks_ok].
  - apply sounds_ok in C3. destruct C3 as (o2 & b2 & r2 & E2 & C3). exists o2, b2, r2. split; [exact E2|right; now apply is_blocks_ok].
Qed.

(* Readers the positive statements speak of *)
Definition calm_b (r : reader) : bool :=
  negb (r_dual r) && loop_eqb (r_loop r) LNone && (r_nch r =? 2) && (is_finite (r_rem r) && deq (r_rem r) d0) && (r_pos1 r =? 256) && (r_hdr r =? 0) &&
  match r_pstart r with PSample => true | _ => false end.
Lemma calm_ok : forall r, calm_b r = true -> calm_head r /\ r_nch r = 2 /\ r_pos1 r = 256 /\ r_hdr r = 0 /\ loopless r.
Proof.
  intros r H. unfold calm_b in H. rewrite !andb_true_iff in H. destruct H as ((((((H1 & H2) & H3) & H4 & H5) & H6) & H7) & H8).
  apply negb_true_iff in H1. apply Z.eqb_eq in H3, H6, H7. assert (L : r_loop r = LNone) by (destruct (r_loop r); auto; discriminate).
  assert (P : r_pstart r = PSample) by (destruct (r_pstart r); auto; discriminate).
  assert (V : R64 (r_rem r) = 0%R) by (rewrite deq_R in H5 by (auto; reflexivity); apply Req_bool_true_inv in H5 || (destruct (Req_bool_spec (R64 (r_rem r)) (R64 d0)); [auto|discriminate])).
  repeat split; auto; try lia. rewrite V, Rabs_R0. lra.
Qed.
Lemma calm_case : exists r0 o r, playRaw_array (at_rate d1 INone LNone) (ramp 2000) 0 2000 2 = Ok r0 /\ updates 200 [give] r0 = Ok (o, r) /\
  calm_head r /\ r_nch r = 2 /\ r_pos1 r = 256 /\ r_hdr r = 0 /\ loopless r.
Proof.
  assert (C : match playRaw_array (at_rate d1 INone LNone) (ramp 2000) 0 2000 2 with
    Ok r0 => match updates 200 [give] r0 with Ok (_, r) => calm_b r | _ => false end | _ => false end = true) by (vm_compute; reflexivity).
  apply started in C. destruct C as (r0 & E0 & C). apply after_update in C. destruct C as (o0 & r & E & C). exists r0, o0, r. split; [exact E0|]. split; [exact E|]. now apply calm_ok.
Qed.

(* playRaw over a playing array, an update before each of its steps: two updates play the
   old array, thirteen do nothing, and the last plays the new one *)
Definition replaced (r0 : reader) : bool :=
  (r_nch r0 =? 2) && r_playing r0 && (match r_kind r0 with KArray => true | _ => false end) &&
  match starter_run (PlRaw (ramp 16) 0 16 1) r0 with Ok (b, r1) => b && (r_nch r1 =? 1) && r_playing r1 | _ => false end &&
  sounds (interrupted 200 (starter_steps KArray (r_cfg r0) (PlRaw (ramp 16) 0 16 1)) (repeat [give] 16) r0)
    (fun o => (if list_eq_dec Z.eq_dec (events o) [evReload; evReload; evClose] then true else false) &&
              (if list_eq_dec Z.eq_dec (firstn 20 (nth 2 (left_blocks o) [])) (run_of 0 16 ++ [0; 0; 0; 0]) then true else false)).
Lemma start_case : exists r0 r1 o b r2, playRaw_array (at_rate d1 INone LNone) (ramp 2000) 0 2000 2 = Ok r0 /\
  r_kind r0 = KArray /\ r_nch r0 = 2 /\ r_playing r0 = true /\
  starter_run (PlRaw (ramp 16) 0 16 1) r0 = Ok (true, r1) /\ r_nch r1 = 1 /\ r_playing r1 = true /\
  interrupted 200 (starter_steps KArray (r_cfg r0) (PlRaw (ramp 16) 0 16 1)) (repeat [give] 16) r0 = Ok (o, b, r2) /\
  events o = [evReload; evReload; evClose] /\ firstn 20 (nth 2 (left_blocks o) []) = run_of 0 16 ++ [0; 0; 0; 0].
Proof.
  assert (C : match playRaw_array (at_rate d1 INone LNone) (ramp 2000) 0 2000 2 with Ok r => replaced r | _ => false end = true) by (vm_compute; reflexivity).
  apply started in C. destruct C as (r0 & E0 & C). unfold replaced in C. rewrite !andb_true_iff in C. destruct C as ((((C1 & C2) & C3) & C4) & C5).
  apply Z.eqb_eq in C1. assert (K : r_kind r0 = KArray) by (destruct (r_kind r0); auto; discriminate).
  destruct (starter_run (PlRaw (ramp 16) 0 16 1) r0) as [[b1 r1]|u|] eqn:S; try discriminate. rewrite !andb_true_iff in C4. destruct C4 as ((-> & C6) & C7). apply Z.eqb_eq in C6.
  apply sounds_ok in C5. destruct C5 as (o & b & r2 & E2 & C5). apply andb_true_iff in C5. destruct C5 as [C8 C9].
  exists r0, r1, o, b, r2. repeat (split; [assumption || reflexivity|]). split.
  - destruct (list_eq_dec Z.eq_dec (events o) [evReload; evReload; evClose]); [auto|discriminate].
  - destruct (list_eq_dec Z.eq_dec (firstn 20 (nth 2 (left_blocks o) [])) (run_of 0 16 ++ [0; 0; 0; 0])); [auto|discriminate].
Qed.

(* A single-precision rate for the reverse case *)
Lemma reverse_room : exists r0 o r, playRaw_array (at_rate d1 INone LNone) (ramp 2000) 0 2000 2 = Ok r0 /\ updates 200 [give; give; give] r0 = Ok (o, r) /\
  calm_head r /\ fin64 dm1 = true /\ 0 <= 1 < 2 ^ 40 /\ (- IZR 1 <= R64 dm1 < 0)%R /\
  Z.of_nat (length (hd [] [[give]; [give; give]])) * (128 * ((1 + 1) * r_nch r)) < r_pos1 r - r_hdr r.
Proof.
  assert (C : match playRaw_array (at_rate d1 INone LNone) (ramp 2000) 0 2000 2 with
    Ok r0 => match updates 200 [give; give; give] r0 with Ok (_, r) => calm_b (r <| r_pos1 := 256 |>) && (r_pos1 r =? 768) | _ => false end | _ => false end = true) by (vm_compute; reflexivity).
  apply started in C. destruct C as (r0 & E0 & C). apply after_update in C. destruct C as (o0 & r & E & C). apply andb_true_iff in C. destruct C as [C P].
  apply calm_ok in C. destruct C as (CH & N & _ & H & _). apply Z.eqb_eq in P. change (r_nch (r <| r_pos1 := 256 |>)) with (r_nch r) in N. change (r_hdr (r <| r_pos1 := 256 |>)) with (r_hdr r) in H.
  assert (V1 : R64 d1 = 1%R) by (change d1 with (d_of_Z 1); apply whole_rate; lia). assert (V : R64 dm1 = (-1)%R) by (unfold dm1; rewrite R64_neg, V1; ring).
  exists r0, o0, r. split; [exact E0|]. split; [exact E|]. split; [exact CH|]. split; [reflexivity|]. split; [lia|]. rewrite V. split; [lra|]. rewrite N, P, H. cbn [length hd]. lia.
Qed.
