(* Replay on a used object: RAW files, and the histories that show. *)

From Coq Require Import ZArith Lia List Bool Reals Lra.
From RecordUpdate Require Import RecordUpdate.
From Flocq Require Import Core.Core IEEE754.BinarySingleNaN.
From Verif Require Import Machine Floats FloatFacts WavModel CacheModel ReaderModel ReaderSpec CacheFacts CacheSpec WavSpec WavFinal FileSpec
  FilePlay FileForward CacheFinal PlayerCases ReplaySpec ReplayProofs.
Import ListNotations.
Local Open Scope Z_scope.

Lemma d1_whole : d1 = d_of_Z 1.
Proof.
  destruct (d_of_Z_ok 1) as [A F]; [lia|].
  apply B2R_inj; [apply is_finite_strict_B2R; rewrite R64_d1; lra|apply is_finite_strict_B2R; rewrite A; lra|now rewrite R64_d1, A].
Qed.
Lemma deq_eq : forall x y : b64, is_finite_strict x = true -> is_finite_strict y = true -> deq y x = true -> y = x.
Proof.
  intros x y Fx Fy D. assert (fin64 x = true) by (destruct x; auto; discriminate). assert (fin64 y = true) by (destruct y; auto; discriminate).
  rewrite deq_R in D by auto. apply B2R_inj; auto. destruct (Req_bool_spec (R64 y) (R64 x)); [auto|discriminate].
Qed.
Lemma used_same_rate : forall fuel ok r s, used fuel ok r s ->
  is_finite_strict (r_rate r) && is_finite_strict (r_rate s) && deq (r_rate s) (r_rate r) = true -> same_settings r s.
Proof.
  intros fuel ok r s U H. apply used_settings in U. unfold settings in U. injection U as S1 S2 S3 S4 S5 S6 S7 S8.
  apply andb_prop in H. destruct H as [H D]. apply andb_prop in H. destruct H as [F1 F2]. repeat split; auto. now apply deq_eq.
Qed.

Theorem raw_used : forall fuel r s fl nch stack garbage pb B, used fuel raw_only r s -> cfg_ok (r_cfg r) -> r_kind r <> KArray ->
  basic_settings r LNone PSample pb -> r_rem r = d0 -> r_hdr r = 0 -> (1 <= nch)%nat -> Z.of_nat nch < 2 ^ 15 -> 0 < fsize fl < 2 ^ 31 ->
  r_rate r = d1 -> 2 * Z.of_nat B * Z.of_nat nch <= (Z.of_nat (c_nbuf (r_cfg r)) - 1) * BS (r_cfg r) ->
  exists r', r_play_file s (Some fl) false (Z.of_nat nch) stack garbage = Ok (true, r') /\
    file_delivers B r' (nth_error (file_frames fl 0 nch (fsize fl / 2 / Z.of_nat nch))).
Proof.
  intros fuel r s fl nch stack garbage pb B U C K BS0 RM HD N1 N2 FS RT SP.
  destruct (used_clean fuel raw_only r s U) as [S (D1 & D2 & D3)].
  { split; [exact RM|]. split; [exists 1; repeat split; try lia; rewrite RT; exact d1_whole|auto]. }
  pose proof (used_hdr fuel r s U HD) as HS. destruct BS0 as (B1 & B2 & B3 & B4 & B5 & B6 & B7).
  unfold settings in S. injection S as S1 S2 S3 S4 S5 S6 S7 S8.
  apply (raw_unity s fl nch stack garbage pb B); try congruence; auto.
  - repeat split; try congruence; rewrite D1; reflexivity.
  - rewrite D3; [exact RT|congruence].
Qed.

(* Histories *)
Local Notation after_raw fuel r m off len nch n :=
  (bind (playRaw_array r m off len nch) (fun x => bind (r_read fuel x n) (fun y => Ok (snd y)))).
Lemma after_raw_used : forall fuel ok r m off len nch n s, after_raw fuel r m off len nch n = Ok s -> used fuel ok r s.
Proof.
  intros fuel ok r m off len nch n s H. apply bind_ok in H. destruct H as (x & E & H).
  apply bind_ok in H. destruct H as ([l t] & E2 & H). apply Ok_inj in H. cbn in H. subst t.
  eapply used_read; [|exact E2]. eapply used_raw; [apply used_none|exact E].
Qed.
Local Notation after_file r fl isw := (bind (r_play_file r (Some fl) isw 1 (fun _ => 0) dirty) (fun y => Ok (snd y))).
Lemma after_file_used : forall fuel (ok : bool -> Prop) r fl isw s, ok isw -> after_file r fl isw = Ok s -> used fuel ok r s.
Proof.
  intros fuel ok r fl isw s O H. apply bind_ok in H. destruct H as ([b t] & E & H). apply Ok_inj in H. cbn in H. subst t.
  eapply used_file; [apply used_none|exact O|exact E].
Qed.

Definition raw8 (r : reader) : res (bool * reader) := x <- playRaw_array r (ramp_mem 16) 0 8 1 ;; Ok (true, x).
Definition at_rate (x : b64) (i : interp) (l : loop_type) : reader := new_reader KArray <| r_rate := x |> <| r_interp := i |> <| r_loop := l |>.

Definition outs (b : res (bool * list (list (list Z)))) (l : list Z) : bool :=
  match b with Ok (true, x) => if list_eq_dec Z.eq_dec (concat (concat x)) l then true else false | _ => false end.
Definition rate_kept (r s : reader) : bool := is_finite_strict (r_rate r) && is_finite_strict (r_rate s) && deq (r_rate s) (r_rate r).
Lemma case_of : forall (e : res reader) (P : reader -> bool), match e with Ok s => P s | _ => false end = true -> exists s, e = Ok s /\ P s = true.
Proof. intros [s| |] P H; try discriminate. eauto. Qed.

(* half speed, stopped after one frame *)
Definition half_reader := at_rate (d_of_me 1 (-1)) INone LNone.
Definition half_check (s : reader) : bool := rate_kept half_reader s &&
  outs (starts 20 (raw8 half_reader) [(4, false)]) [1; 1; 2; 2] && outs (starts 20 (raw8 s) [(4, false)]) [1; 2; 2; 3].
Lemma half_case : exists s, after_raw 20 half_reader (ramp_mem 16) 0 8 1 1 = Ok s /\ half_check s = true.
Proof. apply case_of. vm_compute. reflexivity. Qed.
(* linear interpolation at rate 1: the old last sample is heard first *)
Definition lin_reader := at_rate d1 ILinear LNone.
Definition lin_check (s : reader) : bool := rate_kept lin_reader s &&
  outs (starts 20 (raw8 lin_reader) [(3, false)]) [0; 1; 2] && outs (starts 20 (raw8 s) [(3, false)]) [5; 1; 2].
Lemma lin_case : exists s, after_raw 20 lin_reader (ramp_mem 16) 0 8 1 5 = Ok s /\ lin_check s = true.
Proof. apply case_of. vm_compute. reflexivity. Qed.
(* ping-pong stopped on the way back: starts at the end, backwards *)
Definition pp_reader := at_rate d1 INone LPingpong.
Definition pp_check (s : reader) : bool := deq (r_rate s) (dneg d1) &&
  outs (starts 20 (raw8 pp_reader) [(3, false)]) [1; 2; 3] && outs (starts 20 (raw8 s) [(3, false)]) [8; 7; 6].
Lemma pp_case : exists s, after_raw 20 pp_reader (ramp_mem 16) 0 8 1 10 = Ok s /\ pp_check s = true.
Proof. apply case_of. vm_compute. reflexivity. Qed.
(* a WAV file, then a RAW one *)
Definition rawfile (r : reader) : res (bool * reader) := r_play_file r (Some (ramp_file 3000)) false 1 (fun _ => 0) dirty.
Definition hdr_check (s : reader) : bool := rate_kept (new_reader KSd) s && deq (r_rem s) d0 &&
  outs (starts 20 (rawfile (new_reader KSd)) [(3, true)]) [1; 2; 3] && outs (starts 20 (rawfile s) [(3, true)]) [29; 30; 31].
Lemma hdr_case : exists s, after_file (new_reader KSd) (mkfile wav_ex) true = Ok s /\ hdr_check s = true.
Proof. apply case_of. vm_compute. reflexivity. Qed.

Lemma outs_diff : forall a b l1 l2, outs a l1 = true -> outs b l2 = true -> l1 <> l2 -> a <> b.
Proof.
  intros a b l1 l2 A B D E. subst b. unfold outs in A, B. destruct a as [[[] x]| |]; try discriminate.
  destruct (list_eq_dec Z.eq_dec (concat (concat x)) l1); [|discriminate]. destruct (list_eq_dec Z.eq_dec (concat (concat x)) l2); [|discriminate]. congruence.
Qed.

Theorem fraction_stays : exists s, used 20 any_file half_reader s /\ same_settings half_reader s /\
  starts 20 (raw8 s) [(4, false)] <> starts 20 (raw8 half_reader) [(4, false)].
Proof.
  destruct half_case as (s & E & C). exists s. apply (after_raw_used 20 any_file) in E. unfold half_check in C.
  apply andb_prop in C. destruct C as [C C3]. apply andb_prop in C. destruct C as [C1 C2].
  split; [exact E|]. split; [now apply (used_same_rate _ _ _ _ E)|]. eapply outs_diff; [exact C3|exact C2|discriminate].
Qed.
Theorem point_stays : exists s, used 20 any_file lin_reader s /\ same_settings lin_reader s /\ r_rem s = r_rem lin_reader /\
  starts 20 (raw8 s) [(3, false)] <> starts 20 (raw8 lin_reader) [(3, false)].
Proof.
  destruct lin_case as (s & E & C). exists s. apply (after_raw_used 20 any_file) in E. unfold lin_check in C.
  apply andb_prop in C. destruct C as [C C3]. apply andb_prop in C. destruct C as [C1 C2].
  split; [exact E|]. split; [now apply (used_same_rate _ _ _ _ E)|]. split; [|eapply outs_diff; [exact C3|exact C2|discriminate]].
  destruct (used_clean _ _ _ _ E) as [_ (D & _)]; [|exact D]. split; [reflexivity|]. split; [exists 1; repeat split; try lia; exact d1_whole|reflexivity].
Qed.
Theorem direction_stays : exists s, used 20 any_file pp_reader s /\ deq (r_rate s) (dneg (r_rate pp_reader)) = true /\
  starts 20 (raw8 s) [(3, false)] <> starts 20 (raw8 pp_reader) [(3, false)].
Proof.
  destruct pp_case as (s & E & C). exists s. apply (after_raw_used 20 any_file) in E. unfold pp_check in C.
  apply andb_prop in C. destruct C as [C C3]. apply andb_prop in C. destruct C as [C1 C2].
  split; [exact E|]. split; [exact C1|]. eapply outs_diff; [exact C3|exact C2|discriminate].
Qed.
Theorem header_stays : exists s, used 20 any_file (new_reader KSd) s /\ same_settings (new_reader KSd) s /\ r_rem s = d0 /\
  starts 20 (rawfile (new_reader KSd)) [(3, true)] = Ok (true, [[[1]; [2]; [3]]]) /\
  starts 20 (rawfile s) [(3, true)] <> starts 20 (rawfile (new_reader KSd)) [(3, true)].
Proof.
  destruct hdr_case as (s & E & C). exists s. apply (after_file_used 20 any_file) in E; [|exact I]. unfold hdr_check in C.
  apply andb_prop in C. destruct C as [C C4]. apply andb_prop in C. destruct C as [C C3]. apply andb_prop in C. destruct C as [C1 C2].
  split; [exact E|]. split; [now apply (used_same_rate _ _ _ _ E)|]. split; [|split; [vm_compute; reflexivity|eapply outs_diff; [exact C4|exact C3|discriminate]]].
  destruct (used_clean _ _ _ _ E) as [_ (D & _)]; [|exact D]. split; [reflexivity|]. split; [exists 1; repeat split; try lia; exact d1_whole|reflexivity].
Qed.

(* A case for the whole-rate theorems: rate 3, played and read before *)
Definition three_reader : reader := at_rate (d_of_Z 3) INone LRepeat.
Definition three_check (s : reader) : bool := Z.eqb (r_pos1 s) 6.
Lemma three_case : exists s, after_raw 20 three_reader (ramp_mem 16) 0 8 1 5 = Ok s /\ three_check s = true.
Proof. apply case_of. vm_compute. reflexivity. Qed.
Lemma three_hyps : (exists s, used 20 any_file three_reader s /\ three_check s = true) /\ r_rem three_reader = d0 /\ whole_rate three_reader /\
  r_loop three_reader <> LPingpong /\ r_interp three_reader <> ILinear.
Proof.
  split; [|split; [reflexivity|split; [|split; discriminate]]].
  - destruct three_case as (s & E & C). exists s. split; [|exact C]. now apply (after_raw_used 20 any_file) in E.
  - exists 3. repeat split; lia.
Qed.
(* two different objects with the same settings and left-overs: one has read two frames at half speed *)
Lemma two_case : exists s, after_raw 20 half_reader (ramp_mem 16) 0 8 1 2 = Ok s /\
  (rate_kept half_reader s && (r_pos1 s =? 1) && match r_rem s with B754_zero false => true | _ => false end) = true.
Proof. apply case_of. vm_compute. reflexivity. Qed.
Lemma two_hyps : exists s, same_settings half_reader s /\ same_leftovers half_reader s /\ r_pos1 s <> r_pos1 half_reader.
Proof.
  destruct two_case as (s & E & C). exists s. apply (after_raw_used 20 any_file) in E.
  apply andb_prop in C. destruct C as [C C3]. apply andb_prop in C. destruct C as [C1 C2].
  split; [now apply (used_same_rate _ _ _ _ E)|]. split; [|apply Z.eqb_eq in C2; rewrite C2; discriminate].
  split; [|discriminate]. destruct (r_rem s) as [[]| | |]; try discriminate. reflexivity.
Qed.
Lemma rawused_hyps : exists s, used 20 raw_only (new_reader KSd) s /\ r_playing s = true.
Proof.
  assert (X : exists s, after_file (new_reader KSd) (ramp_file 3000) false = Ok s /\ r_playing s = true)
    by (apply case_of; vm_compute; reflexivity).
  destruct X as (s & E & P). exists s. split; [|exact P]. apply (after_file_used 20 raw_only) in E; [exact E|reflexivity].
Qed.
