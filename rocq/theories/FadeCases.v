(* Concrete crossfades: C20-C22, C68-C70. *)

From Coq Require Import ZArith Lia List Bool Reals Lra.
From RecordUpdate Require Import RecordUpdate.
From Flocq Require Import Core.Core IEEE754.BinarySingleNaN.
From Verif Require Import Machine Floats FloatFacts WavModel InterpModel CacheModel CacheFacts ReaderModel ReaderSpec Walk ForwardProofs LoopProofs LifeProofs
  CacheFinal PlayerCases ReplayCases FadeSpec FadeProofs FadeLoop.
Import ListNotations.
Local Open Scope Z_scope.

Definition fader (l : loop_type) : reader := at_rate d1 INone l.
Definition ramp (len : Z) : mem := ramp_mem (2 * len).
Definition heard (e : res (list (list Z) * reader)) (l : list Z) : bool :=
  match e with Ok (x, s) => if list_eq_dec Z.eq_dec (concat x) l then r_playing s else false | _ => false end.
Definition bounds_ub (e : res (list (list Z) * reader)) : bool := match e with UB UbOutOfBounds => true | _ => false end.
Definition conv_ub (e : res (list (list Z) * reader)) : bool := match e with UB UbFloatToInt => true | _ => false end.
Lemma bounds_ub_eq : forall e, bounds_ub e = true -> e = UB UbOutOfBounds.
Proof. intros [|[]|] H; try discriminate. reflexivity. Qed.
Lemma conv_ub_eq : forall e, conv_ub e = true -> e = UB UbFloatToInt.
Proof. intros [|[]|] H; try discriminate. reflexivity. Qed.
Lemma heard_eq : forall e l, heard e l = true -> exists x s, e = Ok (x, s) /\ concat x = l /\ r_playing s = true.
Proof. intros [[x s]| |] l H; try discriminate. unfold heard in H. destruct (list_eq_dec _ _ _) as [E|E]; [|discriminate]. eauto. Qed.

(* C20: a fade of no frames divides 0 by 0 at the first loop *)
Theorem no_frames : exists r, playRaw_array (fader LRepeat) (ramp 8) 0 8 1 = Ok r /\
  r_read 60 (with_fade r 0 4 0) 5 = UB UbFloatToInt.
Proof.
  assert (C : exists r, playRaw_array (fader LRepeat) (ramp 8) 0 8 1 = Ok r /\ conv_ub (r_read 60 (with_fade r 0 4 0) 5) = true)
    by (apply case_of; vm_compute; reflexivity).
  destruct C as (r & E & C). exists r. split; [exact E|]. now apply conv_ub_eq.
Qed.
(* C20: the loop start moved beyond the second head while the fade runs *)
Definition play_then (e : res reader) (f : reader -> res (list (list Z) * reader)) : res reader := r <- e ;; '(_, s) <- f r ;; Ok s.
Lemma play_then_inv : forall e f s, play_then e f = Ok s -> exists r l, e = Ok r /\ f r = Ok (l, s).
Proof.
  intros [r| |] f s E; try discriminate. unfold play_then in E. cbn [bind] in E. destruct (f r) as [[l t]| |] eqn:F; try discriminate.
  cbn [bind] in E. apply Ok_inj in E. subst t. eauto.
Qed.
Local Notation upto q m len ls lf d n := (play_then (playRaw_array q m 0 len 1) (fun r => r_read 20 (with_fade r ls lf d) n)).
Theorem start_moved : exists r l s, playRaw_array (fader LRepeat) (ramp 16) 0 16 1 = Ok r /\
  r_read 20 (with_fade r 0 8 2) 7 = Ok (l, s) /\ r_cfst s = 1 /\ r_read 20 (setLoopStart s 3) 1 = UB UbFloatToInt.
Proof.
  assert (C : exists s, upto (fader LRepeat) (ramp 16) 16 0 8 2 7 = Ok s /\ (r_cfst s =? 1) && conv_ub (r_read 20 (setLoopStart s 3) 1) = true) by (apply case_of; vm_compute; reflexivity).
  destruct C as (s & E & C). apply play_then_inv in E. destruct E as (r & l & E1 & E2). apply andb_prop in C. destruct C as [C1 C2]. apply Z.eqb_eq in C1.
  exists r, l, s. repeat split; auto. now apply conv_ub_eq.
Qed.
(* C20: the state is reached, with a gain strictly between 0 and 1 *)
Definition half_way_check (s : reader) : bool := (r_cfst s =? 1) && deq (r_cf s) (d_of_me 1 (-1)) && heard (r_read 20 s 3) [3; 4; 5].
Lemma reset_cf : forall r r', r_reset r = Ok r' -> r_cf r' = d0.
Proof. intros r r' E. unfold r_reset in E. apply bind_ok in E. destruct E as (p & _ & E). apply Ok_inj in E. now rewrite <- E. Qed.
Lemma playRaw_cf : forall r m off len n r', playRaw_array r m off len n = Ok r' -> r_cf r' = d0.
Proof.
  intros r m off len n r' H. rewrite playRaw_setup in H. set (r0 := raw_setup r m off len n) in H. clearbody r0.
  apply bind_ok in H. destruct H as (r1 & E & H). apply reset_cf in E. apply Ok_inj in H. now rewrite <- H.
Qed.
Lemma ready_case : forall r l ps pb m off len n ls lf d, array_holds m off len n -> basic_settings r l ps pb -> r_rate r = d1 ->
  (ps = PArbitrary -> 0 <= pb <= len) -> 0 <= ls -> 1 <= d -> ls + d <= lf -> lf <= len ->
  forall s, playRaw_array r m off len (Z.of_nat n) = Ok s -> ready_to_fade (with_fade s ls lf d).
Proof.
  intros r l ps pb m off len n ls lf d A B RT HP HL HD HF HN s E. pose proof A as (H1 & H2 & H3 & H4 & H5 & H6).
  destruct (playRaw_fwd m off len n r l ps pb A B) as (r' & E' & PL & SR & R1 & FS & LP & RM & L0 & L1 & PS & PO).
  { rewrite RT. exact fin_d1. } { rewrite RT, R64_d1. lra. } { auto. }
  rewrite E in E'. apply Ok_inj in E'. subst r'. pose proof B as (B1 & B2 & B3 & B4 & B5 & B6 & B7).
  assert (W : with_loop s ls lf = s <| r_ls := ls |> <| r_lf := lf |>).
  { unfold with_loop, setLoopFinish, setLoopStart. cbn. rewrite SR; cbn; rewrite SR. rewrite !s32_id by (unfold in_s32; nia). reflexivity. }
  assert (G : gain_ok (r_cf s)). { unfold gain_ok. rewrite (playRaw_cf _ _ _ _ _ _ E). split; [reflexivity|]. change (B2R d0) with (R64 d0). rewrite R64_d0. lra. }
  unfold with_fade. rewrite W. unfold ready_to_fade. split; [reflexivity|]. split; [apply PL|]. split; [exact G|].
  split; [cbn; rewrite RM; auto|]. split; [cbn; rewrite RM, B7, Rabs_R0; lra|].
  cbn. rewrite (pl_nch _ _ _ PL), (pl_hdr _ _ _ PL), u32_id by (unfold in_u32; nia). repeat split; try lia; nia.
Qed.

Lemma ramp_holds : forall len, 0 <= len < 2 ^ 29 -> array_holds (ramp len) 0 len 1.
Proof. intros len H. unfold array_holds, ramp, ramp_mem. change (Z.of_nat 1) with 1. cbn [msize]. lia. Qed.
Lemma fader_basic : forall l, basic_settings (fader l) l PSample 0.
Proof. intros l. repeat split. Qed.

Theorem half_way_case : exists r l s, playRaw_array (fader LRepeat) (ramp 16) 0 16 1 = Ok r /\ ready_to_fade (with_fade r 0 8 2) /\
  r_read 20 (with_fade r 0 8 2) 8 = Ok (l, s) /\ r_cfst s = 1 /\ deq (r_cf s) (d_of_me 1 (-1)) = true.
Proof.
  assert (C : exists s, upto (fader LRepeat) (ramp 16) 16 0 8 2 8 = Ok s /\ half_way_check s = true) by (apply case_of; vm_compute; reflexivity).
  destruct C as (s & E & C). apply play_then_inv in E. destruct E as (r & l & E1 & E2). unfold half_way_check in C.
  apply andb_prop in C. destruct C as [C C3]. apply andb_prop in C. destruct C as [C1 C2]. apply Z.eqb_eq in C1.
  exists r, l, s. split; [exact E1|]. split; [|auto].
  apply (ready_case (fader LRepeat) LRepeat PSample 0 (ramp 16) 0 16 1 0 8 2); try lia; auto; [apply ramp_holds; lia|apply fader_basic].
Qed.

(* C21 at start + 2d + 1 = finish: the second fade reads beyond the loop *)
Theorem tight_loop : exists r, playRaw_array (fader LRepeat) (ramp 3) 0 3 1 = Ok r /\
  r_read 60 (with_fade r 0 3 1) 6 = UB UbOutOfBounds.
Proof.
  assert (C : exists r, playRaw_array (fader LRepeat) (ramp 3) 0 3 1 = Ok r /\ bounds_ub (r_read 60 (with_fade r 0 3 1) 6) = true)
    by (apply case_of; vm_compute; reflexivity).
  destruct C as (r & E & C). exists r. split; [exact E|]. now apply bounds_ub_eq.
Qed.
(* frames 3..16 of a ramp with a fade of 4 *)
Theorem loop_case : exists r x s, playRaw_array (fader LRepeat) (ramp 20) 0 20 1 = Ok r /\ r_read 60 (with_fade r 2 16 4) 30 = Ok (x, s) /\
  concat x = [1; 2; 3; 4; 5; 6; 7; 8; 9; 10; 11; 12; 13; 11; 10; 8; 7; 8; 9; 10; 11; 12; 13; 11; 10; 8; 7; 8; 9; 10].
Proof.
  assert (C : exists r, playRaw_array (fader LRepeat) (ramp 20) 0 20 1 = Ok r /\ heard (r_read 60 (with_fade r 2 16 4) 30)
    [1; 2; 3; 4; 5; 6; 7; 8; 9; 10; 11; 12; 13; 11; 10; 8; 7; 8; 9; 10; 11; 12; 13; 11; 10; 8; 7; 8; 9; 10] = true)
    by (apply case_of; vm_compute; reflexivity).
  destruct C as (r & E & C). apply heard_eq in C. destruct C as (x & s & C1 & C2 & _). eauto 6.
Qed.
(* C22: 8 frames, no loop, two heads: goes on with frame 2 *)
Theorem none_loops : exists r x s, playRaw_array (fader LNone) (ramp 8) 0 8 1 = Ok r /\ r_loop (with_fade r 0 8 1) = LNone /\
  r_read 60 (with_fade r 0 8 1) 20 = Ok (x, s) /\
  concat x = [1; 2; 3; 4; 5; 6; 7; 8; 2; 3; 4; 5; 6; 7; 8; 2; 3; 4; 5; 6] /\ r_playing s = true.
Proof.
  assert (C : exists r, playRaw_array (fader LNone) (ramp 8) 0 8 1 = Ok r /\ loop_eqb (r_loop (with_fade r 0 8 1)) LNone &&
    heard (r_read 60 (with_fade r 0 8 1) 20) [1; 2; 3; 4; 5; 6; 7; 8; 2; 3; 4; 5; 6; 7; 8; 2; 3; 4; 5; 6] = true)
    by (apply case_of; vm_compute; reflexivity).
  destruct C as (r & E & C). apply andb_prop in C. destruct C as [C0 C]. apply heard_eq in C. destruct C as (x & s & C1 & C2 & C3).
  exists r, x, s. repeat split; auto. destruct (r_loop _); try discriminate; reflexivity.
Qed.
