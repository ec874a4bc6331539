(* Concrete histories for the player properties. *)

From Coq Require Import ZArith Lia List Bool.
From RecordUpdate Require Import RecordUpdate.
From Flocq Require Import IEEE754.BinarySingleNaN.
From Verif Require Import Machine Floats WavModel CacheModel ReaderModel ResponderModel PlayerModel CacheSpec WavSpec WavFinal CacheFinal
  LifeSpec.
Import ListNotations.
Local Open Scope Z_scope.

(* Players 0 (SD) and 2 (LittleFS) play files, player 1 an array *)
Definition kinds3 (i : nat) : rkind := match i with 0%nat => KSd | 1%nat => KArray | _ => KLfs end.
Definition give (c : nat) : option nat := Some (10 + c)%nat.
Definition stingy (c : nat) : option nat := if Nat.eqb c 0 then Some 7%nat else None.
Definition play_ramp (i : nat) (n : Z) : wop := WPlayFile i (Some (ramp_file n)) false 1 (fun _ => 0) dirty.
Definition play_wav (i : nat) : wop := WPlayFile i (Some (mkfile wav_ex)) true 1 (fun _ => 0) dirty.
Definition play_none (i : nat) : wop := WPlayFile i None true 1 (fun _ => 0) dirty.
Definition ramp_mem (n : Z) : mem := mkMem n (fbyte (ramp_file n)).
Definition play_arr (i : nat) (n : Z) : wop := WPlayRaw i (ramp_mem (2 * n)) 0 n 1.

Lemma wops_with : forall e (P : list wout -> world -> bool),
  match e with Ok (xs, w) => P xs w | _ => false end = true -> exists xs w, e = Ok (xs, w) /\ P xs w = true.
Proof. intros [[xs w]| |] P H; try discriminate. eauto. Qed.

Lemma wops_reach : forall kinds flags fuel l w xs w', wreach kinds flags w -> Forall (wop_ok kinds) l ->
  wops fuel l w = Ok (xs, w') -> wreach kinds flags w'.
Proof.
  intros kinds flags fuel. induction l as [|o l IH]; intros w xs w' R K E; cbn [wops] in E.
  - now injection E as _ <-.
  - destruct (wop_run fuel o w) as [[x w1]| |] eqn:E1; try discriminate. cbn [bind] in E.
    destruct (wops fuel l w1) as [[ys w2]| |] eqn:E2; try discriminate. cbn [bind] in E.
    assert (w' = w2) by congruence. subst w'. apply Forall_cons_iff in K. destruct K as [K1 K2].
    eapply IH; [|exact K2|exact E2]. eapply wr_op; eauto.
Qed.

(* A history with a failed open, interrupted stop, event servicing and playback of all three *)
Definition life_hist : list wop :=
  [play_none 0; play_ramp 0 3000; play_arr 1 300; play_wav 2; WUpdate 0 give; WUpdate 1 give; WUpdate 2 give; WYield; WCall 0 (CRate d1);
   WUpdate 2 stingy; WStop 0 [(0%nat, give); (2%nat, give)]; WYield; WUpdate 0 give].
Lemma life_hist_ok : Forall (wop_ok kinds3) life_hist.
Proof. repeat constructor. Qed.

Definition life_check (xs : list wout) (w : world) : bool :=
  match xs with
  | WoPlay _ false :: WoPlay _ true :: WoPlay _ true :: WoPlay _ true :: _ =>
      negb (r_playing (w_rd w 0)) && r_playing (w_rd w 1) && (r_live (w_rd w 0) =? 7)
  | _ => false
  end.

(* The same before the stop *)
Definition mid_hist : list wop := firstn 10 life_hist.
Definition mid_check (xs : list wout) (w : world) : bool := r_playing (w_rd w 0) && (r_live (w_rd w 0) =? 7).

(* Stereo update with and without blocks *)
Definition st_hist : list wop := firstn 6 life_hist.
Definition st_check (xs : list wout) (w : world) : bool :=
  match p_update 200 give (w_rd w 2), p_update 200 stingy (w_rd w 2) with
  | Ok (a, Some e, _), Ok (b, None, _) =>
      (e =? evClose) && Nat.eqb (length (sent a)) 2 && Nat.eqb (length (allocated a)) 2 &&
      Nat.eqb (length (sent b)) 0 && Nat.eqb (length (allocated b)) 1 &&
      match sent a with
      | [(_, d0, 0); (_, d1, 1)] => (nth 2 d0 0 =? 50) && (nth 2 d1 0 =? 60) && (nth 3 d1 0 =? 0)
      | _ => false
      end
  | _, _ => false
  end.

(* The exhausted file player and the exhausted array player *)
Definition end_hist : list wop := [play_ramp 0 300; play_arr 1 150; play_ramp 2 200; WUpdate 0 give; WUpdate 1 give; WYield].
Definition end_check (xs : list wout) (w : world) : bool :=
  r_playing (w_rd w 0) && r_playing (w_rd w 1) &&
  match r_read 200 (w_rd w 0) 128, r_read 200 (w_rd w 1) 128 with
  | Ok (f0, _), Ok (f1, _) => Nat.ltb (length f0) 128 && Nat.ltb (length f1) 128
  | _, _ => false
  end &&
  match w_update 200 0 give w with
  | Ok (_, w1) =>
      match wops 200 [WUpdate 2 give; WYield; play_ramp 2 100; WUpdate 0 give; WYield; WYield] w1 with
      | Ok (_, w2) => negb (r_playing (w_rd w2 0))
      | _ => false
      end
  | _ => false
  end &&
  match w_update 200 1 give w with
  | Ok (_, w1) =>
      match wops 200 [WUpdate 1 give; WYield; play_ramp 2 100; WUpdate 1 give; WYield; WYield] w1 with
      | Ok (_, w2) => r_playing (w_rd w2 1)
      | _ => false
      end
  | _ => false
  end.

Lemma end_check_inv : forall xs w, end_check xs w = true ->
  (r_playing (w_rd w 0) = true /\ (exists f r, r_read 200 (w_rd w 0) 128 = Ok (f, r) /\ (length f < 128)%nat) /\
   exists a w1 ys w2, w_update 200 0 give w = Ok (a, w1) /\
     wops 200 [WUpdate 2 give; WYield; play_ramp 2 100; WUpdate 0 give; WYield; WYield] w1 = Ok (ys, w2) /\ r_playing (w_rd w2 0) = false) /\
  (r_playing (w_rd w 1) = true /\ (exists f r, r_read 200 (w_rd w 1) 128 = Ok (f, r) /\ (length f < 128)%nat) /\
   exists a w1 ys w2, w_update 200 1 give w = Ok (a, w1) /\
     wops 200 [WUpdate 1 give; WYield; play_ramp 2 100; WUpdate 1 give; WYield; WYield] w1 = Ok (ys, w2) /\ r_playing (w_rd w2 1) = true).
Proof.
  intros xs w H. unfold end_check in H. apply andb_prop in H. destruct H as [H H5]. apply andb_prop in H. destruct H as [H H4].
  apply andb_prop in H. destruct H as [H H3]. apply andb_prop in H. destruct H as [H1 H2].
  destruct (r_read 200 (w_rd w 0) 128) as [[f0 r0]| |]; try discriminate.
  destruct (r_read 200 (w_rd w 1) 128) as [[f1 r1]| |]; try discriminate.
  apply andb_prop in H3. destruct H3 as [L0 L1]. apply Nat.ltb_lt in L0, L1.
  destruct (w_update 200 0 give w) as [[a0 w0]| |]; try discriminate. destruct (wops 200 _ w0) as [[y0 v0]| |] eqn:E0; try discriminate.
  destruct (w_update 200 1 give w) as [[a1 w1]| |]; try discriminate. destruct (wops 200 _ w1) as [[y1 v1]| |] eqn:E1; try discriminate.
  apply negb_true_iff in H4. split; split; auto; split; eauto 10.
Qed.

(* The reader's play() after close() *)
Definition resumed (k : rkind) : res (list (list Z) * reader) :=
  '(_, r) <- r_play_file (new_reader k) (Some (ramp_file 3000)) false 1 (fun _ => 0) dirty ;;
  r2 <- r_play (r_close r) ;; r_read 200 r2 4.
