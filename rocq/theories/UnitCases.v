(* What the reading tests compare (C137), and cases for the theorems about small files and
   about the tests (C134-C137). *)

From Coq Require Import ZArith Lia List Bool Reals Lra.
From RecordUpdate Require Import RecordUpdate.
From Flocq Require Import Core.Core IEEE754.BinarySingleNaN.
From Verif Require Import Machine Floats FloatFacts WavModel CacheModel ReaderModel ReaderFacts ReaderSpec Sessions StreamFacts CacheFacts CacheSpec WavSpec
  FileSpec PlayProofs FilePlay FileForward MirrorSpec HeldSpec HeldProofs HeldPlay UnitModel UnitProofs.
Import ListNotations.
Local Open Scope Z_scope.

(* ---- what is compared ------------------------------------------------------------- *)

Lemma compared : forall e size bs j, check_blocks e size j bs = Ok true ->
  forall k b i, nth_error bs k = Some b -> (i + 1 < length b)%nat -> hd 0 (nth i b []) = e ((j + Z.of_nat k) * 256 + Z.of_nat i).
Proof.
  intros e size. induction bs as [|a bs IH]; intros j E k b i K I; [destruct k; discriminate|].
  cbn [check_blocks] in E. apply bind_ok in E. destruct E as (x & E1 & E). apply bind_ok in E. destruct E as (y & E2 & E).
  apply Ok_inj, andb_prop in E. destruct E as [-> ->]. destruct k as [|k]; cbn [nth_error] in K.
  - injection K as <-. unfold check_block in E1. destruct (_ <? _); [discriminate|]. apply Ok_inj in E1.
    rewrite forallb_forall in E1. specialize (E1 i). rewrite in_seq in E1. specialize (E1 ltac:(lia)). apply Z.eqb_eq in E1.
    rewrite E1. f_equal. lia.
  - rewrite (IH (j + 1) E2 k b i K I). f_equal. lia.
Qed.

(* two blocks, the last sample of each wrong, pass *)
Definition wrong_blocks : list (list (list Z)) :=
  [map (fun i => [Z.of_nat i]) (seq 0 255) ++ [[-1]]; map (fun i => [256 + Z.of_nat i]) (seq 0 9) ++ [[12345]]].
Lemma uncompared : check_blocks (fun i => i) 266 0 wrong_blocks = Ok true /\ hd 0 (nth 255 (nth 0 wrong_blocks []) []) <> 255 /\
  hd 0 (nth 9 (nth 1 wrong_blocks []) []) <> 265.
Proof. vm_compute. repeat split; discriminate. Qed.

Lemma uncompared_last : exists e size bs, check_blocks e size 0 bs = Ok true /\
  exists k b i, nth_error bs k = Some b /\ (i < length b)%nat /\ hd 0 (nth i b []) <> e (Z.of_nat k * 256 + Z.of_nat i).
Proof.
  destruct uncompared as (U1 & U2 & _). exists (fun i => i), 266, wrong_blocks. split; [exact U1|].
  exists 0%nat, (nth 0 wrong_blocks []), 255%nat. split; [reflexivity|]. split; [vm_compute; lia|exact U2].
Qed.

(* ---- small files --------------------------------------------------------------------- *)

(* a stereo RAW file of 8 bytes, two buffers of 4 samples, half speed *)
Definition tiny_reader : reader := reader_init KSd <| r_cfg := mkCfg 2 2 true true |> <| r_rate := ddiv d1 (d_of_Z 2) |>.
Definition tiny_file : file := mkFile 16 ramp_byte.

Lemma tiny_alone : exists r', r_play_file tiny_reader (Some tiny_file) false 2 (fun _ => 0) (fun _ _ => 0) = Ok (true, r') /\
  plays_alone r' (file_pitch tiny_file 0 4 2 0 (/ 2)).
Proof.
  destruct rate_half as [G V].
  assert (RR : r_rate tiny_reader = ddiv d1 (d_of_Z 2)) by reflexivity.
  assert (CC : r_cfg tiny_reader = mkCfg 2 2 true true) by reflexivity.
  destruct (raw_alone tiny_reader tiny_file 2 (fun _ => 0) (fun _ _ => 0) PSample 0) as (r' & E & H); rewrite ?RR, ?CC; try rewrite V.
  - unfold cfg_ok. cbn. lia.
  - discriminate.
  - repeat split.
  - reflexivity.
  - lia.
  - lia.
  - cbn [tiny_file fsize]. lia.
  - unfold small_file. cbn. lia.
  - discriminate.
  - cbn. lia.
  - exact G.
  - lra.
  - cbn [INR]. apply Rle_trans with 3%R; [lra|]. apply IZR_le. lia.
  - exists r'. split; [exact E|]. rewrite RR, V in H. exact H.
Qed.

(* twelve samples do not fit into the eight that the buffers hold: without a reload
   the reading stops being the file *)
Definition big_file : file := mkFile 24 ramp_byte.
Definition shown_run (a : res (bool * reader)) (f : reader -> res (list (list (list Z)) * reader)) : res (list (list (list Z)) * Z) :=
  '(_, r) <- a ;; '(bs, r') <- f r ;; Ok (bs, misses r').
Lemma shown_inv : forall a f out m, shown_run a f = Ok (out, m) -> match a with Ok (true, _) => True | _ => False end ->
  exists r q, a = Ok (true, r) /\ f r = Ok (out, q).
Proof.
  intros [[[|] r]| |] f out m H Y; try contradiction. unfold shown_run in H. cbn [bind] in H. destruct (f r) as [[bs q]| |] eqn:E; try discriminate.
  cbn [bind] in H. apply Ok_inj, pair_equal_spec in H. destruct H as [-> _]. eauto.
Qed.
Lemma big_reads : shown_run (r_play_file tiny_reader (Some big_file) false 2 (fun _ => 0) (fun _ _ => 0)) (fun r => read_seq 100 r [12%nat])
  = Ok ([[[0; 1]; [0; 1]; [2; 3]; [2; 3]; [4; 5]; [4; 5]; [6; 7]; [6; 7]; [0; 0]; [0; 0]; [0; 0]; [0; 0]]], 8).
Proof. vm_compute. reflexivity. Qed.
Lemma big_opens : match r_play_file tiny_reader (Some big_file) false 2 (fun _ => 0) (fun _ _ => 0) with Ok (true, _) => True | _ => False end.
Proof. vm_compute. exact I. Qed.
Lemma big_spec : forall k, file_pitch big_file 0 6 2 0 (/ 2) k =
  if Z.quot (Z.of_nat k) 2 <? 6 then Some (file_frame big_file 0 2 (Z.quot (Z.of_nat k) 2)) else None.
Proof. intro k. unfold file_pitch. now rewrite Z.add_0_l, floor_half. Qed.
Lemma big_nine : nth 8 (hd [] (blocks_spec (fun k => if Z.quot (Z.of_nat k) 2 <? 6 then Some (file_frame big_file 0 2 (Z.quot (Z.of_nat k) 2)) else None) 0 [12%nat])) [] = [8; 9].
Proof. vm_compute. reflexivity. Qed.

Lemma too_big : exists r fl r' fuel bs q, cfg_ok (r_cfg r) /\ ~ small_file (r_cfg r) fl /\
  r_play_file r (Some fl) false 2 (fun _ => 0) (fun _ _ => 0) = Ok (true, r') /\ (0 <= R64 (r_rate r))%R /\
  read_seq fuel r' [12%nat] = Ok (bs, q) /\ bs <> blocks_spec (file_pitch fl 0 6 2 0 (R64 (r_rate r))) 0 [12%nat].
Proof.
  destruct rate_half as [_ V]. assert (RR : r_rate tiny_reader = ddiv d1 (d_of_Z 2)) by reflexivity.
  destruct (shown_inv _ _ _ _ big_reads big_opens) as (r' & q & E1 & E2).
  eexists tiny_reader, big_file, r', 100%nat, _, q. split; [unfold cfg_ok; cbn; lia|].
  split; [unfold small_file; cbn; lia|]. split; [exact E1|]. rewrite RR, V.
  split; [lra|]. split; [exact E2|]. intro H. rewrite (blocks_spec_eq _ _ big_spec) in H. pose proof big_nine as Q. rewrite <- H in Q. cbn [hd nth] in Q. discriminate.
Qed.

Lemma tiny_reads : shown_run (r_play_file tiny_reader (Some tiny_file) false 2 (fun _ => 0) (fun _ _ => 0)) (fun r => read_seq 100 r [3%nat; 3%nat; 3%nat])
  = Ok ([[[0; 1]; [0; 1]; [2; 3]]; [[2; 3]; [4; 5]; [4; 5]]; [[6; 7]; [6; 7]]], 0).
Proof. vm_compute. reflexivity. Qed.

(* ---- the tests, run ------------------------------------------------------------------ *)

Lemma tests_run : double_rate_test 700 2 201 (fun _ => 0) (fun _ _ => 0) = Ok true /\
  half_rate_test 700 3 true 150 (fun _ => 0) (fun _ _ => 0) = Ok true /\ regular_rate_test 700 3 300 (fun _ => 0) (fun _ _ => 0) = Ok true.
Proof. vm_compute. repeat split. Qed.
