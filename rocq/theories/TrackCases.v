(* Concrete cases for the theorems on interpolated playback of files. *)

From Coq Require Import ZArith Lia List Bool Reals Lra.
From RecordUpdate Require Import RecordUpdate.
From Flocq Require Import Core.Core IEEE754.BinarySingleNaN.
From Verif Require Import Machine Floats FloatFacts WavModel InterpModel CacheModel ReaderModel ReaderFacts ReaderSpec PlayProofs CacheFacts CacheSpec CacheProofs FileSpec CacheFinal
  QuadProofs InterpCases RaceProofs MirrorSpec MirrorFinal TrackSpec TrackPlay.
Import ListNotations.
Local Open Scope Z_scope.

Definition tr_reader (x : b64) (i : interp) (ps : play_start) (pb : Z) : reader := setPlayStart (new_reader KSd <| r_rate := x |> <| r_interp := i |>) ps pb.
Notation tr_open x i ps pb := (r_play_file (tr_reader x i ps pb) (Some mc_file) false 1 (fun _ => 0) dirty).

Definition tr_pass (len sum : Z) (y : list (list (list Z)) * reader) : bool := (Z.of_nat (length (concat (fst y))) =? len) && (mc_sum (fst y) =? sum).
Definition tr_check (F : nat) (ns : list nat) (len sum : Z) (x : bool * reader) : bool :=
  let '(ok, r) := x in
  ok && match read_seq F (on_array (file_mem mc_file) 0 r) ns with Ok y => tr_pass len sum y | _ => false end.

Lemma tr_settings : forall x i ps pb, in_s32 pb -> interp_settings i (tr_reader x i ps pb) LNone ps pb.
Proof. intros x i ps pb P. split; [reflexivity|]. unfold basic_settings. cbn. repeat split. now apply s32_id. Qed.
Lemma tr_facts : forall x i ps pb, cfg_ok (r_cfg (tr_reader x i ps pb)) /\ r_kind (tr_reader x i ps pb) <> KArray /\ r_hdr (tr_reader x i ps pb) = 0 /\ 0 < fsize mc_file < 2 ^ 31.
Proof. intros. split; [apply cfg_sd_ok|]. split; [discriminate|]. split; [reflexivity|]. cbn. lia. Qed.
Lemma tr_rate : R64 dthree_halves = 1.5%R /\ fin64 dthree_halves = true.
Proof. split; [vm_compute; lra|reflexivity]. Qed.

(* cubic at rate 1.5 from frame 1000, 8 updates, across the end of a block *)
Lemma track_case : interp_settings IQuadratic (tr_reader dthree_halves IQuadratic PArbitrary 1000) LNone PArbitrary 1000 /\ fin64 dthree_halves = true /\
  (0 <= R64 dthree_halves <= IZR 2)%R /\ start_room cfg_sd IQuadratic 2 0 1000 1 /\ room cfg_sd 1 128 2 /\
  exists r bs a, tr_open dthree_halves IQuadratic PArbitrary 1000 = Ok (true, r) /\
    read_seq 200 (on_array (file_mem mc_file) 0 r) (repeat 128%nat 8) = Ok (bs, a) /\ Z.of_nat (length (concat bs)) = 1024 /\ mc_sum bs = 3546689.
Proof.
  split; [apply tr_settings; unfold in_s32; lia|]. destruct tr_rate as [R F]. split; [exact F|]. split; [rewrite R; lra|]. split; [intros _ _; vm_compute; split; discriminate|]. split; [vm_compute; discriminate|].
  destruct (res_with (tr_open dthree_halves IQuadratic PArbitrary 1000) (tr_check 200 (repeat 128%nat 8) 1024 3546689)) as ([ok r] & E & H); [vm_compute; reflexivity|].
  unfold tr_check in H. destruct ok; [|discriminate]. cbn [andb] in H. apply res_with in H. destruct H as ([bs a] & RS & H).
  unfold tr_pass in H. cbn [fst] in H. apply andb_true_iff in H. destruct H as [H1 H2]. apply Z.eqb_eq in H1, H2. exists r, bs, a. auto.
Qed.

(* cubic at rate 3.5 from the first frame of a block: the points before it are not loaded *)
Definition is_out (y : list (list (list Z)) * reader) (l : list Z) : bool := if list_eq_dec Z.eq_dec (concat (concat (fst y))) l then true else false.
Lemma is_out_ok : forall y l, is_out y l = true -> concat (concat (fst y)) = l.
Proof. intros y l H. unfold is_out in H. destruct (list_eq_dec _ _ _); [assumption|discriminate]. Qed.
Definition tr_miss2 (y z : list (list (list Z)) * reader) : bool := (misses (snd y) =? 3) && is_out y [0; 4098; 4101; 4105] && is_out z [3966; 4098; 4101; 4105].
Definition tr_miss (x : bool * reader) : bool :=
  let '(ok, r) := x in
  ok && match serviced 200 r [4%nat], read_seq 200 (on_array (file_mem mc_file) 0 r) [4%nat] with Ok y, Ok z => tr_miss2 y z | _, _ => false end.
Lemma track_start_miss : exists r bs r1 cs a, tr_open (d_of_me 7 (-1)) IQuadratic PArbitrary 2048 = Ok (true, r) /\
  serviced 200 r [4%nat] = Ok (bs, r1) /\ read_seq 200 (on_array (file_mem mc_file) 0 r) [4%nat] = Ok (cs, a) /\
  misses r1 = 3 /\ concat (concat bs) = [0; 4098; 4101; 4105] /\ concat (concat cs) = [3966; 4098; 4101; 4105].
Proof.
  destruct (res_with (tr_open (d_of_me 7 (-1)) IQuadratic PArbitrary 2048) tr_miss) as ([ok r] & E & H); [vm_compute; reflexivity|].
  unfold tr_miss in H. destruct ok; [|discriminate]. cbn [andb] in H.
  apply two_res in H. destruct H as ([bs r1] & [cs a] & S & RS & H). unfold tr_miss2 in H. rewrite !andb_true_iff in H. destruct H as [[H1 H2] H3].
  apply is_out_ok in H2, H3. apply Z.eqb_eq in H1. exists r, bs, r1, cs, a. auto 8.
Qed.

(* from five frames before the end of a block *)
Definition tr_out2 (l : list Z) (y : list (list (list Z)) * reader) : bool := (misses (snd y) =? 0) && is_out y l.
Definition tr_out (ns : list nat) (l : list Z) (x : bool * reader) : bool :=
  let '(ok, r) := x in ok && match serviced 200 r ns with Ok y => tr_out2 l y | _ => false end.
Lemma tr_out_ok : forall (e : res (bool * reader)) ns l, match e with Ok x => tr_out ns l x | _ => false end = true ->
  exists r bs r1, e = Ok (true, r) /\ serviced 200 r ns = Ok (bs, r1) /\ misses r1 = 0 /\ concat (concat bs) = l.
Proof.
  intros e ns l H. destruct (res_with e (tr_out ns l) H) as ([ok r] & E & Q). unfold tr_out in Q. destruct ok; [|discriminate]. cbn [andb] in Q.
  apply res_with in Q. destruct Q as ([bs r1] & S & Q). apply andb_true_iff in Q. destruct Q as [Q1 Q2]. apply is_out_ok in Q2. apply Z.eqb_eq in Q1. exists r, bs, r1. auto.
Qed.
Lemma delayed_file_case : interp_settings IQuadratic (tr_reader d1 IQuadratic PArbitrary 2043) LNone PArbitrary 2043 /\ room cfg_sd 1 128 1 /\
  exists r bs r1, tr_open d1 IQuadratic PArbitrary 2043 = Ok (true, r) /\ serviced 200 r [3; 5; 2]%nat = Ok (bs, r1) /\ misses r1 = 0 /\
    concat (concat bs) = [0; 0; 0; 3964; 3965; 3966; 3967; 4096; 4097; 4098].
Proof. split; [apply tr_settings; unfold in_s32; lia|]. split; [vm_compute; discriminate|]. apply tr_out_ok. vm_compute. reflexivity. Qed.
Lemma linear_file_case : interp_settings ILinear (tr_reader dthree_quarters ILinear PArbitrary 2043) LNone PArbitrary 2043 /\ room cfg_sd 1 128 1 /\
  exists r bs r1, tr_open dthree_quarters ILinear PArbitrary 2043 = Ok (true, r) /\ serviced 200 r [3; 5; 2]%nat = Ok (bs, r1) /\ misses r1 = 0 /\
    concat (concat bs) = [0; 3964; 3964; 3965; 3966; 3966; 3967; 4000; 4097; 4097].
Proof. split; [apply tr_settings; unfold in_s32; lia|]. split; [vm_compute; discriminate|]. apply tr_out_ok. vm_compute. reflexivity. Qed.
Lemma cubic_file_case : interp_settings IQuadratic (tr_reader dthree_quarters IQuadratic PArbitrary 2043) LNone PArbitrary 2043 /\ room cfg_sd 1 128 1 /\
  exists r bs r1, tr_open dthree_quarters IQuadratic PArbitrary 2043 = Ok (true, r) /\ serviced 200 r [3; 5; 5]%nat = Ok (bs, r1) /\ misses r1 = 0 /\
    concat (concat bs) = [0; 0; 0; 0; 3964; 3965; 3966; 3962; 3967; 4066; 4105; 4098; 4098].
Proof. split; [apply tr_settings; unfold in_s32; lia|]. split; [vm_compute; discriminate|]. apply tr_out_ok. vm_compute. reflexivity. Qed.
