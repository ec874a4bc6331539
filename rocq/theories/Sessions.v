(* Sessions of reads, given a per-frame invariant. *)

From Coq Require Import ZArith Lia List Bool.
From RecordUpdate Require Import RecordUpdate.
From Flocq Require Import IEEE754.BinarySingleNaN.
From Verif Require Import Machine Floats WavModel InterpModel CacheModel ReaderModel
  ReaderFacts ReaderSpec.
Import ListNotations.
Local Open Scope Z_scope.

(* I k r : r is the state after k delivered frames *)
Definition follows (I : nat -> reader -> Prop) (out : stream) : Prop :=
  forall k r, I k r ->
    r_playing r = true /\ 1 <= r_nch r /\
    exists F r', read_frame F r = Ok (out k, r') /\
      match out k with
      | Some _ => I (S k) r'
      | None => I k r'
      end.

Lemma follows_loop : forall I out, follows I out ->
  forall n k r, I k r ->
  exists F r', read_loop F F r (Z.of_nat n) = Ok (pulls out k n, r')
    /\ I (k + length (pulls out k n))%nat r'.
Proof.
  intros I out HF. induction n as [|n IH]; intros k r HI.
  - exists O, r. cbn. rewrite Nat.add_0_r. auto.
  - destruct (HF k r HI) as (HP & HN & F & r1 & E & HI1).
    destruct (out k) as [v|] eqn:O.
    + destruct (IH (S k) r1 HI1) as (F2 & r2 & E2 & HI2).
      exists (S (F + F2)), r2. cbn [read_loop pulls].
      destruct (Z.leb_spec (Z.of_nat (S n)) 0); [lia|].
      rewrite (read_frame_fuel F (S (F + F2)) r _ ltac:(lia) E). cbn [bind].
      destruct (Z.eqb_spec (r_nch r) 0); [lia|].
      replace (Z.of_nat (S n) - 1) with (Z.of_nat n) by lia.
      rewrite (read_loop_fuel F2 (S (F + F2)) F2 (F + F2) r1 _ _ ltac:(lia) ltac:(lia) E2).
      cbn [bind]. rewrite O. split; auto.
      cbn [length]. replace (k + S (length (pulls out (S k) n)))%nat
        with (S k + length (pulls out (S k) n))%nat by lia. auto.
    + exists (S F), r1. cbn [read_loop pulls].
      destruct (Z.leb_spec (Z.of_nat (S n)) 0); [lia|].
      rewrite (read_frame_fuel F (S F) r _ ltac:(lia) E). cbn [bind].
      rewrite O. cbn. rewrite Nat.add_0_r. auto.
Qed.

Lemma read_seq_fuel : forall ns f1 f2 r x, (f1 <= f2)%nat ->
  read_seq f1 r ns = Ok x -> read_seq f2 r ns = Ok x.
Proof.
  induction ns as [|n ns IH]; intros f1 f2 r x L H; auto.
  cbn [read_seq] in *.
  apply bind_ok in H. destruct H as ([b r1] & E & H).
  rewrite (r_read_fuel _ _ _ _ _ L E). cbn [bind].
  apply bind_ok in H. destruct H as ([bs r2] & E2 & H).
  rewrite (IH _ _ _ _ L E2). auto.
Qed.

Lemma follows_seq : forall I out, follows I out ->
  forall ns k r, I k r ->
  exists F r', read_seq F r ns = Ok (blocks_spec out k ns, r') /\
    exists k', I k' r'.
Proof.
  intros I out HF. induction ns as [|n ns IH]; intros k r HI.
  - exists O, r. cbn. eauto.
  - destruct (follows_loop I out HF n k r HI) as (F & r1 & E & HI1).
    destruct (IH _ r1 HI1) as (F2 & r2 & E2 & HI2).
    exists (F + F2)%nat, r2. split; auto. cbn [read_seq blocks_spec].
    assert (R : r_read (F + F2) r (Z.of_nat n) = Ok (pulls out k n, r1)).
    { destruct (HF k r HI) as (HP & HN & _).
      unfold r_read. rewrite HP. cbn [negb].
      destruct (Z.ltb_spec (r_nch r) 0); [lia|].
      eapply read_loop_fuel; [| |exact E]; lia. }
    rewrite R. cbn [bind].
    rewrite (read_seq_fuel ns F2 (F + F2) r1 _ ltac:(lia) E2). reflexivity.
Qed.

Lemma follows_delivers : forall I out r, follows I out -> I O r -> delivers r out.
Proof.
  intros I out r HF HI ns.
  destruct (follows_seq I out HF ns O r HI) as (F & r' & E & _). eauto.
Qed.
