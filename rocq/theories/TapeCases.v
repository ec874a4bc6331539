(* Concrete sessions with changing rates. *)

From Coq Require Import ZArith Lia List Bool Reals Lra.
From RecordUpdate Require Import RecordUpdate.
From Flocq Require Import Core.Core IEEE754.BinarySingleNaN.
From Verif Require Import Machine Floats FloatFacts WavModel CacheModel ReaderModel ReaderSpec PlayProofs FilePlay
  CacheFacts CacheSpec FileSpec CacheFinal InterpCases TapeSpec.
Import ListNotations.
Local Open Scope Z_scope.

(* Single-precision rates from 2^-21 to 256 are multiples of 2^-44 *)
Lemma single_tape : forall X x, single_rate x -> R64 x = 0%R \/ (bpow radix2 (-21) <= R64 x <= bpow radix2 8)%R ->
  (R64 x <= X)%R -> rate_ok 44 X x.
Proof.
  intros X x (f & Ff & E) RB U. destruct (d_of_f_ok f Ff) as [V W]. rewrite <- E in *.
  split; [auto|]. split; [auto|]. destruct RB as [Z0|RB]; [exists 0; split; [lia|]; rewrite Z0; lra|].
  set (y := R64 x) in *.
  assert (G : generic_format radix2 (SpecFloat.fexp 24 128) y) by (rewrite V; apply generic_format_B2R).
  assert (P : (0 < y)%R) by (pose proof (bpow_gt_0 radix2 (-21)); lra).
  set (e := cexp radix2 (SpecFloat.fexp 24 128) y).
  assert (EL : -44 <= e).
  { unfold e, cexp, SpecFloat.fexp, SpecFloat.emin.
    assert (-20 <= mag radix2 y); [|lia].
    apply mag_ge_bpow. replace (-20 - 1) with (-21) by lia. rewrite Rabs_pos_eq; lra. }
  set (mt := Ztrunc (scaled_mantissa radix2 (SpecFloat.fexp 24 128) y)).
  assert (Y : y = (IZR (mt * 2 ^ (e + 44)) * bpow radix2 (- 44))%R).
  { unfold generic_format, F2R in G. cbn [Fnum Fexp] in G. fold mt e in G.
    rewrite mult_IZR, <- bpow_IZR by lia. rewrite Rmult_assoc, <- bpow_plus.
    replace (e + 44 + -44) with e by lia. exact G. }
  exists (mt * 2 ^ (e + 44)). split; [|exact Y].
  assert (BP : (0 < bpow radix2 (- 44))%R) by apply bpow_gt_0.
  split.
  - apply le_IZR. rewrite Y in P. apply Rmult_le_reg_r with (bpow radix2 (- 44)); [auto|]. lra.
  - apply le_IZR. apply Rmult_le_reg_r with (bpow radix2 (- 44)); [auto|]. rewrite <- Y.
    rewrite <- (bpow_IZR 52) by lia. rewrite <- bpow_plus. apply RB.
Qed.


Lemma whole_rate : forall n, 0 <= n <= 256 -> rate_ok 44 (IZR n) (d_of_Z n) /\ R64 (d_of_Z n) = IZR n.
Proof.
  intros n N. destruct (d_of_Z_ok n) as [V F]; [lia|]. split; [|exact V]. split; [exact F|]. split; [rewrite V; lra|].
  exists (n * 2 ^ 44). split; [lia|]. rewrite V, mult_IZR, <- (bpow_IZR 44) by lia. rewrite Rmult_assoc, <- bpow_plus.
  change (bpow radix2 (44 + - (44))) with 1%R. ring.
Qed.
Lemma rate_le : forall q X Y x, rate_ok q X x -> (X <= Y)%R -> rate_ok q Y x.
Proof. intros q X Y x (F & U & H) L. split; [auto|]. split; [lra|auto]. Qed.
Lemma halves_rate : rate_ok 44 23 dthree_halves /\ R64 dthree_halves = 1.5%R.
Proof.
  destruct (d_of_me_round 3 (-1)) as [E _]. { eapply Rle_trans; [|apply (bpow_le _ 2); lia]. cbn. rewrite Rabs_pos_eq; lra. }
  assert (V : R64 dthree_halves = (3 * bpow radix2 (- 1))%R) by (unfold dthree_halves; rewrite E; apply rnd64_id; apply fmt64_me; cbn; lia).
  assert (V2 : R64 dthree_halves = 1.5%R) by (rewrite V; cbn; lra).
  split; [|exact V2]. split; [reflexivity|]. split; [rewrite V2; lra|]. exists (3 * 2 ^ 43). split; [lia|].
  rewrite V, mult_IZR, <- (bpow_IZR 43) by lia. rewrite Rmult_assoc, <- bpow_plus. reflexivity.
Qed.

(* A stereo file from SD: up to 23 times the speed, in updates of 128 frames *)
Definition tape_ex : list tape_op :=
  [Block 4; Speed dthree_halves; Block 4; Speed d0; Block 2; Speed (d_of_Z 23); Block 128].
Lemma tape_case : cfg_ok (r_cfg (new_reader KSd)) /\ r_kind (new_reader KSd) <> KArray /\
  basic_settings (new_reader KSd) LNone PSample 0 /\ r_hdr (new_reader KSd) = 0 /\ 0 < fsize (ramp_file 32768) < 2 ^ 31 /\
  rate_ok 44 23 (r_rate (new_reader KSd)) /\ Forall (tape_ok 44 23 128) tape_ex /\
  ((23 + 1) * INR 2 <= IZR (2 ^ 30))%R /\
  ((INR (2 * 128) * 23 + 2) * INR 2 <= IZR ((Z.of_nat (c_nbuf (r_cfg (new_reader KSd))) - 1) * BS (r_cfg (new_reader KSd))))%R.
Proof.
  split; [split; cbn; lia|]. split; [discriminate|]. split; [repeat split|]. split; [reflexivity|].
  split; [cbn; lia|]. split.
  { change (r_rate (new_reader KSd)) with (d_of_Z 1). eapply rate_le; [apply whole_rate; lia|lra]. }
  split.
  { repeat (apply Forall_cons; [cbn [tape_ok]; try lia|]); try apply Forall_nil.
    - apply halves_rate.
    - change d0 with (d_of_Z 0). eapply rate_le; [apply whole_rate; lia|lra].
    - apply whole_rate; lia. }
  change (INR 2) with 2%R. split; [cbn; lra|].
  rewrite INR_IZR_INZ. change (Z.of_nat (2 * 128)) with 256.
  change ((Z.of_nat (c_nbuf (r_cfg (new_reader KSd))) - 1) * BS (r_cfg (new_reader KSd))) with 12288. lra.
Qed.

(* What it sounds like, on a mono file: the start of each block *)
Definition tape_starts (e : res reader) (l : list tape_op) : option (list (list Z) * Z) :=
  match e with
  | Ok r => match spun 600 r l with Ok (bs, r2) => Some (map (fun b => concat (firstn 6 b)) bs, misses r2) | _ => None end
  | _ => None
  end.
Lemma tape_heard : tape_starts (open_raw KSd d1 32768) tape_ex =
  Some ([[1; 2; 3; 4]; [5; 6; 8; 9]; [11; 11]; [11; 34; 57; 80; 103; 126]], 0).
Proof. vm_compute. reflexivity. Qed.

(* ---- turning the tape ---------------------------------------------------- *)

(* Forwards at speed 1 and back at speed 2, from SD: frame 2176 and 64 more in one
   update, then an update of silence *)
Definition turn_sd : list tape_op := repeat (Block 128) 17 ++ [Speed (dneg (d_of_Z 2)); Block 128; Block 128; Block 128].
(* Forwards and back at speed 1, from serial flash *)
Definition turn_flash : list tape_op := repeat (Block 128) 5 ++ [Speed (dneg d1); Block 128; Block 128; Block 128].

Definition silent (b : list (list Z)) : bool := forallb (fun fr => match fr with [v] => v =? 0 | _ => false end) b.
Definition turn_check (l : list tape_op) (k : nat) (n : Z) (r : reader) : bool :=
  match spun 600 r l with
  | Ok (bs, r2) => (misses r =? 0) && (misses r2 =? n) && silent (nth k bs []) && (length (nth k bs []) =? 128)%nat
  | _ => false
  end.
Lemma silent_ok : forall b, silent b = true -> forall fr, In fr b -> fr = [0].
Proof.
  intros b H fr I. unfold silent in H. rewrite forallb_forall in H. apply H in I.
  destruct fr as [|v [|? ?]]; try discriminate. apply Z.eqb_eq in I. now subst.
Qed.
Lemma turn_lost : forall kind len l k n,
  match open_raw kind d1 len with Ok r => turn_check l k n r | _ => false end = true ->
  exists r fuel bs r2, open_raw kind d1 len = Ok r /\ spun fuel r l = Ok (bs, r2) /\ misses r = 0 /\ misses r2 = n /\
    length (nth k bs []) = 128%nat /\ forall fr, In fr (nth k bs []) -> fr = [0].
Proof.
  intros kind len l k n H. destruct (open_raw kind d1 len) as [r| |]; try discriminate.
  unfold turn_check in H. destruct (spun 600 r l) as [[bs r2]| |] eqn:E; try discriminate.
  apply andb_prop in H. destruct H as [H H4]. apply andb_prop in H. destruct H as [H H3]. apply andb_prop in H. destruct H as [H1 H2].
  apply Z.eqb_eq in H1, H2. apply Nat.eqb_eq in H4.
  exists r, 600%nat, bs, r2. repeat split; auto. now apply silent_ok.
Qed.
Lemma turn_sd_lost : exists r fuel bs r2, open_raw KSd d1 32768 = Ok r /\ spun fuel r turn_sd = Ok (bs, r2) /\ misses r = 0 /\ misses r2 = 191 /\
    length (nth 18 bs []) = 128%nat /\ forall fr, In fr (nth 18 bs []) -> fr = [0].
Proof. apply turn_lost. vm_compute. reflexivity. Qed.
Lemma turn_flash_lost : exists r fuel bs r2, open_raw KFlash d1 8000 = Ok r /\ spun fuel r turn_flash = Ok (bs, r2) /\ misses r = 0 /\ misses r2 = 255 /\
    length (nth 7 bs []) = 128%nat /\ forall fr, In fr (nth 7 bs []) -> fr = [0].
Proof. apply turn_lost. vm_compute. reflexivity. Qed.
