(* How far the play position can drift from the sum of the rates: C08, C77. *)

From Coq Require Import ZArith Lia List Bool Reals Lra.
From RecordUpdate Require Import RecordUpdate.
From Flocq Require Import Core.Core IEEE754.BinarySingleNaN.
Require Import Flocq.Prop.Relative Flocq.Prop.Plus_error.
From Verif Require Import Machine Floats FloatFacts WavModel InterpModel CacheModel CacheFacts ReaderModel ReaderFacts ReaderSpec.
Import ListNotations.
Local Open Scope R_scope.

(* Rates are set and frames read in any order; each entry of the list is a rate and
   the number of frames delivered at it.  Setting the rate must not move the head
   (it does at the ends of the source: C43) *)
Inductive driven (fuel : nat) : reader -> list (b64 * nat) -> reader -> Prop :=
| driven_nil : forall r, driven fuel r [] r
| driven_step : forall r x r1 n l r2 s r3, setPlaybackRate r x = Ok r1 -> r_pos1 r1 = r_pos1 r -> is_finite x = true ->
    r_read fuel r1 n = Ok (l, r2) -> driven fuel r2 s r3 -> driven fuel r ((x, length l) :: s) r3.

(* The distance that should have been travelled, and the error allowed *)
Fixpoint way (s : list (b64 * nat)) : R := match s with [] => 0 | (x, n) :: s => INR n * R64 x + way s end.
Fixpoint slack (s : list (b64 * nat)) : R := match s with [] => 0 | (x, n) :: s => INR n * (bpow radix2 (-53) * (Rabs (R64 x) + 1)) + slack s end.

(* single head, no loop, less than a frame pending *)
Definition one_way (r : reader) : Prop :=
  r_dual r = false /\ r_loop r = LNone /\ 1 <= IZR (r_nch r) /\ is_finite (r_rem r) = true /\ Rabs (R64 (r_rem r)) < 1.
(* from r to r' the head moved by D frames, w = what it should have moved *)
Definition moved (r r' : reader) (w e : R) : Prop := exists D : Z, r_pos1 r' = (r_pos1 r + D * r_nch r)%Z /\
  Rabs (IZR D + R64 (r_rem r') - R64 (r_rem r) - w) <= e.

Lemma dadd_fin : forall a b, fin64 a = true -> fin64 b = true -> fin64 (dadd a b) = true -> R64 (dadd a b) = rnd64 (R64 a + R64 b).
Proof.
  intros a b A B F. unfold dadd in *. pose proof (Bplus_correct 53 1024 _ _ mode_NE a b A B) as C.
  destruct (Rlt_bool _ _); [apply C|]. destruct C as [C _]. destruct (Bplus mode_NE a b); try discriminate; cbn in C; destruct (Bsign a); discriminate.
Qed.
Lemma sum_error : forall a b, fmt64 a -> fmt64 b -> Rabs (rnd64 (a + b) - (a + b)) <= bpow radix2 (-53) * Rabs (a + b).
Proof.
  intros a b A B.
  assert (A' : generic_format radix2 (FLT_exp (-1074) 53) a) by exact A. assert (B' : generic_format radix2 (FLT_exp (-1074) 53) b) by exact B.
  destruct (FLT_plus_error_N_ex radix2 (-1074) 53 (fun x => negb (Z.even x)) a b A' B') as (eps & E & V).
  change (rnd64 (a + b)) with (round radix2 (FLT_exp (-1074) 53) (Znearest (fun x => negb (Z.even x))) (a + b)). rewrite V.
  replace ((a + b) * (1 + eps) - (a + b)) with (eps * (a + b)) by ring. rewrite Rabs_mult. apply Rmult_le_compat_r; [apply Rabs_pos|].
  eapply Rle_trans; [exact E|]. assert (U : u_ro radix2 53 = bpow radix2 (-53)). { unfold u_ro. change (/ 2) with (bpow radix2 (-1)). rewrite <- bpow_plus. reflexivity. }
  rewrite U. pose proof (bpow_gt_0 radix2 (-53)) as P. apply Rle_trans with (bpow radix2 (-53) / 1); [|lra]. unfold Rdiv. apply Rmult_le_compat_l; [lra|]. apply Rinv_le; lra.
Qed.

Lemma advance_moves : forall r r', advance r = Ok r' -> fin64 (r_rem r) = true -> fin64 (r_rate r) = true -> Rabs (R64 (r_rem r)) < 1 ->
  moved r r' (R64 (r_rate r)) (bpow radix2 (-53) * (Rabs (R64 (r_rate r)) + 1)) /\ fin64 (r_rem r') = true /\ Rabs (R64 (r_rem r')) < 1 /\ r_rate r' = r_rate r.
Proof.
  intros r r' H F G B. unfold advance in H. cbv zeta in H. set (s := dadd (r_rem r) (r_rate r)) in *.
  apply bind_ok in H. destruct H as (D & E0 & H). apply d_to_s32_inv in E0. destruct E0 as (FS & DE & DI).
  apply bind_ok in H. destruct H as (st & E1 & H). apply chk32_inv in E1. apply bind_ok in H. destruct H as (p & E2 & H). apply chk32_inv in E2.
  assert (SV : R64 s = rnd64 (R64 (r_rem r) + R64 (r_rate r))) by (apply dadd_fin; auto).
  destruct (d_of_Z_ok D) as [Z1 Z2]; [unfold in_s32 in DI; lia|].
  destruct (dsub_ok s (d_of_Z D) FS Z2) as [S1 S2].
  { rewrite Z1, DE. eapply Rle_trans; [apply Rlt_le, Ztrunc_frac|]. change 1 with (bpow radix2 0). apply bpow_le. lia. }
  assert (X : R64 (dsub s (d_of_Z D)) = R64 s - IZR D). { rewrite S1, Z1. apply rnd64_id. rewrite DE. apply fmt64_frac. apply fmt64_R64. }
  assert (Q : r_pos1 r' = (r_pos1 r + D * r_nch r)%Z /\ r_rem r' = dsub s (d_of_Z D) /\ r_rate r' = r_rate r).
  { destruct E1 as [E1 _], E2 as [E2 _]. rewrite E2, E1 in H. destruct (r_cfst r =? 0)%Z.
    - apply Ok_inj in H. rewrite <- H. repeat split.
    - apply bind_ok in H. destruct H as (q & _ & H). apply Ok_inj in H. rewrite <- H. repeat split. }
  destruct Q as (Q1 & Q2 & Q3). split; [|rewrite Q2; split; [exact S2|]; split; [rewrite X, DE; apply Ztrunc_frac|exact Q3]].
  exists D. split; [exact Q1|]. rewrite Q2, X, SV.
  replace (IZR D + (rnd64 (R64 (r_rem r) + R64 (r_rate r)) - IZR D) - R64 (r_rem r) - R64 (r_rate r)) with (rnd64 (R64 (r_rem r) + R64 (r_rate r)) - (R64 (r_rem r) + R64 (r_rate r))) by ring.
  eapply Rle_trans; [apply sum_error; apply fmt64_R64|]. apply Rmult_le_compat_l; [apply bpow_ge_0|]. pose proof (Rabs_triang (R64 (r_rem r)) (R64 (r_rate r))). lra.
Qed.

(* what matters of the state *)
Definition same_head (r r' : reader) : Prop := r_dual r' = r_dual r /\ r_loop r' = r_loop r /\ r_nch r' = r_nch r /\ r_rem r' = r_rem r /\ r_rate r' = r_rate r /\ r_pos1 r' = r_pos1 r.
Lemma quiet_head : forall r r', quiet r r' -> same_head r r'.
Proof.
  intros r r' [E _]. repeat split; symmetry.
  - exact (f_equal r_dual E). - exact (f_equal r_loop E). - exact (f_equal r_nch E). - exact (f_equal r_rem E). - exact (f_equal r_rate E). - exact (f_equal r_pos1 E).
Qed.
Lemma head_refl : forall r, same_head r r. Proof. repeat split. Qed.
Lemma head_trans : forall a b c, same_head a b -> same_head b c -> same_head a c.
Proof. unfold same_head. intuition congruence. Qed.
Lemma one_head : forall fuel ch r o r', r_loop r = LNone -> read_one fuel ch r = Ok (o, r') -> same_head r r'.
Proof.
  intros [|fuel] ch r o r' L H; [discriminate|]. cbn [read_one] in H. apply bind_ok in H. destruct H as ([o1 r1] & E & H). destruct o1.
  - apply Ok_inj in H. apply pair_equal_spec in H. destruct H as [_ <-]. apply readNextValue_some in E. apply quiet_head. tauto.
  - apply readNextValue_none in E. destruct E as [_ ->]. apply bind_ok in H. destruct H as (e & E2 & H).
    unfold on_end in E2. change (r_loop (r <| r_cfst := 0%Z |>)) with (r_loop r) in E2. cbv zeta in E2. rewrite L in E2. apply Ok_inj in E2. subst e.
    apply Ok_inj in H. apply pair_equal_spec in H. destruct H as [_ <-]. repeat split.
Qed.
Lemma channels_head : forall fuel todo ch r o r', r_loop r = LNone -> read_channels fuel todo ch r = Ok (o, r') -> same_head r r'.
Proof.
  intros fuel. induction todo as [|todo IH]; intros ch r o r' L H.
  - cbn in H. apply Ok_inj in H. apply pair_equal_spec in H. destruct H as [_ <-]. apply head_refl.
  - cbn [read_channels] in H. apply bind_ok in H. destruct H as ([o1 r1] & E & H). apply one_head in E; auto. destruct o1.
    + apply bind_ok in H. destruct H as ([o2 r2] & E2 & H). apply IH in E2; [|unfold same_head in E; intuition congruence].
      destruct o2; apply Ok_inj in H; apply pair_equal_spec in H; destruct H as [_ <-]; eapply head_trans; eauto.
    + apply Ok_inj in H. apply pair_equal_spec in H. destruct H as [_ <-]. exact E.
Qed.
Lemma moved_head : forall a b c d w e, same_head a b -> moved b c w e -> same_head c d -> moved a d w e.
Proof.
  intros a b c d w e (_ & _ & N1 & R1 & _ & P1) (D & P & E) (_ & _ & _ & R2 & _ & P2). exists D. rewrite P2, P, P1, N1. split; [reflexivity|]. now rewrite R2, <- R1.
Qed.
Lemma moved_trans : forall a b c w1 e1 w2 e2, r_nch b = r_nch a -> moved a b w1 e1 -> moved b c w2 e2 -> moved a c (w1 + w2) (e1 + e2).
Proof.
  intros a b c w1 e1 w2 e2 N (D1 & P1 & E1) (D2 & P2 & E2). exists (D1 + D2)%Z. split; [rewrite P2, P1, N; ring|]. rewrite plus_IZR.
  replace (IZR D1 + IZR D2 + R64 (r_rem c) - R64 (r_rem a) - (w1 + w2)) with ((IZR D1 + R64 (r_rem b) - R64 (r_rem a) - w1) + (IZR D2 + R64 (r_rem c) - R64 (r_rem b) - w2)) by ring.
  eapply Rle_trans; [apply Rabs_triang|]. lra.
Qed.
Lemma moved_same : forall a b, same_head a b -> moved a b 0 0.
Proof. intros a b (_ & _ & _ & R & _ & P). exists 0%Z. split; [rewrite P; ring|]. rewrite R. replace (0 + R64 (r_rem a) - R64 (r_rem a) - 0) with 0 by ring. rewrite Rabs_R0. lra. Qed.

Local Notation err x := (bpow radix2 (-53) * (Rabs (R64 x) + 1)).

Lemma frame_moves : forall f r o r', one_way r -> fin64 (r_rate r) = true -> read_frame f r = Ok (o, r') ->
  one_way r' /\ r_nch r' = r_nch r /\ r_rate r' = r_rate r /\ match o with None => same_head r r' | Some _ => moved r r' (R64 (r_rate r)) (err (r_rate r)) end.
Proof.
  intros f r o r' (W1 & W2 & W3 & W4 & W5) F H. unfold read_frame in H. rewrite W1 in H. cbn [bind] in H.
  apply bind_ok in H. destruct H as ([x r2] & E & H). apply channels_head in E; auto. pose proof E as (A1 & A2 & A3 & A4 & A5 & A6). destruct x.
  - apply bind_ok in H. destruct H as (r3 & AD & H). apply Ok_inj in H. apply pair_equal_spec in H. destruct H as [<- <-].
    destruct (advance_moves r2 r3 AD) as (M & M1 & M2 & M3); [congruence|congruence|rewrite A4; exact W5|].
    apply advance_statics in AD. assert (ND : r_nch r3 = r_nch r2 /\ r_dual r3 = r_dual r2 /\ r_loop r3 = r_loop r2).
    { destruct AD as [S _]. split; [symmetry; exact (f_equal r_nch S)|]. split; [symmetry; exact (f_equal r_dual S)|symmetry; exact (f_equal r_loop S)]. }
    destruct ND as (N1 & N2 & N3). split; [unfold one_way; rewrite N1, N2, N3, A1, A2, A3; auto|]. split; [congruence|]. split; [congruence|].
    rewrite A5 in M. eapply moved_head; [exact E|exact M|apply head_refl].
  - apply Ok_inj in H. apply pair_equal_spec in H. destruct H as [<- <-]. split; [unfold one_way; rewrite A1, A2, A3, A4; auto|]. auto.
Qed.
Lemma loop_moves : forall f g r n l r', one_way r -> fin64 (r_rate r) = true -> read_loop f g r n = Ok (l, r') ->
  one_way r' /\ r_nch r' = r_nch r /\ moved r r' (INR (length l) * R64 (r_rate r)) (INR (length l) * err (r_rate r)).
Proof.
  intros f. induction g as [|g IH]; intros r n l r' W F H; cbn [read_loop] in H; destruct (Z.leb_spec n 0).
  1, 3: apply Ok_inj in H; apply pair_equal_spec in H; destruct H as [<- <-]; split; [exact W|]; split; [reflexivity|]; cbn [length INR]; rewrite !Rmult_0_l; apply moved_same, head_refl.
  - discriminate.
  - apply bind_ok in H. destruct H as ([o r1] & E & H). destruct (frame_moves f r o r1 W F E) as (W1 & N1 & R1 & M). destruct o as [vs|].
    + destruct (Z.eqb_spec (r_nch r) 0) as [Z0|Z0]. { exfalso. destruct W as (_ & _ & W & _). rewrite Z0 in W. lra. }
      apply bind_ok in H. destruct H as ([l2 r2] & E2 & H). apply Ok_inj in H. apply pair_equal_spec in H. destruct H as [<- <-].
      destruct (IH r1 (n - 1)%Z l2 r2 W1 ltac:(now rewrite R1) E2) as (W2 & N2 & M2). split; [exact W2|]. split; [congruence|]. rewrite R1 in M2.
      cbn [length]. rewrite S_INR, !Rmult_plus_distr_r, !Rmult_1_l, (Rplus_comm (_ * R64 _)), (Rplus_comm (_ * err _)). eapply moved_trans; eauto.
    + apply Ok_inj in H. apply pair_equal_spec in H. destruct H as [<- <-]. split; [exact W1|]. split; [exact N1|]. cbn [length INR]. rewrite !Rmult_0_l. apply moved_same. exact M.
Qed.
Lemma rate_moves : forall r x r1, setPlaybackRate r x = Ok r1 -> r_dual r1 = r_dual r /\ r_loop r1 = r_loop r /\ r_nch r1 = r_nch r /\ r_rem r1 = r_rem r /\ r_rate r1 = x.
Proof.
  intros r x r1 H. unfold setPlaybackRate in H. cbv zeta in H.
  repeat match type of H with context [if ?b then _ else _] => destruct b end;
    try (apply Ok_inj in H; rewrite <- H; repeat split); apply bind_ok in H; destruct H as (n & _ & H); apply Ok_inj in H; rewrite <- H; repeat split.
Qed.

Theorem drift_bounded : forall fuel r s r', driven fuel r s r' -> one_way r -> one_way r' /\ moved r r' (way s) (slack s).
Proof.
  assert (G : forall fuel r s r', driven fuel r s r' -> one_way r -> one_way r' /\ r_nch r' = r_nch r /\ moved r r' (way s) (slack s)).
  - induction 1 as [r|r x r1 n l r2 s r3 E P F E2 H IH]; intros W.
    + split; [exact W|]. split; [reflexivity|]. apply moved_same, head_refl.
    + destruct (rate_moves _ _ _ E) as (A1 & A2 & A3 & A4 & A5). pose proof W as (W1 & W2 & W3 & W4 & W5).
      assert (WA : one_way r1) by (unfold one_way; rewrite A1, A2, A3, A4; auto).
      assert (S2 : one_way r2 /\ r_nch r2 = r_nch r1 /\ moved r1 r2 (INR (length l) * R64 x) (INR (length l) * err x)).
      { unfold r_read in E2. destruct (negb (r_playing r1)).
        - apply Ok_inj in E2. apply pair_equal_spec in E2. destruct E2 as [<- <-]. split; [exact WA|]. split; [reflexivity|]. cbn [length INR]. rewrite !Rmult_0_l. apply moved_same, head_refl.
        - destruct (_ <? _)%Z; [discriminate|]. rewrite <- A5. eapply loop_moves; eauto. now rewrite A5. }
      destruct S2 as (WB & NB & MB). destruct (IH WB) as (WC & NC & MC). split; [exact WC|]. split; [congruence|]. cbn [way slack].
      eapply moved_trans; [|exact MB|exact MC] || idtac. destruct MB as (D & PD & ED). eapply moved_trans; [| |exact MC]; [congruence|]. exists D. rewrite <- A4, <- A3, <- P. auto.
  - intros fuel r s r' H W. destruct (G _ _ _ _ H W) as (A & _ & B). auto.
Qed.

(* ---- what is heard: arrays, no interpolation -------------------------------- *)
Section Heard.
Variables (m : mem) (off : Z).
Definition bare (r : reader) : Prop := r_src r = SArr m off /\ r_interp r = INone /\ r_dual r = false /\ r_loop r = LNone.
Lemma bare_one : forall fuel ch r v r', bare r -> read_one fuel ch r = Ok (Some v, r') -> v = src_sample m off (r_pos1 r + ch) /\ r' = r.
Proof.
  intros [|fuel] ch r v r' (B1 & B2 & B3 & B4) H; [discriminate|]. cbn [read_one] in H. apply bind_ok in H. destruct H as ([o r1] & E & H). destruct o as [w|].
  - apply Ok_inj in H. apply pair_equal_spec in H. destruct H as [V <-]. injection V as <-. unfold readNextValue in E. destruct (at_end r); [discriminate|].
    apply bind_ok in E. destruct E as ([x r2] & E1 & E). unfold fetch_value in E1. rewrite B3 in E1. cbn [negb orb] in E1. unfold getAt in E1.
    apply bind_ok in E1. destruct E1 as (q & Q1 & E1). apply chk32_inv in Q1. apply bind_ok in E1. destruct E1 as (p & P1 & E1). apply chk32_inv in P1.
    unfold getSourceBufferValue in E1. rewrite B1 in E1. destruct (_ && _); [|discriminate]. apply Ok_inj in E1. apply pair_equal_spec in E1. destruct E1 as [<- <-].
    rewrite B2 in E. cbn [bind] in E. apply Ok_inj in E. apply pair_equal_spec in E. destruct E as [E <-]. injection E as <-. split; [|reflexivity].
    assert (PE : p = (r_pos1 r + ch)%Z) by (destruct P1 as [-> _], Q1 as [-> _]; lia). rewrite PE. reflexivity.
  - apply readNextValue_none in E. destruct E as [_ ->]. apply bind_ok in H. destruct H as (e & E2 & H).
    unfold on_end in E2. change (r_loop (r <| r_cfst := 0%Z |>)) with (r_loop r) in E2. cbv zeta in E2. rewrite B4 in E2. apply Ok_inj in E2. subst e. discriminate.
Qed.
Lemma bare_channels : forall fuel todo c r vs r', bare r -> read_channels fuel todo (Z.of_nat c) r = Ok (Some vs, r') ->
  vs = map (fun c => src_sample m off (r_pos1 r + Z.of_nat c)) (seq c todo) /\ r' = r.
Proof.
  intros fuel. induction todo as [|todo IH]; intros c r vs r' B H; cbn [read_channels] in H.
  - apply Ok_inj in H. apply pair_equal_spec in H. destruct H as [V <-]. injection V as <-. auto.
  - apply bind_ok in H. destruct H as ([o1 r1] & E & H). destruct o1 as [v|]; [|discriminate]. apply bare_one in E; auto. destruct E as [-> ->].
    apply bind_ok in H. destruct H as ([o2 r2] & E2 & H). destruct o2 as [l|]; [|discriminate]. replace (Z.of_nat c + 1)%Z with (Z.of_nat (S c)) in E2 by lia.
    apply IH in E2; auto. destruct E2 as [-> ->]. apply Ok_inj in H. apply pair_equal_spec in H. destruct H as [V <-]. injection V as <-. auto.
Qed.
Lemma bare_read : forall fuel r fr r', bare r -> (1 <= r_nch r)%Z -> r_read fuel r 1 = Ok ([fr], r') ->
  forall p, r_pos1 r = (p * r_nch r)%Z -> fr = src_frame m off (Z.to_nat (r_nch r)) p.
Proof.
  intros fuel r fr r' B N H p P. unfold r_read in H. destruct (negb _); [discriminate|]. destruct (_ <? _)%Z; [discriminate|].
  destruct fuel as [|fuel]; [discriminate|]. cbn [read_loop] in H. change (1 <=? 0)%Z with false in H. cbv iota in H.
  apply bind_ok in H. destruct H as ([o r1] & E & H). destruct o as [vs|]; [|discriminate]. destruct (Z.eqb_spec (r_nch r) 0); [lia|].
  apply bind_ok in H. destruct H as ([l r2] & E2 & H). apply Ok_inj in H. apply pair_equal_spec in H. destruct H as [H _]. injection H as -> _.
  unfold read_frame in E. pose proof B as (B1 & B2 & B3 & B4). rewrite B3 in E. cbn [bind] in E. apply bind_ok in E. destruct E as ([o r3] & E3 & E).
  destruct o as [ws|]; [|discriminate]. change 0%Z with (Z.of_nat 0) in E3. apply bare_channels in E3; auto. destruct E3 as [-> ->].
  apply bind_ok in E. destruct E as (r4 & _ & E). apply Ok_inj in E. apply pair_equal_spec in E. destruct E as [E _]. injection E as <-.
  unfold src_frame. rewrite P, Z2Nat.id by lia. reflexivity.
Qed.
Lemma bare_keeps : forall r r', same_statics r r' -> bare r -> bare r'.
Proof.
  intros r r' (S & G) (B1 & B2 & B3 & B4). split; [|split; [rewrite <- B2; symmetry; exact (f_equal r_interp S)|split; [rewrite <- B3; symmetry; exact (f_equal r_dual S)|rewrite <- B4; symmetry; exact (f_equal r_loop S)]]].
  rewrite B1 in G. inversion G. reflexivity.
Qed.
Lemma bare_driven : forall fuel r s r', driven fuel r s r' -> bare r -> bare r' /\ r_nch r' = r_nch r.
Proof.
  induction 1 as [r|r x r1 n l r2 s r3 E P F E2 H IH]; intros B; [auto|].
  assert (B1 : bare r1).
  { destruct B as (B1 & B2 & B3 & B4). destruct (rate_moves _ _ _ E) as (A1 & A2 & A3 & A4 & A5). unfold bare. rewrite A1, A2, B3, B4.
    unfold setPlaybackRate in E. cbv zeta in E.
    repeat match type of E with context [if ?b then _ else _] => destruct b end;
    try (apply Ok_inj in E; rewrite <- E; auto); apply bind_ok in E; destruct E as (k & _ & E); apply Ok_inj in E; rewrite <- E; auto. }
  pose proof (r_read_statics _ _ _ _ _ E2) as ST. destruct (IH (bare_keeps _ _ ST B1)) as [K N]. split; [exact K|].
  rewrite N. destruct (rate_moves _ _ _ E) as (_ & _ & A3 & _). rewrite <- A3. symmetry. exact (f_equal r_nch (proj1 ST)).
Qed.
End Heard.

(* The frame heard next lies within a frame of where it should *)
Theorem drift_heard : forall m off fuel r s r' p0 fr r'' f2, driven fuel r s r' -> one_way r -> r_src r = SArr m off -> r_interp r = INone ->
  r_pos1 r = (p0 * r_nch r)%Z -> R64 (r_rem r) = 0 -> r_read f2 r' 1 = Ok ([fr], r'') ->
  exists p, fr = src_frame m off (Z.to_nat (r_nch r)) p /\ Rabs (IZR p - (IZR p0 + way s)) < 1 + slack s.
Proof.
  intros m off fuel r s r' p0 fr r'' f2 H W SR IN P0 R0 E. destruct (drift_bounded _ _ _ _ H W) as [W' (D & P & B)].
  destruct (bare_driven m off _ _ _ _ H) as [BR N]. { destruct W as (W1 & W2 & _). repeat split; auto. }
  exists (p0 + D)%Z. split.
  - rewrite <- N. eapply bare_read; eauto; [apply le_IZR; apply W'|]. rewrite P, P0, N. ring.
  - destruct W' as (_ & _ & _ & _ & W'). apply Rabs_def2 in W'. apply Rabs_le_inv in B. rewrite R0 in B. rewrite plus_IZR. apply Rabs_def1; lra.
Qed.
