(* Real-number meaning of the floating point operations of Floats.v. *)

From Coq Require Import ZArith Reals Lia Lra Bool.
From Flocq Require Import Core.Core Relative IEEE754.BinarySingleNaN.
From Verif Require Import Machine Floats.
Local Open Scope R_scope.

Definition fexp64 := SpecFloat.fexp 53 1024.
Definition fexp32 := SpecFloat.fexp 24 128.
Definition rnd64 (x : R) : R := round radix2 fexp64 ZnearestE x.
Definition rnd32 (x : R) : R := round radix2 fexp32 ZnearestE x.
Definition fmt64 (x : R) : Prop := generic_format radix2 fexp64 x.
Definition fmt32 (x : R) : Prop := generic_format radix2 fexp32 x.

Notation R64 := (@B2R 53 1024).
Notation R32 := (@B2R 24 128).
Notation fin64 := (@is_finite 53 1024).
Notation fin32 := (@is_finite 24 128).

#[export] Instance fexp64_valid : Valid_exp fexp64 := fexp_correct 53 1024 _.
#[export] Instance fexp32_valid : Valid_exp fexp32 := fexp_correct 24 128 _.
#[export] Instance fexp64_mono : Monotone_exp fexp64 := fexp_monotone 53 1024.
#[export] Instance fexp32_mono : Monotone_exp fexp32 := fexp_monotone 24 128.

Lemma fexp64_FLT : forall e, fexp64 e = FLT_exp (-1074) 53 e.
Proof. reflexivity. Qed.
Lemma fexp32_FLT : forall e, fexp32 e = FLT_exp (-149) 24 e.
Proof. reflexivity. Qed.

Lemma bpow_IZR : forall e, (0 <= e)%Z -> bpow radix2 e = IZR (2 ^ e).
Proof. intros e H. now rewrite <- IZR_Zpower. Qed.

(* ---- representable numbers ---------------------------------------- *)

Lemma fmt64_me : forall m e, (Z.abs m <= 2 ^ 53)%Z -> (-1074 <= e)%Z ->
  fmt64 (IZR m * bpow radix2 e).
Proof.
  intros m e Hm He. unfold fmt64.
  destruct (Z.eq_dec (Z.abs m) (2 ^ 53)) as [E|E].
  - assert (G : generic_format radix2 fexp64 (bpow radix2 (53 + e))).
    { apply generic_format_bpow. rewrite fexp64_FLT. unfold FLT_exp. lia. }
    assert (Em : m = (2 ^ 53)%Z \/ m = (- 2 ^ 53)%Z) by lia.
    rewrite bpow_plus in G.
    destruct Em as [-> | ->].
    + exact G.
    + rewrite opp_IZR. replace (- IZR (2 ^ 53) * bpow radix2 e) with (- (IZR (2 ^ 53) * bpow radix2 e)) by ring.
      apply generic_format_opp. exact G.
  - apply (generic_format_FLT radix2 (-1074) 53).
    exists (Float radix2 m e); simpl; auto. lia.
Qed.

Lemma fmt32_me : forall m e, (Z.abs m <= 2 ^ 24)%Z -> (-149 <= e)%Z ->
  fmt32 (IZR m * bpow radix2 e).
Proof.
  intros m e Hm He. unfold fmt32.
  destruct (Z.eq_dec (Z.abs m) (2 ^ 24)) as [E|E].
  - assert (G : generic_format radix2 fexp32 (bpow radix2 (24 + e))).
    { apply generic_format_bpow. rewrite fexp32_FLT. unfold FLT_exp. lia. }
    assert (Em : m = (2 ^ 24)%Z \/ m = (- 2 ^ 24)%Z) by lia.
    rewrite bpow_plus in G.
    destruct Em as [-> | ->].
    + exact G.
    + rewrite opp_IZR. replace (- IZR (2 ^ 24) * bpow radix2 e) with (- (IZR (2 ^ 24) * bpow radix2 e)) by ring.
      apply generic_format_opp. exact G.
  - apply (generic_format_FLT radix2 (-149) 24).
    exists (Float radix2 m e); simpl; auto. lia.
Qed.

Lemma fmt64_Z : forall m, (Z.abs m <= 2 ^ 53)%Z -> fmt64 (IZR m).
Proof.
  intros m H. replace (IZR m) with (IZR m * bpow radix2 0) by (simpl; ring).
  apply fmt64_me; lia.
Qed.

Lemma fmt32_Z : forall m, (Z.abs m <= 2 ^ 24)%Z -> fmt32 (IZR m).
Proof.
  intros m H. replace (IZR m) with (IZR m * bpow radix2 0) by (simpl; ring).
  apply fmt32_me; lia.
Qed.

Lemma rnd64_id : forall x, fmt64 x -> rnd64 x = x.
Proof. intros x H. apply round_generic; auto. typeclasses eauto. Qed.
Lemma rnd32_id : forall x, fmt32 x -> rnd32 x = x.
Proof. intros x H. apply round_generic; auto. typeclasses eauto. Qed.

Lemma fmt64_R64 : forall x : b64, fmt64 (R64 x).
Proof. intros. apply generic_format_B2R. Qed.
Lemma fmt32_R32 : forall x : b32, fmt32 (R32 x).
Proof. intros. apply generic_format_B2R. Qed.

Lemma rnd64_le : forall x y, x <= y -> rnd64 x <= rnd64 y.
Proof. intros. apply round_le; auto; typeclasses eauto. Qed.
Lemma rnd32_le : forall x y, x <= y -> rnd32 x <= rnd32 y.
Proof. intros. apply round_le; auto; typeclasses eauto. Qed.

Lemma rnd64_abs_le : forall x b, fmt64 b -> Rabs x <= b -> Rabs (rnd64 x) <= b.
Proof.
  intros x b Hb H. apply abs_round_le_generic; auto; typeclasses eauto.
Qed.
Lemma rnd32_abs_le : forall x b, fmt32 b -> Rabs x <= b -> Rabs (rnd32 x) <= b.
Proof.
  intros x b Hb H. apply abs_round_le_generic; auto; typeclasses eauto.
Qed.

Lemma fmt64_bpow : forall e, (-1074 <= e)%Z -> (e <= 1023)%Z -> fmt64 (bpow radix2 e).
Proof.
  intros e H1 H2. apply generic_format_bpow. rewrite fexp64_FLT. unfold FLT_exp. lia.
Qed.
Lemma fmt32_bpow : forall e, (-149 <= e)%Z -> (e <= 127)%Z -> fmt32 (bpow radix2 e).
Proof.
  intros e H1 H2. apply generic_format_bpow. rewrite fexp32_FLT. unfold FLT_exp. lia.
Qed.

(* ---- no overflow --------------------------------------------------- *)

Lemma rnd64_lt_emax : forall x, Rabs x <= bpow radix2 1000 ->
  Rlt_bool (Rabs (rnd64 x)) (bpow radix2 1024) = true.
Proof.
  intros x H. apply Rlt_bool_true.
  eapply Rle_lt_trans; [apply rnd64_abs_le; [apply (fmt64_bpow 1000); lia|exact H]|].
  apply bpow_lt. lia.
Qed.
Lemma rnd32_lt_emax : forall x, Rabs x <= bpow radix2 120 ->
  Rlt_bool (Rabs (rnd32 x)) (bpow radix2 128) = true.
Proof.
  intros x H. apply Rlt_bool_true.
  eapply Rle_lt_trans; [apply rnd32_abs_le; [apply (fmt32_bpow 120); lia|exact H]|].
  apply bpow_lt. lia.
Qed.

Lemma dadd_ok : forall x y, fin64 x = true -> fin64 y = true ->
  Rabs (R64 x + R64 y) <= bpow radix2 1000 ->
  R64 (dadd x y) = rnd64 (R64 x + R64 y) /\ fin64 (dadd x y) = true.
Proof.
  intros x y Fx Fy H. unfold dadd.
  pose proof (Bplus_correct 53 1024 _ _ mode_NE x y Fx Fy) as C.
  change (round radix2 (SpecFloat.fexp 53 1024) (round_mode mode_NE) (R64 x + R64 y))
    with (rnd64 (R64 x + R64 y)) in C.
  rewrite rnd64_lt_emax in C by exact H. tauto.
Qed.

Lemma dsub_ok : forall x y, fin64 x = true -> fin64 y = true ->
  Rabs (R64 x - R64 y) <= bpow radix2 1000 ->
  R64 (dsub x y) = rnd64 (R64 x - R64 y) /\ fin64 (dsub x y) = true.
Proof.
  intros x y Fx Fy H. unfold dsub.
  pose proof (Bminus_correct 53 1024 _ _ mode_NE x y Fx Fy) as C.
  change (round radix2 (SpecFloat.fexp 53 1024) (round_mode mode_NE) (R64 x - R64 y))
    with (rnd64 (R64 x - R64 y)) in C.
  rewrite rnd64_lt_emax in C by exact H. tauto.
Qed.

Lemma dmul_ok : forall x y, fin64 x = true -> fin64 y = true ->
  Rabs (R64 x * R64 y) <= bpow radix2 1000 ->
  R64 (dmul x y) = rnd64 (R64 x * R64 y) /\ fin64 (dmul x y) = true.
Proof.
  intros x y Fx Fy H. unfold dmul.
  pose proof (Bmult_correct 53 1024 _ _ mode_NE x y) as C.
  change (round radix2 (SpecFloat.fexp 53 1024) (round_mode mode_NE) (R64 x * R64 y))
    with (rnd64 (R64 x * R64 y)) in C.
  rewrite rnd64_lt_emax in C by exact H. rewrite Fx, Fy in C. tauto.
Qed.

Lemma ddiv_ok : forall x y, fin64 x = true -> R64 y <> 0 ->
  Rabs (R64 x / R64 y) <= bpow radix2 1000 ->
  R64 (ddiv x y) = rnd64 (R64 x / R64 y) /\ fin64 (ddiv x y) = true.
Proof.
  intros x y Fx Hy H. unfold ddiv.
  pose proof (Bdiv_correct 53 1024 _ _ mode_NE x y Hy) as C.
  change (round radix2 (SpecFloat.fexp 53 1024) (round_mode mode_NE) (R64 x / R64 y))
    with (rnd64 (R64 x / R64 y)) in C.
  rewrite rnd64_lt_emax in C by exact H. rewrite Fx in C. tauto.
Qed.

Lemma fadd_ok : forall x y, fin32 x = true -> fin32 y = true ->
  Rabs (R32 x + R32 y) <= bpow radix2 120 ->
  R32 (fadd x y) = rnd32 (R32 x + R32 y) /\ fin32 (fadd x y) = true.
Proof.
  intros x y Fx Fy H. unfold fadd.
  pose proof (Bplus_correct 24 128 _ _ mode_NE x y Fx Fy) as C.
  change (round radix2 (SpecFloat.fexp 24 128) (round_mode mode_NE) (R32 x + R32 y))
    with (rnd32 (R32 x + R32 y)) in C.
  rewrite rnd32_lt_emax in C by exact H. tauto.
Qed.

Lemma fsub_ok : forall x y, fin32 x = true -> fin32 y = true ->
  Rabs (R32 x - R32 y) <= bpow radix2 120 ->
  R32 (fsub x y) = rnd32 (R32 x - R32 y) /\ fin32 (fsub x y) = true.
Proof.
  intros x y Fx Fy H. unfold fsub.
  pose proof (Bminus_correct 24 128 _ _ mode_NE x y Fx Fy) as C.
  change (round radix2 (SpecFloat.fexp 24 128) (round_mode mode_NE) (R32 x - R32 y))
    with (rnd32 (R32 x - R32 y)) in C.
  rewrite rnd32_lt_emax in C by exact H. tauto.
Qed.

Lemma fmul_ok : forall x y, fin32 x = true -> fin32 y = true ->
  Rabs (R32 x * R32 y) <= bpow radix2 120 ->
  R32 (fmul x y) = rnd32 (R32 x * R32 y) /\ fin32 (fmul x y) = true.
Proof.
  intros x y Fx Fy H. unfold fmul.
  pose proof (Bmult_correct 24 128 _ _ mode_NE x y) as C.
  change (round radix2 (SpecFloat.fexp 24 128) (round_mode mode_NE) (R32 x * R32 y))
    with (rnd32 (R32 x * R32 y)) in C.
  rewrite rnd32_lt_emax in C by exact H. rewrite Fx, Fy in C. tauto.
Qed.

Lemma fdiv_ok : forall x y, fin32 x = true -> R32 y <> 0 ->
  Rabs (R32 x / R32 y) <= bpow radix2 120 ->
  R32 (fdiv x y) = rnd32 (R32 x / R32 y) /\ fin32 (fdiv x y) = true.
Proof.
  intros x y Fx Hy H. unfold fdiv.
  pose proof (Bdiv_correct 24 128 _ _ mode_NE x y Hy) as C.
  change (round radix2 (SpecFloat.fexp 24 128) (round_mode mode_NE) (R32 x / R32 y))
    with (rnd32 (R32 x / R32 y)) in C.
  rewrite rnd32_lt_emax in C by exact H. rewrite Fx in C. tauto.
Qed.

(* ---- conversions ---------------------------------------------------- *)

Lemma d_of_me_round : forall m e, Rabs (IZR m * bpow radix2 e) <= bpow radix2 1000 ->
  R64 (d_of_me m e) = rnd64 (IZR m * bpow radix2 e) /\ fin64 (d_of_me m e) = true.
Proof.
  intros m e H. unfold d_of_me.
  pose proof (binary_normalize_correct 53 1024 prec53 emax1024 mode_NE m e false) as C.
  cbv zeta in C.
  change (round radix2 (SpecFloat.fexp 53 1024) (round_mode mode_NE)) with rnd64 in C.
  change (@F2R radix2 {| Fnum := m; Fexp := e |}) with (IZR m * bpow radix2 e) in C.
  rewrite rnd64_lt_emax in C by exact H. tauto.
Qed.

Lemma d_of_Z_ok : forall z, (Z.abs z <= 2 ^ 53)%Z ->
  R64 (d_of_Z z) = IZR z /\ fin64 (d_of_Z z) = true.
Proof.
  intros z H.
  assert (B : Rabs (IZR z * bpow radix2 0) <= bpow radix2 1000).
  { simpl bpow at 1. rewrite Rmult_1_r, <- abs_IZR.
    apply Rle_trans with (IZR (2 ^ 53)); [apply IZR_le; lia|].
    rewrite <- bpow_IZR by lia. apply bpow_le. lia. }
  destruct (d_of_me_round z 0 B) as [H1 H2]. split; auto.
  change (d_of_Z z) with (d_of_me z 0). rewrite H1. simpl bpow. rewrite Rmult_1_r.
  apply rnd64_id, fmt64_Z, H.
Qed.

Lemma f_of_Z_round : forall z, (Z.abs z <= 2 ^ 100)%Z ->
  R32 (f_of_Z z) = rnd32 (IZR z) /\ fin32 (f_of_Z z) = true.
Proof.
  intros z H. unfold f_of_Z.
  pose proof (binary_normalize_correct 24 128 prec24 emax128 mode_NE z 0 false) as C.
  cbv zeta in C.
  replace (F2R {| Fnum := z; Fexp := 0 |}) with (IZR z) in C
    by (unfold F2R; simpl; ring).
  change (round radix2 (SpecFloat.fexp 24 128) (round_mode mode_NE) (IZR z)) with (rnd32 (IZR z)) in C.
  rewrite rnd32_lt_emax in C; [tauto|].
  rewrite <- abs_IZR. apply Rle_trans with (IZR (2 ^ 100)); [apply IZR_le; lia|].
  rewrite <- bpow_IZR by lia. apply bpow_le. lia.
Qed.

Lemma f_of_Z_ok : forall z, (Z.abs z <= 2 ^ 24)%Z ->
  R32 (f_of_Z z) = IZR z /\ fin32 (f_of_Z z) = true.
Proof.
  intros z H. destruct (f_of_Z_round z ltac:(lia)) as [A B]. split; auto.
  rewrite A. apply rnd32_id, fmt32_Z, H.
Qed.


Lemma fmt32_fmt64 : forall x, fmt32 x -> fmt64 x.
Proof.
  intros x H. apply generic_inclusion_mag with (fexp1 := fexp32); [|exact H].
  intros _. rewrite fexp32_FLT, fexp64_FLT. unfold FLT_exp. lia.
Qed.

Lemma d_of_f_ok : forall x : b32, fin32 x = true ->
  R64 (d_of_f x) = R32 x /\ fin64 (d_of_f x) = true.
Proof.
  intros [s|s| |s m e B] F; try discriminate.
  - split; reflexivity.
  - unfold d_of_f.
    pose proof (binary_normalize_correct 53 1024 prec53 emax1024 mode_NE (cond_Zopp s (Zpos m)) e s) as C.
    cbv zeta in C.
    pose proof (fmt32_fmt64 _ (fmt32_R32 (B754_finite s m e B))) as G. cbn [B2R] in G.
    change (round radix2 (SpecFloat.fexp 53 1024) (round_mode mode_NE)) with rnd64 in C.
    rewrite (rnd64_id _ G) in C.
    rewrite Rlt_bool_true in C.
    + cbn [B2R]. tauto.
    + pose proof (abs_B2R_lt_emax 24 128 (B754_finite s m e B)) as A. cbn [B2R] in A.
      eapply Rlt_trans; [exact A|]. apply bpow_lt. lia.
Qed.

Lemma f_of_d_ok : forall x : b64, fin64 x = true -> Rabs (R64 x) <= bpow radix2 120 ->
  R32 (f_of_d x) = rnd32 (R64 x) /\ fin32 (f_of_d x) = true.
Proof.
  intros [s|s| |s m e B] F H; try discriminate.
  - split; auto. cbn. unfold rnd32. now rewrite round_0 by typeclasses eauto.
  - unfold f_of_d. cbn [B2R] in *.
    pose proof (binary_normalize_correct 24 128 prec24 emax128 mode_NE (cond_Zopp s (Zpos m)) e s) as C.
    cbv zeta in C.
    change (round radix2 (SpecFloat.fexp 24 128) (round_mode mode_NE)) with rnd32 in C.
    rewrite rnd32_lt_emax in C by exact H. tauto.
Qed.

Lemma round_FIX0 : forall rnd x, round radix2 (FIX_exp 0) rnd x = IZR (rnd x).
Proof.
  intros rnd x. unfold round, scaled_mantissa, cexp, FIX_exp, F2R. simpl.
  now rewrite !Rmult_1_r.
Qed.

Lemma Btrunc64 : forall x : b64, Btrunc x = Ztrunc (R64 x).
Proof.
  intros x. apply eq_IZR. rewrite Btrunc_correct by typeclasses eauto. apply round_FIX0.
Qed.
Lemma Btrunc32 : forall x : b32, Btrunc x = Ztrunc (R32 x).
Proof.
  intros x. apply eq_IZR. rewrite Btrunc_correct by typeclasses eauto. apply round_FIX0.
Qed.

Lemma d_to_s32_ok : forall x, fin64 x = true -> in_s32 (Ztrunc (R64 x)) ->
  d_to_s32 x = Ok (Ztrunc (R64 x)).
Proof.
  intros x F H. unfold d_to_s32, d_trunc. rewrite F, Btrunc64.
  apply in_s32b_spec in H. now rewrite H.
Qed.
Lemma d_to_s16_ok : forall x, fin64 x = true -> in_s16 (Ztrunc (R64 x)) ->
  d_to_s16 x = Ok (Ztrunc (R64 x)).
Proof.
  intros x F H. unfold d_to_s16, d_trunc. rewrite F, Btrunc64.
  apply in_s16b_spec in H. now rewrite H.
Qed.
Lemma f_to_s32_ok : forall x, fin32 x = true -> in_s32 (Ztrunc (R32 x)) ->
  f_to_s32 x = Ok (Ztrunc (R32 x)).
Proof.
  intros x F H. unfold f_to_s32, f_trunc. rewrite F, Btrunc32.
  apply in_s32b_spec in H. now rewrite H.
Qed.
Lemma d_to_s32_inv : forall x z, d_to_s32 x = Ok z ->
  fin64 x = true /\ z = Ztrunc (R64 x) /\ in_s32 z.
Proof.
  intros x z H. unfold d_to_s32, d_trunc in H.
  destruct (is_finite x) eqn:F; [|discriminate]. rewrite Btrunc64 in H.
  destruct (in_s32b (Ztrunc (R64 x))) eqn:I; inversion H; subst.
  apply in_s32b_spec in I. repeat split; auto; apply I.
Qed.

Lemma dfloor_R : forall x, R64 (dfloor x) = IZR (Zfloor (R64 x)) /\ fin64 (dfloor x) = fin64 x.
Proof.
  intros x. destruct (Bnearbyint_correct 53 1024 _ mode_DN x) as (A & B & _).
  rewrite round_FIX0 in A. auto.
Qed.
Lemma dceil_R : forall x, R64 (dceil x) = IZR (Zceil (R64 x)) /\ fin64 (dceil x) = fin64 x.
Proof.
  intros x. destruct (Bnearbyint_correct 53 1024 _ mode_UP x) as (A & B & _).
  rewrite round_FIX0 in A. auto.
Qed.
Lemma dround_R : forall x, R64 (dround x) = IZR (ZnearestA (R64 x)) /\ fin64 (dround x) = fin64 x.
Proof.
  intros x. destruct (Bnearbyint_correct 53 1024 _ mode_NA x) as (A & B & _).
  rewrite round_FIX0 in A. auto.
Qed.

(* ---- comparisons ---------------------------------------------------- *)

Lemma dlt_R : forall x y, fin64 x = true -> fin64 y = true -> dlt x y = Rlt_bool (R64 x) (R64 y).
Proof. intros. now apply Bltb_correct. Qed.
Lemma dle_R : forall x y, fin64 x = true -> fin64 y = true -> dle x y = Rle_bool (R64 x) (R64 y).
Proof. intros. now apply Bleb_correct. Qed.
Lemma deq_R : forall x y, fin64 x = true -> fin64 y = true -> deq x y = Req_bool (R64 x) (R64 y).
Proof. intros. now apply Beqb_correct. Qed.
Lemma flt_R : forall x y, fin32 x = true -> fin32 y = true -> flt x y = Rlt_bool (R32 x) (R32 y).
Proof. intros. now apply Bltb_correct. Qed.
Lemma fle_R : forall x y, fin32 x = true -> fin32 y = true -> fle x y = Rle_bool (R32 x) (R32 y).
Proof. intros. now apply Bleb_correct. Qed.

Lemma R64_d0 : R64 d0 = 0. Proof. reflexivity. Qed.
Lemma fin_d0 : fin64 d0 = true. Proof. reflexivity. Qed.
Lemma R64_d1 : R64 d1 = 1.
Proof. apply (d_of_Z_ok 1). lia. Qed.
Lemma fin_d1 : fin64 d1 = true.
Proof. apply (d_of_Z_ok 1). lia. Qed.
Lemma R64_neg : forall x, R64 (dneg x) = - R64 x.
Proof. intros. apply B2R_Bopp. Qed.
Lemma fin_neg : forall x, fin64 (dneg x) = fin64 x.
Proof. intros. apply is_finite_Bopp. Qed.
Lemma R64_abs : forall x, R64 (dabs x) = Rabs (R64 x).
Proof. intros. apply B2R_Babs. Qed.
Lemma fin_abs : forall x, fin64 (dabs x) = fin64 x.
Proof. intros. apply is_finite_Babs. Qed.

Lemma dge0_true : forall x, fin64 x = true -> 0 <= R64 x -> dle d0 x = true.
Proof. intros. rewrite dle_R by auto. now apply Rle_bool_true. Qed.
Lemma dge0_false : forall x, fin64 x = true -> R64 x < 0 -> dle d0 x = false.
Proof. intros. rewrite dle_R by auto. now apply Rle_bool_false. Qed.
Lemma dlt0_true : forall x, fin64 x = true -> R64 x < 0 -> dlt x d0 = true.
Proof. intros. rewrite dlt_R by auto. now apply Rlt_bool_true. Qed.
Lemma dlt0_false : forall x, fin64 x = true -> 0 <= R64 x -> dlt x d0 = false.
Proof. intros. rewrite dlt_R by auto. now apply Rlt_bool_false. Qed.
Lemma dgt0_true : forall x, fin64 x = true -> 0 < R64 x -> dlt d0 x = true.
Proof. intros. rewrite dlt_R by auto. now apply Rlt_bool_true. Qed.
Lemma dgt0_false : forall x, fin64 x = true -> R64 x <= 0 -> dlt d0 x = false.
Proof. intros. rewrite dlt_R by auto. now apply Rlt_bool_false. Qed.
Lemma dge0_inv : forall x, fin64 x = true -> dle d0 x = true -> 0 <= R64 x.
Proof.
  intros x F H. rewrite dle_R in H by auto. rewrite R64_d0 in H.
  destruct (Rle_bool_spec 0 (R64 x)); auto; discriminate.
Qed.
Lemma dge0_ninv : forall x, fin64 x = true -> dle d0 x = false -> R64 x < 0.
Proof.
  intros x F H. rewrite dle_R in H by auto. rewrite R64_d0 in H.
  destruct (Rle_bool_spec 0 (R64 x)); auto; discriminate.
Qed.

(* ---- integer and fractional parts ------------------------------------ *)

Lemma Ztrunc_bounds_pos : forall x, 0 <= x -> IZR (Ztrunc x) <= x < IZR (Ztrunc x) + 1.
Proof.
  intros x H. rewrite Ztrunc_floor by auto. split; [apply Zfloor_lb|apply Zfloor_ub].
Qed.
Lemma Ztrunc_bounds_neg : forall x, x <= 0 -> IZR (Ztrunc x) - 1 < x <= IZR (Ztrunc x).
Proof.
  intros x H. rewrite Ztrunc_ceil by auto.
  split; [|apply Zceil_ub].
  pose proof (Zceil_lb x). lra.
Qed.
Lemma Ztrunc_frac : forall x, Rabs (x - IZR (Ztrunc x)) < 1.
Proof.
  intros x. destruct (Rle_or_lt 0 x).
  - pose proof (Ztrunc_bounds_pos x H). apply Rabs_def1; lra.
  - pose proof (Ztrunc_bounds_neg x ltac:(lra)). apply Rabs_def1; lra.
Qed.
Lemma Ztrunc_frac_le : forall x, Rabs (x - IZR (Ztrunc x)) <= Rabs x.
Proof.
  intros x. destruct (Rle_or_lt 0 x).
  - pose proof (Ztrunc_bounds_pos x H).
    assert (0 <= IZR (Ztrunc x)).
    { apply IZR_le. rewrite Ztrunc_floor by auto. now apply Zfloor_lub. }
    rewrite !Rabs_pos_eq; lra.
  - pose proof (Ztrunc_bounds_neg x ltac:(lra)).
    assert (IZR (Ztrunc x) <= 0).
    { apply IZR_le. rewrite Ztrunc_ceil by lra. apply Zceil_glb. simpl. lra. }
    rewrite !Rabs_left1; lra.
Qed.

(* The fractional part of a double is a double *)
Lemma fmt64_frac : forall x, fmt64 x -> fmt64 (x - IZR (Ztrunc x)).
Proof.
  intros x H. apply (FLT_format_generic radix2 (-1074) 53) in H.
  destruct H as [[m e] Hx Hm He]. unfold F2R in Hx. simpl in *.
  destruct (Z.le_gt_cases 0 e) as [P|P].
  - assert (E : x = IZR (m * 2 ^ e)).
    { rewrite Hx, mult_IZR, <- bpow_IZR by auto. reflexivity. }
    rewrite E, Ztrunc_IZR. replace (IZR (m * 2 ^ e) - IZR (m * 2 ^ e)) with (IZR 0) by (simpl; ring).
    apply fmt64_Z. simpl. lia.
  - set (t := Ztrunc x) in *.
    assert (E : x - IZR t = IZR (m - t * 2 ^ (- e)) * bpow radix2 e).
    { rewrite minus_IZR, mult_IZR, <- bpow_IZR by lia. rewrite Hx.
      rewrite Rmult_minus_distr_r. f_equal. rewrite Rmult_assoc, <- bpow_plus.
      replace (- e + e)%Z with 0%Z by lia. simpl. ring. }
    rewrite E. apply fmt64_me; [|lia].
    pose proof (Ztrunc_frac_le x) as B. fold t in B. rewrite E, Hx in B.
    rewrite !Rabs_mult, !(Rabs_pos_eq (bpow radix2 e)) in B by apply bpow_ge_0.
    apply Rmult_le_reg_r in B; [|apply bpow_gt_0].
    rewrite <- !abs_IZR in B. apply le_IZR in B. lia.
Qed.

(* Distance from a real to its rounding: nearest is at least as good as any double *)
Lemma rnd64_nearest : forall x g, fmt64 g -> Rabs (rnd64 x - x) <= Rabs (g - x).
Proof.
  intros x g G.
  destruct (round_N_pt radix2 fexp64 (fun x => negb (Z.even x)) x) as [_ N].
  apply N. exact G.
Qed.

(* Relative error of a rounding, in the normal range or at integers *)
Lemma rnd64_error : forall x, Rabs (rnd64 x - x) <= bpow radix2 (-53) * Rabs x + bpow radix2 (-1075).
Proof.
  intros x.
  destruct (Rle_or_lt (bpow radix2 (-1022)) (Rabs x)) as [H|H].
  - assert (B : Rabs (rnd64 x - x) <= / 2 * bpow radix2 (-53 + 1) * Rabs x).
    { apply (relative_error_N_FLT_ex radix2 (-1074) 53 ltac:(lia) (fun x => negb (Z.even x)) x) in H as H'. 
      destruct H' as (eps & He & E). change (round radix2 (FLT_exp (-1074) 53) ZnearestE x) with (rnd64 x) in E.
      rewrite E. replace (x * (1 + eps) - x) with (eps * x) by ring.
      rewrite Rabs_mult. apply Rmult_le_compat_r; [apply Rabs_pos|exact He]. }
    pose proof (bpow_ge_0 radix2 (-1075)).
    replace (/ 2 * bpow radix2 (-53 + 1)) with (bpow radix2 (-53)) in B; [lra|].
    rewrite bpow_plus. change (bpow radix2 1) with 2. field.
  - destruct (Req_dec x 0) as [->|N].
    + unfold rnd64. rewrite round_0 by typeclasses eauto.
      rewrite Rminus_0_r, Rabs_R0, Rmult_0_r. pose proof (bpow_ge_0 radix2 (-1075)). lra.
    + pose proof (error_le_half_ulp radix2 fexp64 (fun x => negb (Z.even x)) x) as B.
      change (round radix2 fexp64 (Znearest (fun x0 : Z => negb (Z.even x0))) x) with (rnd64 x) in B.
      rewrite ulp_neq_0 in B by auto.
      assert (E : cexp radix2 fexp64 x = (-1074)%Z).
      { unfold cexp. rewrite fexp64_FLT. unfold FLT_exp.
        assert (mag radix2 x <= -1022)%Z by (apply mag_le_bpow; auto). lia. }
      rewrite E in B.
      replace (/ 2 * bpow radix2 (-1074)) with (bpow radix2 (-1075)) in B.
      * pose proof (Rmult_le_pos _ _ (bpow_ge_0 radix2 (-53)) (Rabs_pos x)). lra.
      * replace (-1074)%Z with (-1075 + 1)%Z by lia. rewrite bpow_plus. change (bpow radix2 1) with 2. field.
Qed.
