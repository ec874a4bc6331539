(* interpolate() at one of its abscissae: C18. *)

From Coq Require Import ZArith Lia List Bool Reals Lra.
From Flocq Require Import Core.Core IEEE754.BinarySingleNaN.
From Verif Require Import Machine Floats FloatFacts InterpModel.
Import ListNotations.
Local Open Scope R_scope.

Definition xs_ok (l : list ipoint) : Prop := forall x y, In (x, y) l -> (0 <= x < 2 ^ 32)%Z.

(* the two differences are exact *)
Lemma diff_ok : forall x z, (0 <= x < 2 ^ 32)%Z -> (0 <= z < 2 ^ 32)%Z ->
  R64 (dsub (d_of_Z x) (d_of_Z z)) = IZR (x - z) /\ fin64 (dsub (d_of_Z x) (d_of_Z z)) = true.
Proof.
  intros x z X Z. destruct (d_of_Z_ok x ltac:(lia)) as [A F]. destruct (d_of_Z_ok z ltac:(lia)) as [B G].
  destruct (dsub_ok (d_of_Z x) (d_of_Z z) F G) as [C H].
  { rewrite A, B, <- minus_IZR, <- abs_IZR. apply Rle_trans with (IZR (2 ^ 32)); [apply IZR_le; lia|]. rewrite <- (bpow_IZR 32) by lia. apply bpow_le. lia. }
  split; [|exact H]. rewrite C, A, B, <- minus_IZR. apply rnd64_id, fmt64_Z. lia.
Qed.

(* one factor *)
Lemma factor_ok : forall t a b e, fin64 t = true -> fin64 a = true -> fin64 b = true -> (0 <= e <= 900)%Z ->
  Rabs (R64 t) <= bpow radix2 e -> Rabs (R64 a) <= bpow radix2 32 -> 1 <= Rabs (R64 b) ->
  let r := ddiv (dmul t a) b in fin64 r = true /\ Rabs (R64 r) <= bpow radix2 (e + 32) /\ R64 r = rnd64 (rnd64 (R64 t * R64 a) / R64 b).
Proof.
  intros t a b e Ft Fa Fb He T A B. cbv zeta.
  assert (M : Rabs (R64 t * R64 a) <= bpow radix2 (e + 32)).
  { rewrite Rabs_mult, bpow_plus. apply Rmult_le_compat; auto using Rabs_pos. }
  assert (L : bpow radix2 (e + 32) <= bpow radix2 1000) by (apply bpow_le; lia).
  destruct (dmul_ok t a Ft Fa) as [E1 F1]; [lra|].
  assert (M1 : Rabs (rnd64 (R64 t * R64 a)) <= bpow radix2 (e + 32)) by (apply rnd64_abs_le; [apply fmt64_bpow; lia|exact M]).
  assert (M2 : Rabs (rnd64 (R64 t * R64 a) / R64 b) <= bpow radix2 (e + 32)).
  { unfold Rdiv. rewrite Rabs_mult, Rabs_inv. rewrite <- (Rmult_1_r (bpow radix2 (e + 32))). apply Rmult_le_compat; auto using Rabs_pos.
    - apply Rlt_le, Rinv_0_lt_compat. lra.
    - rewrite <- Rinv_1. apply Rinv_le; lra. }
  assert (NZ : R64 b <> 0). { intros Z. rewrite Z, Rabs_R0 in B. lra. }
  destruct (ddiv_ok (dmul t a) b F1 NZ) as [E2 F2]; rewrite E1 in *; [lra|].
  split; [exact F2|]. rewrite E2. split; [|reflexivity]. apply rnd64_abs_le; [apply fmt64_bpow; lia|exact M2].
Qed.

Section Node.
Variable xk : Z.
Hypothesis XK : (0 <= xk < 2 ^ 32)%Z.
Local Notation xi := (d_of_Z xk).

Lemma dist_ge1 : forall x z : Z, x <> z -> 1 <= Rabs (IZR (x - z)).
Proof. intros. rewrite <- abs_IZR. apply IZR_le. lia. Qed.
Lemma dist_le : forall x z, (0 <= x < 2 ^ 32)%Z -> (0 <= z < 2 ^ 32)%Z -> Rabs (IZR (x - z)) <= bpow radix2 32.
Proof. intros. rewrite <- abs_IZR, (bpow_IZR 32) by lia. apply IZR_le. lia. Qed.

(* the term of the point itself stays what it is *)
Lemma own_term : forall l j i y t, xs_ok l -> fin64 t = true -> R64 t = IZR y -> (Z.abs y <= 2 ^ 15)%Z ->
  (forall n x z, nth_error l n = Some (x, z) -> (j + n)%nat <> i -> x <> xk) ->
  fin64 (lagrange_term l j i xk xi t) = true /\ R64 (lagrange_term l j i xk xi t) = IZR y.
Proof.
  induction l as [|[xj yj] l IH]; intros j i y t O F T Y D; cbn [lagrange_term]; [auto|].
  assert (XJ : (0 <= xj < 2 ^ 32)%Z) by (eapply O; left; reflexivity).
  assert (O' : xs_ok l) by (intros a b I; eapply O; right; exact I).
  assert (D' : forall n x z, nth_error l n = Some (x, z) -> (S j + n)%nat <> i -> x <> xk).
  { intros n x z N NE. apply (D (S n) x z N). lia. }
  destruct (Nat.eqb_spec j i) as [E|NE].
  - apply IH; auto.
  - assert (NX : xj <> xk) by (apply (D 0%nat xj yj eq_refl); lia).
    destruct (diff_ok xk xj XK XJ) as [V G].
    assert (TB : Rabs (R64 t) <= bpow radix2 15). { rewrite T, <- abs_IZR, (bpow_IZR 15) by lia. apply IZR_le. lia. }
    destruct (factor_ok t _ _ 15 F G G ltac:(lia) TB) as (F2 & _ & E2); rewrite ?V; [apply dist_le; auto|apply dist_ge1; lia|].
    apply IH; auto. rewrite E2, V, T. assert (PQ : rnd64 (IZR y * IZR (xk - xj)) = IZR y * IZR (xk - xj)).
    { rewrite <- mult_IZR. apply rnd64_id, fmt64_Z. rewrite Z.abs_mul. assert (Z.abs (xk - xj) <= 2 ^ 32)%Z by lia. nia. }
    rewrite PQ. replace (IZR y * IZR (xk - xj) / IZR (xk - xj)) with (IZR y). { apply rnd64_id, fmt64_Z. lia. }
    field. apply IZR_neq. lia.
Qed.

(* the other terms become 0 and stay so *)
Lemma zero_term : forall l j i x t, xs_ok l -> (0 <= x < 2 ^ 32)%Z -> fin64 t = true -> R64 t = 0 ->
  (forall n a z, nth_error l n = Some (a, z) -> (j + n)%nat <> i -> a <> x) ->
  fin64 (lagrange_term l j i x xi t) = true /\ R64 (lagrange_term l j i x xi t) = 0.
Proof.
  induction l as [|[xj yj] l IH]; intros j i x t O X F T D; cbn [lagrange_term]; [auto|].
  assert (XJ : (0 <= xj < 2 ^ 32)%Z) by (eapply O; left; reflexivity).
  assert (O' : xs_ok l) by (intros a b I; eapply O; right; exact I).
  assert (D' : forall n a z, nth_error l n = Some (a, z) -> (S j + n)%nat <> i -> a <> x).
  { intros n a z N NE. apply (D (S n) a z N). lia. }
  destruct (Nat.eqb_spec j i) as [E|NE]; [apply IH; auto|].
  assert (NX : xj <> x) by (apply (D 0%nat xj yj eq_refl); lia).
  destruct (diff_ok xk xj XK XJ) as [V G]. destruct (diff_ok x xj X XJ) as [V2 G2].
  assert (TB : Rabs (R64 t) <= bpow radix2 0). { rewrite T, Rabs_R0. apply bpow_ge_0. }
  destruct (factor_ok t _ _ 0 F G G2 ltac:(lia) TB) as (F2 & _ & E2); rewrite ?V, ?V2; [apply dist_le; auto|apply dist_ge1; lia|].
  apply IH; auto. rewrite E2, T, Rmult_0_l. unfold rnd64. rewrite round_0 by typeclasses eauto. unfold Rdiv. rewrite Rmult_0_l. apply round_0. typeclasses eauto.
Qed.
Lemma other_term : forall l j i x t e, xs_ok l -> (0 <= x < 2 ^ 32)%Z -> fin64 t = true -> Rabs (R64 t) <= bpow radix2 e ->
  (0 <= e)%Z -> (e + 32 * Z.of_nat (length l) <= 900)%Z ->
  (forall n a z, nth_error l n = Some (a, z) -> (j + n)%nat <> i -> a <> x) ->
  (exists n z, nth_error l n = Some (xk, z) /\ (j + n)%nat <> i) ->
  fin64 (lagrange_term l j i x xi t) = true /\ R64 (lagrange_term l j i x xi t) = 0.
Proof.
  induction l as [|[xj yj] l IH]; intros j i x t e O X F T E0 E1 D (n & z & N & NI); [destruct n; discriminate|].
  cbn [lagrange_term]. assert (XJ : (0 <= xj < 2 ^ 32)%Z) by (eapply O; left; reflexivity).
  assert (O' : xs_ok l) by (intros a b I; eapply O; right; exact I).
  assert (D' : forall n a z, nth_error l n = Some (a, z) -> (S j + n)%nat <> i -> a <> x).
  { intros n' a z' N' NE. apply (D (S n') a z' N'). lia. }
  cbn [length] in E1.
  destruct (Nat.eqb_spec j i) as [E|NE].
  - destruct n as [|n]; [lia|]. apply (IH _ _ _ _ e); auto; [lia|]. exists n, z. split; [exact N|lia].
  - assert (NX : xj <> x) by (apply (D 0%nat xj yj eq_refl); lia).
    destruct (diff_ok xk xj XK XJ) as [V G]. destruct (diff_ok x xj X XJ) as [V2 G2].
    destruct (factor_ok t _ _ e F G G2 ltac:(lia) T) as (F2 & B2 & E2); rewrite ?V, ?V2; [apply dist_le; auto|apply dist_ge1; lia|].
    destruct n as [|n].
    + cbn in N. injection N as -> ->. apply zero_term; auto. rewrite E2, V, Z.sub_diag, Rmult_0_r.
      unfold rnd64. rewrite round_0 by typeclasses eauto. unfold Rdiv. rewrite Rmult_0_l. apply round_0. typeclasses eauto.
    + apply (IH _ _ _ _ (e + 32)%Z); auto; [lia|lia|]. exists n, z. split; [exact N|lia].
Qed.

(* the sum *)
Lemma sum_after : forall all l i s y, xs_ok all -> (length all <= 16)%nat -> NoDup (map fst all) ->
  (forall n, nth_error l n = nth_error all (i + n)) -> (forall x z, In (x, z) all -> Z.abs z <= 2 ^ 15)%Z ->
  (exists n z, nth_error all n = Some (xk, z) /\ (n < i)%nat) -> fin64 s = true -> R64 s = IZR y -> (Z.abs y <= 2 ^ 15)%Z ->
  fin64 (lagrange_sum all l i xi s) = true /\ R64 (lagrange_sum all l i xi s) = IZR y.
Proof.
  intros all. induction l as [|[x z] l IH]; intros i s y O LN ND SUF YS (n & w & N & NI) F SV Y; cbn [lagrange_sum]; [auto|].
  assert (I : nth_error all i = Some (x, z)) by (rewrite <- (Nat.add_0_r i), <- SUF; reflexivity).
  pose proof (nth_error_In _ _ I) as IN. pose proof (O _ _ IN) as X. pose proof (YS _ _ IN) as Z1.
  destruct (d_of_Z_ok z ltac:(lia)) as [VZ FZ].
  destruct (other_term all 0 i x (d_of_Z z) 15 O X FZ) as [F2 V2]; try lia.
  { rewrite VZ, <- abs_IZR, (bpow_IZR 15) by lia. apply IZR_le. lia. }
  { intros n' a z' N' NE EQ. subst a. apply NE. cbn. rewrite NoDup_nth_error in ND. apply ND.
    - rewrite map_length. apply nth_error_Some. intros Q. discriminate (eq_trans (eq_sym N') Q).
    - apply (f_equal (option_map (@fst Z Z))) in N'. apply (f_equal (option_map (@fst Z Z))) in I. rewrite !nth_error_map. exact (eq_trans N' (eq_sym I)). }
  { exists n, w. split; [exact N|]. cbn. lia. }
  destruct (dadd_ok s _ F F2) as [V3 F3]. { rewrite SV, V2, Rplus_0_r, <- abs_IZR. apply Rle_trans with (IZR (2 ^ 15)); [apply IZR_le; lia|]. rewrite <- (bpow_IZR 15) by lia. apply bpow_le. lia. }
  apply IH; auto.
  - intros n'. replace (S i + n')%nat with (i + S n')%nat by lia. rewrite <- SUF. reflexivity.
  - exists n, w. split; [exact N|lia].
  - rewrite V3, SV, V2, Rplus_0_r. apply rnd64_id, fmt64_Z. lia.
Qed.
Lemma sum_before : forall all l i s k y, xs_ok all -> (length all <= 16)%nat -> NoDup (map fst all) ->
  (forall n, nth_error l n = nth_error all (i + n)) -> (forall x z, In (x, z) all -> Z.abs z <= 2 ^ 15)%Z ->
  nth_error all k = Some (xk, y) -> (i <= k)%nat -> fin64 s = true -> R64 s = 0 ->
  fin64 (lagrange_sum all l i xi s) = true /\ R64 (lagrange_sum all l i xi s) = IZR y.
Proof.
  intros all. induction l as [|[x z] l IH]; intros i s k y O LN ND SUF YS K IK F SV; cbn [lagrange_sum].
  { specialize (SUF (k - i)%nat). replace (i + (k - i))%nat with k in SUF by lia. destruct (k - i)%nat; discriminate (eq_trans SUF K). }
  assert (I : nth_error all i = Some (x, z)) by (rewrite <- (Nat.add_0_r i), <- SUF; reflexivity).
  pose proof (nth_error_In _ _ I) as IN. pose proof (O _ _ IN) as X. pose proof (YS _ _ IN) as Z1.
  destruct (d_of_Z_ok z ltac:(lia)) as [VZ FZ].
  assert (SUF' : forall n, nth_error l n = nth_error all (S i + n)) by (intros n'; replace (S i + n')%nat with (i + S n')%nat by lia; rewrite <- SUF; reflexivity).
  assert (DI : forall n' a z', nth_error all n' = Some (a, z') -> (0 + n')%nat <> i -> a <> x).
  { intros n' a z' N' NE EQ. subst a. apply NE. cbn. rewrite NoDup_nth_error in ND. apply ND.
    - rewrite map_length. apply nth_error_Some. intros Q. discriminate (eq_trans (eq_sym N') Q).
    - apply (f_equal (option_map (@fst Z Z))) in N'. apply (f_equal (option_map (@fst Z Z))) in I. rewrite !nth_error_map. exact (eq_trans N' (eq_sym I)). }
  destruct (Nat.eq_dec i k) as [->|NE].
  - rewrite I in K. injection K as -> ->.
    destruct (own_term all 0 k y (d_of_Z y) O FZ VZ Z1) as [F2 V2]; [exact DI|].
    destruct (dadd_ok s _ F F2) as [V3 F3]. { rewrite SV, V2, Rplus_0_l, <- abs_IZR. apply Rle_trans with (IZR (2 ^ 15)); [apply IZR_le; lia|]. rewrite <- (bpow_IZR 15) by lia. apply bpow_le. lia. }
    apply sum_after; auto.
    + exists k, y. split; [exact I|lia].
    + rewrite V3, SV, V2, Rplus_0_l. apply rnd64_id, fmt64_Z. lia.
  - destruct (other_term all 0 i x (d_of_Z z) 15 O X FZ) as [F2 V2]; try lia; auto.
    { rewrite VZ, <- abs_IZR, (bpow_IZR 15) by lia. apply IZR_le. lia. }
    { exists k, y. split; [exact K|cbn; lia]. }
    destruct (dadd_ok s _ F F2) as [V3 F3]. { rewrite SV, V2, Rplus_0_l, Rabs_R0. apply bpow_ge_0. }
    apply (IH (S i) _ k); auto; [lia|]. rewrite V3, SV, V2, Rplus_0_l. apply round_0. typeclasses eauto.
Qed.
End Node.

Theorem lagrange_node : forall pts k x y, (length pts <= 16)%nat -> (forall a b, In (a, b) pts -> (0 <= a < 2 ^ 32)%Z /\ in_s16 b) ->
  NoDup (map fst pts) -> nth_error pts k = Some (x, y) -> interpolate pts (d_of_Z x) = Ok y.
Proof.
  intros pts k x y L R ND K. pose proof (nth_error_In _ _ K) as IN. destruct (R _ _ IN) as [X Y]. unfold in_s16 in Y.
  destruct (sum_before x X pts pts 0 d0 k y) as [F V]; auto; try lia.
  { intros a b I. apply (R _ _ I). } { intros a b I. destruct (R _ _ I) as [_ B]. unfold in_s16 in B. lia. }
  unfold interpolate. set (s := lagrange_sum pts pts 0 (d_of_Z x) d0) in *.
  destruct (dround_R s) as [V2 F2]. rewrite F in F2. rewrite V, Zrnd_IZR in V2 by typeclasses eauto.
  rewrite d_to_s32_ok; rewrite ?V2, ?Ztrunc_IZR; [|exact F2|unfold in_s32; lia]. cbn [bind]. f_equal.
  unfold clamp16. destruct (Z.ltb_spec y (-32768)); [lia|]. destruct (Z.ltb_spec 32767 y); [lia|]. reflexivity.
Qed.
