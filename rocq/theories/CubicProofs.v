(* Rounding errors of fastinterpolate. *)

From Coq Require Import ZArith Lia List Bool Reals Lra Psatz.
From Flocq Require Import Core.Core IEEE754.BinarySingleNaN.
From Verif Require Import Machine Floats FloatFacts InterpModel.
Local Open Scope R_scope.

Lemma near32 : forall x e, (-100 <= e <= 127)%Z -> Rabs x <= bpow radix2 e -> Rabs (rnd32 x - x) <= bpow radix2 e / 33554432.
Proof.
  intros x e He H. destruct (Req_dec x 0) as [->|NZ].
  { rewrite rnd32_id; [|apply generic_format_0]. rewrite Rminus_diag_eq, Rabs_R0 by auto. pose proof (bpow_gt_0 radix2 e). lra. }
  destruct (Rle_lt_or_eq_dec _ _ H) as [L|E].
  - pose proof (error_le_half_ulp radix2 fexp32 (fun x => negb (Z.even x)) x) as U. change (round radix2 fexp32 (Znearest _) x) with (rnd32 x) in U.
    eapply Rle_trans; [exact U|]. rewrite ulp_neq_0 by exact NZ. unfold cexp.
    assert (M : (mag radix2 x <= e)%Z) by (apply mag_le_bpow; auto).
    assert (bpow radix2 (fexp32 (mag radix2 x)) <= bpow radix2 (e - 24)).
    { apply bpow_le. rewrite fexp32_FLT. unfold FLT_exp. lia. }
    assert (bpow radix2 (e - 24) = bpow radix2 e / 16777216).
    { unfold Zminus. rewrite bpow_plus. change (bpow radix2 (-24)) with (/ 16777216). reflexivity. }
    lra.
  - rewrite rnd32_id. { rewrite Rminus_diag_eq, Rabs_R0 by auto. pose proof (bpow_gt_0 radix2 e). lra. }
    assert (x = bpow radix2 e \/ x = - bpow radix2 e) as [->| ->]. { unfold Rabs in E. destruct (Rcase_abs x); lra. }
    + apply fmt32_bpow; lia.
    + apply generic_format_opp, fmt32_bpow; lia.
Qed.

Lemma big32 : forall e x, (e <= 120)%Z -> Rabs x <= bpow radix2 e -> Rabs x <= bpow radix2 120.
Proof. intros. eapply Rle_trans; [eassumption|]. now apply bpow_le. Qed.

Section Ops.
Variables (a b : b32) (e : Z) (M : R).
Hypothesis (Fa : fin32 a = true) (Fb : fin32 b = true) (He : (-100 <= e <= 120)%Z) (HM : bpow radix2 e = M).
Lemma add32 : Rabs (R32 a + R32 b) <= M -> fin32 (fadd a b) = true /\ Rabs (R32 (fadd a b) - (R32 a + R32 b)) <= M / 33554432.
Proof. intros H. rewrite <- HM in *. destruct (fadd_ok a b Fa Fb) as [-> F]; [apply (big32 e); auto; lia|]. split; [exact F|]. apply near32; auto; lia. Qed.
Lemma sub32 : Rabs (R32 a - R32 b) <= M -> fin32 (fsub a b) = true /\ Rabs (R32 (fsub a b) - (R32 a - R32 b)) <= M / 33554432.
Proof. intros H. rewrite <- HM in *. destruct (fsub_ok a b Fa Fb) as [-> F]; [apply (big32 e); auto; lia|]. split; [exact F|]. apply near32; auto; lia. Qed.
Lemma mul32 : Rabs (R32 a * R32 b) <= M -> fin32 (fmul a b) = true /\ Rabs (R32 (fmul a b) - R32 a * R32 b) <= M / 33554432.
Proof. intros H. rewrite <- HM in *. destruct (fmul_ok a b Fa Fb) as [-> F]; [apply (big32 e); auto; lia|]. split; [exact F|]. apply near32; auto; lia. Qed.
Lemma div32 : R32 b <> 0 -> Rabs (R32 a / R32 b) <= M -> fin32 (fdiv a b) = true /\ Rabs (R32 (fdiv a b) - R32 a / R32 b) <= M / 33554432.
Proof. intros NZ H. rewrite <- HM in *. destruct (fdiv_ok a b Fa NZ) as [-> F]; [apply (big32 e); auto; lia|]. split; [exact F|]. apply near32; auto; lia. Qed.
End Ops.

(* the constants are exact *)
Lemma const32 : forall z m e, (z = m * 2 ^ e)%Z -> (Z.abs m <= 2 ^ 24)%Z -> (0 <= e <= 20)%Z -> (Z.abs z < 2 ^ 60)%Z -> R32 (f_of_Z z) = IZR z /\ fin32 (f_of_Z z) = true.
Proof.
  intros z m e E Hm He Hz. destruct (f_of_Z_round z) as [A F]; [lia|]. split; [|exact F]. rewrite A. apply rnd32_id.
  rewrite E, mult_IZR. change 2%Z with (radix_val radix2). rewrite IZR_Zpower by lia. apply fmt32_me; lia.
Qed.

Definition cub (a b : Z) (y : R) : R := y * y * y - IZR a * (y * y) + IZR b * y.

(* ---- multiples of powers of two ---- *)

Definition mul2 (k : Z) (v : R) : Prop := exists m : Z, v = IZR m * bpow radix2 k.
Lemma mul2_le : forall j k v, (j <= k)%Z -> mul2 k v -> mul2 j v.
Proof.
  intros j k v L (m & ->). exists (m * 2 ^ (k - j))%Z. rewrite mult_IZR. change 2%Z with (radix_val radix2). rewrite IZR_Zpower by lia.
  rewrite Rmult_assoc, <- bpow_plus. do 2 f_equal. lia.
Qed.
Lemma mul2_add : forall k v w, mul2 k v -> mul2 k w -> mul2 k (v + w).
Proof. intros k v w (m & ->) (n & ->). exists (m + n)%Z. rewrite plus_IZR. ring. Qed.
Lemma mul2_sub : forall k v w, mul2 k v -> mul2 k w -> mul2 k (v - w).
Proof. intros k v w (m & ->) (n & ->). exists (m - n)%Z. rewrite minus_IZR. ring. Qed.
Lemma mul2_of : forall k a, (-149 <= k)%Z -> bpow radix2 (k + 23) <= Rabs (R32 a) -> mul2 k (R32 a).
Proof.
  intros k a K H. assert (G : generic_format radix2 fexp32 (R32 a)) by apply fmt32_R32.
  pose proof (bpow_gt_0 radix2 (k + 23)) as PB.
  apply (mul2_le _ (cexp radix2 fexp32 (R32 a))).
  - unfold cexp. assert (M : (k + 24 <= mag radix2 (R32 a))%Z) by (apply mag_ge_bpow; replace (k + 24 - 1)%Z with (k + 23)%Z by lia; exact H).
    rewrite fexp32_FLT. unfold FLT_exp. lia.
  - exists (Ztrunc (scaled_mantissa radix2 fexp32 (R32 a))). exact G.
Qed.
Lemma mul2_fmt : forall k v, (-149 <= k <= 60)%Z -> mul2 k v -> Rabs v <= bpow radix2 (k + 24) -> generic_format radix2 fexp32 v.
Proof.
  intros k v K (m & ->) H. apply fmt32_me; [|lia].
  rewrite Rabs_mult, (Rabs_pos_eq (bpow radix2 k)) in H by apply bpow_ge_0.
  replace (k + 24)%Z with (24 + k)%Z in H by lia. rewrite bpow_plus in H. apply Rmult_le_reg_r in H; [|apply bpow_gt_0].
  rewrite <- abs_IZR in H. change (bpow radix2 24) with (IZR (2 ^ 24)) in H. now apply le_IZR in H.
Qed.

Lemma mul2_exact_add : forall k a b, (-149 <= k <= 60)%Z -> fin32 a = true -> fin32 b = true -> mul2 k (R32 a) -> mul2 k (R32 b) -> Rabs (R32 a + R32 b) <= bpow radix2 (k + 24) ->
  fin32 (fadd a b) = true /\ R32 (fadd a b) = R32 a + R32 b /\ mul2 k (R32 (fadd a b)).
Proof.
  intros k a b K Fa Fb Ma Mb H. destruct (fadd_ok a b Fa Fb) as [V F]. { eapply Rle_trans; [exact H|apply bpow_le; lia]. }
  assert (M : mul2 k (R32 a + R32 b)) by now apply mul2_add. rewrite rnd32_id in V by (apply (mul2_fmt k); auto). rewrite V. auto.
Qed.
Lemma mul2_exact_sub : forall k a b, (-149 <= k <= 60)%Z -> fin32 a = true -> fin32 b = true -> mul2 k (R32 a) -> mul2 k (R32 b) -> Rabs (R32 a - R32 b) <= bpow radix2 (k + 24) ->
  fin32 (fsub a b) = true /\ R32 (fsub a b) = R32 a - R32 b /\ mul2 k (R32 (fsub a b)).
Proof.
  intros k a b K Fa Fb Ma Mb H. destruct (fsub_ok a b Fa Fb) as [V F]. { eapply Rle_trans; [exact H|apply bpow_le; lia]. }
  assert (M : mul2 k (R32 a - R32 b)) by now apply mul2_sub. rewrite rnd32_id in V by (apply (mul2_fmt k); auto). rewrite V. auto.
Qed.
Lemma rnd32_nearest : forall x g, fmt32 g -> Rabs (rnd32 x - x) <= Rabs (g - x).
Proof. intros x g G. destruct (round_N_pt radix2 fexp32 (fun x => negb (Z.even x)) x) as [_ N]. apply N. exact G. Qed.

Lemma b_of : forall e z, (0 <= e)%Z -> (2 ^ e = z)%Z -> bpow radix2 e = IZR z.
Proof. intros e z H <-. change 2%Z with (radix_val radix2). symmetry. now apply IZR_Zpower. Qed.

(* y^2 (A - y) grows with y *)
Lemma low_mono : forall A y h, 3000 <= A -> 0 <= y -> y <= h -> h <= 2000 -> y * y * (A - y) <= h * h * (A - h).
Proof.
  intros A y h HA Y L H. assert (0 <= (h - y) * (A * (h + y) - (h * h + h * y + y * y))); [|lra].
  apply Rmult_le_pos; [lra|]. assert (3000 * (h + y) <= A * (h + y)) by (apply Rmult_le_compat_r; lra).
  assert (h * h <= 2000 * h) by (apply Rmult_le_compat_r; lra). assert (y * y <= 2000 * y) by (apply Rmult_le_compat_r; lra).
  assert (h * y <= 2000 * y) by (apply Rmult_le_compat_r; lra). assert (y * h <= 2000 * h) by (apply Rmult_le_compat_r; lra). lra.
Qed.

(* one of the cubics: everything but the first three roundings is exact *)
Lemma poly32 : forall x1 x2 x3 a b lo hi e2 r3 ra rs kp ks es eb Ms Mb Mk,
  fin32 x1 = true -> fin32 x2 = true -> fin32 x3 = true -> lo <= R32 x1 <= hi -> 1000 <= lo -> hi <= 2000 ->
  Rabs (R32 x2 - R32 x1 * R32 x1) <= e2 -> e2 <= / 8 -> Rabs (R32 x3 - R32 x2 * R32 x1) <= r3 -> r3 <= 256 ->
  (3000 <= a <= 6000)%Z -> (0 <= b <= 2 ^ 24)%Z ->
  Rabs (rnd32 (IZR a * R32 x2) - IZR a * R32 x2) <= ra -> ra <= 1024 ->
  (-100 <= es <= 120)%Z -> (-100 <= eb <= 120)%Z -> bpow radix2 es = Ms -> bpow radix2 eb = Mb -> Ms <= 17179869184 -> Mb <= 34359738368 ->
  hi * hi * (IZR a - hi) <= Ms - 3000 -> IZR b * hi <= Mb ->
  (rs = Ms / 33554432 \/ (rs = 0 /\ (0 <= ks <= 60)%Z /\ mul2 ks (R32 x3) /\ bpow radix2 (ks + 23) <= IZR a * (lo * lo) - 3000 /\ Ms <= bpow radix2 (ks + 24))) ->
  (0 <= kp <= 60)%Z -> bpow radix2 (kp + 23) = Mk -> Mk <= lo * lo * (IZR a - lo) - 3000 -> Mk <= IZR b * lo - 1100 ->
  Rabs (cub a b (R32 x1)) <= 2 * Mk - 6000 ->
  fin32 (fi_poly x1 x2 x3 a b) = true /\ mul2 kp (R32 (fi_poly x1 x2 x3 a b)) /\
  Rabs (R32 (fi_poly x1 x2 x3 a b) - cub a b (R32 x1)) <= e2 * (IZR a - lo) + r3 + ra + rs + Mb / 33554432.
Proof.
  intros x1 x2 x3 a b lo hi e2 r3 ra rs kp ks es eb Ms Mb Mk F1 F2 F3 Y Y1 Y2 H2 H2' H3 H3' Ha Hb HR HR' ES EB HMs HMb LMs LMb BS BB RS KP HMk K1 K2 BP.
  destruct (f_of_Z_ok a ltac:(lia)) as [Va Fa]. destruct (f_of_Z_ok b ltac:(lia)) as [Vb Fb].
  assert (IA : 3000 <= IZR a <= 6000) by (split; apply IZR_le; lia). assert (IB : 0 <= IZR b) by (apply IZR_le; lia).
  pose proof (low_mono (IZR a) lo (R32 x1) ltac:(lra) ltac:(lra) ltac:(lra) ltac:(lra)) as LM1.
  pose proof (low_mono (IZR a) (R32 x1) hi ltac:(lra) ltac:(lra) ltac:(lra) ltac:(lra)) as LM2.
  unfold fi_poly, cub in *. set (y := R32 x1) in *. set (A := IZR a) in *. clearbody A. set (B := IZR b) in *. clearbody B.
  set (z2 := R32 x2) in *. set (z3 := R32 x3) in *.
  assert (N2 : 0 <= e2) by (eapply Rle_trans; [apply Rabs_pos|exact H2]).
  assert (E2A : e2 * (A - lo) <= 625). { replace 625 with (/ 8 * 5000) by field. apply Rmult_le_compat; lra. }
  assert (D2 : Rabs ((z2 - y * y) * (y - A)) <= e2 * (A - lo)).
  { rewrite Rabs_mult. assert (Rabs (y - A) <= A - lo) by (apply Rabs_le; lra). apply Rmult_le_compat; auto using Rabs_pos. }
  assert (YL : lo * lo <= y * y) by (apply Rmult_le_compat; lra). assert (YH : y * y <= 2000 * 2000) by (apply Rmult_le_compat; lra).
  assert (YP : 1000 * 1000 <= y * y) by (apply Rmult_le_compat; lra).
  apply Rabs_le_inv in H2, H3, D2, BP, HR.
  assert (Z2 : 0 <= z2 <= 4000001) by lra.
  assert (P2 : A * z2 <= 6000 * 4000001) by (apply Rmult_le_compat; lra). assert (P2' : 0 <= A * z2) by (apply Rmult_le_pos; lra).
  destruct (fmul_ok (f_of_Z a) x2 Fa F2) as [R1 G1].
  { rewrite Va. fold z2. rewrite Rabs_pos_eq by lra. apply Rle_trans with (bpow radix2 35); [rewrite (b_of 35 34359738368) by (lia || reflexivity); lra|apply bpow_le; lia]. }
  rewrite Va in R1. fold z2 in R1. set (ax := fmul (f_of_Z a) x2) in *. rewrite <- R1 in HR. set (vx := R32 ax) in *.
  assert (VX : A * (lo * lo) - 3000 <= vx).
  { assert (A * (lo * lo) <= A * (y * y)) by (apply Rmult_le_compat_l; lra). assert (A * (y * y - / 8) <= A * z2) by (apply Rmult_le_compat_l; lra). lra. }
  assert (SS : - (e2 * (A - lo) + r3 + ra) <= z3 - vx - (y * y * y - A * (y * y)) <= e2 * (A - lo) + r3 + ra) by lra.
  assert (SB : Rabs (z3 - vx) <= Ms) by (apply Rabs_le; lra).
  assert (SUB : fin32 (fsub x3 ax) = true /\ Rabs (R32 (fsub x3 ax) - (z3 - vx)) <= rs /\ rs <= 512).
  { destruct RS as [->|(-> & KS & M3 & KL & KH)].
    - destruct (sub32 x3 ax es Ms F3 G1 ltac:(lia) HMs SB) as [G2 R2]. split; [exact G2|]. split; [exact R2|lra].
    - destruct (mul2_exact_sub ks x3 ax ltac:(lia) F3 G1 M3) as (G2 & R2 & _).
      + apply mul2_of; [lia|]. fold vx. pose proof (bpow_gt_0 radix2 (ks + 23)). rewrite Rabs_pos_eq by lra. lra.
      + fold z3 vx. lra.
      + split; [exact G2|]. rewrite R2. fold z3 vx. rewrite Rminus_diag_eq, Rabs_R0 by auto. split; lra. }
  destruct SUB as (G2 & R2 & LRS). set (s := fsub x3 ax) in *. set (vs := R32 s) in *. apply Rabs_le_inv in R2.
  assert (BY : B * lo <= B * y <= B * hi) by (split; apply Rmult_le_compat_l; lra).
  assert (0 < Mk) by (rewrite <- HMk; apply bpow_gt_0).
  destruct (mul32 (f_of_Z b) x1 eb Mb Fb F1 EB HMb) as [G3 R3]. { rewrite Vb. fold y. rewrite Rabs_pos_eq by lra. lra. }
  rewrite Vb in R3. set (bx := fmul (f_of_Z b) x1) in *. set (vb := R32 bx) in *. fold y in R3. apply Rabs_le_inv in R3.
  destruct (mul2_exact_add kp s bx ltac:(lia) G2 G3) as (G4 & R4 & M4).
  - apply mul2_of; [lia|]. fold vs. rewrite HMk. rewrite Rabs_left1 by lra. lra.
  - apply mul2_of; [lia|]. fold vb. rewrite HMk. rewrite Rabs_pos_eq by lra. lra.
  - replace (kp + 24)%Z with (1 + (kp + 23))%Z by lia. rewrite bpow_plus, HMk. change (bpow radix2 1) with 2. fold vs vb. apply Rabs_le. lra.
  - split; [exact G4|]. split; [exact M4|]. rewrite R4. fold vs vb. apply Rabs_le. lra.
Qed.

(* the four cubics on [1000, 2000] *)
Section Shapes.
Variable y : R.
Hypothesis Y : 1000 <= y <= 2000.
Let q := (y - 1000) * (2000 - y).
Lemma q_range : 0 <= q <= 250000.
Proof. unfold q. split; [apply Rmult_le_pos; lra|]. pose proof (Rle_0_sqr (y - 1500)) as S. unfold Rsqr in S. lra. Qed.
Lemma cub6 : 0 <= cub 6000 11000000 y - 6000000000 <= 500000000.
Proof.
  pose proof q_range as Q. replace (cub 6000 11000000 y - 6000000000) with (q * (3000 - y)) by (unfold cub, q; ring).
  split; [apply Rmult_le_pos; lra|]. replace 500000000 with (250000 * 2000) by ring. apply Rmult_le_compat; lra.
Qed.
Lemma cub3 : -500000000 <= cub 3000 2000000 y <= 0.
Proof.
  pose proof q_range as Q. replace (cub 3000 2000000 y) with (- (q * y)) by (unfold cub, q; ring).
  assert (0 <= q * y <= 250000 * 2000); [|lra]. split; [apply Rmult_le_pos; lra|]. apply Rmult_le_compat; lra.
Qed.
Lemma cub5 : 0 <= cub 5000 6000000 y <= 2000000000.
Proof.
  replace (cub 5000 6000000 y) with (y * (3000 - y) * (2000 - y)) by (unfold cub; ring). split.
  - apply Rmult_le_pos; [apply Rmult_le_pos|]; lra.
  - assert (0 <= (y - 1000) * (2000000 - (2000 - y) * (2000 - y))); [|lra].
    apply Rmult_le_pos; [lra|]. assert ((2000 - y) * (2000 - y) <= 1000 * 1000) by (apply Rmult_le_compat; lra). lra.
Qed.
Lemma cub4 : -2000000000 <= cub 4000 3000000 y <= 0.
Proof.
  replace (cub 4000 3000000 y) with (- (y * (3000 - y) * (y - 1000))) by (unfold cub; ring). split.
  - assert (0 <= (2000 - y) * (2000000 - (y - 1000) * (y - 1000))); [|lra].
    apply Rmult_le_pos; [lra|]. assert ((y - 1000) * (y - 1000) <= 1000 * 1000) by (apply Rmult_le_compat; lra). lra.
  - assert (0 <= y * (3000 - y) * (y - 1000)); [|lra]. apply Rmult_le_pos; [apply Rmult_le_pos|]; lra.
Qed.
Lemma yy : y * y <= 4000000.
Proof. replace 4000000 with (2000 * 2000) by ring. apply Rmult_le_compat; lra. Qed.
Lemma low_part : forall A, 3000 <= A -> Rabs (y * y * y - A * (y * y)) <= 4000000 * (A - 2000).
Proof.
  intros A HA. pose proof yy. assert (Z : 0 <= y * y) by (apply Rmult_le_pos; lra).
  replace (y * y * y - A * (y * y)) with (- (y * y * (A - y))) by ring. rewrite Rabs_Ropp, Rabs_pos_eq by (apply Rmult_le_pos; lra).
  assert (0 <= (2000 - y) * (4000000 * (A - 2000) / 2000 + (A - 2000) * y - y * y)); [|lra].
  apply Rmult_le_pos; [lra|]. assert (1000 * y <= (A - 2000) * y) by (apply Rmult_le_compat_r; lra).
  assert (0 <= (2000 - y) * (1000 + y)) by (apply Rmult_le_pos; lra). lra.
Qed.
End Shapes.

Lemma six : R32 (f_of_Z 6000000000) = 6000000000 /\ fin32 (f_of_Z 6000000000) = true.
Proof. apply (const32 6000000000 11718750 9); lia. Qed.

(* the rounding of a * x2 *)
Lemma ra_of : forall a z2 y hi ea Ma, (3000 <= a <= 6000)%Z -> 0 <= y -> y <= hi -> Rabs (z2 - y * y) <= / 8 -> (-100 <= ea <= 120)%Z -> bpow radix2 ea = Ma ->
  0 <= z2 -> IZR a * (hi * hi + / 8) <= Ma -> Rabs (rnd32 (IZR a * z2) - IZR a * z2) <= Ma / 33554432.
Proof.
  intros a z2 y hi ea Ma Ha Y0 Y H2 E <- Z0 H. apply near32; [lia|]. assert (3000 <= IZR a) by (apply IZR_le; lia).
  apply Rabs_le_inv in H2. assert (y * y <= hi * hi) by (apply Rmult_le_compat; lra).
  rewrite Rabs_pos_eq by (apply Rmult_le_pos; lra). eapply Rle_trans; [|exact H]. apply Rmult_le_compat_l; lra.
Qed.

Section Powers.
Variables (x1 x2 x3 : b32).
Definition poly6 : b32 := fsub (fi_poly x1 x2 x3 6000 11000000) (f_of_Z 6000000000).
Definition polys_ok (E6 E5 E4 E3 : R) : Prop :=
  (fin32 poly6 = true /\ Rabs (R32 poly6 - (cub 6000 11000000 (R32 x1) - 6000000000)) <= E6) /\
  (fin32 (fi_poly x1 x2 x3 5000 6000000) = true /\ Rabs (R32 (fi_poly x1 x2 x3 5000 6000000) - cub 5000 6000000 (R32 x1)) <= E5) /\
  (fin32 (fi_poly x1 x2 x3 4000 3000000) = true /\ Rabs (R32 (fi_poly x1 x2 x3 4000 3000000) - cub 4000 3000000 (R32 x1)) <= E4) /\
  (fin32 (fi_poly x1 x2 x3 3000 2000000) = true /\ Rabs (R32 (fi_poly x1 x2 x3 3000 2000000) - cub 3000 2000000 (R32 x1)) <= E3).
Hypothesis (F1 : fin32 x1 = true) (F2 : fin32 x2 = true) (F3 : fin32 x3 = true) (Y : 1000 <= R32 x1 <= 2000).

Lemma poly6_of : forall k E, (9 <= k <= 60)%Z -> mul2 k 6000000000 -> E <= 10000 -> fin32 (fi_poly x1 x2 x3 6000 11000000) = true -> mul2 k (R32 (fi_poly x1 x2 x3 6000 11000000)) ->
  Rabs (R32 (fi_poly x1 x2 x3 6000 11000000) - cub 6000 11000000 (R32 x1)) <= E ->
  fin32 poly6 = true /\ Rabs (R32 poly6 - (cub 6000 11000000 (R32 x1) - 6000000000)) <= E.
Proof.
  intros k E K M6 HE G M B. destruct six as [V F]. pose proof (cub6 _ Y) as C. unfold poly6. apply Rabs_le_inv in B.
  destruct (mul2_exact_sub k (fi_poly x1 x2 x3 6000 11000000) (f_of_Z 6000000000) ltac:(lia) G F M) as (G2 & R2 & _).
  - now rewrite V.
  - rewrite V. apply Rle_trans with (bpow radix2 33); [rewrite (b_of 33 8589934592) by (lia || reflexivity); apply Rabs_le; lra|apply bpow_le; lia].
  - split; [exact G2|]. rewrite R2, V. apply Rabs_le. lra.
Qed.
Lemma six9 : mul2 9 6000000000.
Proof. exists 11718750%Z. rewrite (b_of 9 512) by (lia || reflexivity). lra. Qed.
Lemma six10 : mul2 10 6000000000.
Proof. exists 5859375%Z. rewrite (b_of 10 1024) by (lia || reflexivity). lra. Qed.

Lemma abs6 : Rabs (cub 6000 11000000 (R32 x1)) <= 6500000000.
Proof. pose proof (cub6 _ Y). apply Rabs_le. lra. Qed.
Lemma abs5 : Rabs (cub 5000 6000000 (R32 x1)) <= 2000000000.
Proof. pose proof (cub5 _ Y). apply Rabs_le. lra. Qed.
Lemma abs4 : Rabs (cub 4000 3000000 (R32 x1)) <= 2000000000.
Proof. pose proof (cub4 _ Y). apply Rabs_le. lra. Qed.
Lemma abs3 : Rabs (cub 3000 2000000 (R32 x1)) <= 500000000.
Proof. pose proof (cub3 _ Y). apply Rabs_le. lra. Qed.

Ltac fill :=
  try eassumption; try lia; try lra;
  lazymatch goal with
  | |- bpow _ _ = _ => apply b_of; [lia|reflexivity]
  | |- Rabs (rnd32 _ - _) <= _ => idtac
  | |- Rabs (cub 6000 _ _) <= _ => eapply Rle_trans; [apply abs6|lra]
  | |- Rabs (cub 5000 _ _) <= _ => eapply Rle_trans; [apply abs5|lra]
  | |- Rabs (cub 4000 _ _) <= _ => eapply Rle_trans; [apply abs4|lra]
  | |- Rabs (cub 3000 _ _) <= _ => eapply Rle_trans; [apply abs3|lra]
  | |- _ => idtac
  end.
Ltac ra hi ea Ma := eapply Rle_trans; [apply (ra_of _ _ (R32 x1) hi ea Ma)|]; try eassumption; try lia; try lra; try (apply b_of; [lia|reflexivity]).
Ltac exs ks h l := right; split; [lra|split; [lia|split; [first [assumption|apply (mul2_le _ 9); [lia|assumption]]|split;
  [rewrite (b_of (ks + 23) h) by (lia || reflexivity); lra|rewrite (b_of (ks + 24) l) by (lia || reflexivity); lra]]]].

Section RegionA.
Hypothesis (YA : R32 x1 <= 1448) (H2 : Rabs (R32 x2 - R32 x1 * R32 x1) <= / 16) (H3 : Rabs (R32 x3 - R32 x2 * R32 x1) <= 128).
Lemma polys_A : polys_ok 2000 1700 1100 800.
Proof.
  assert (YY : 1000 * 1000 <= R32 x1 * R32 x1) by (apply Rmult_le_compat; lra). assert (Z0 : 0 <= R32 x2) by (apply Rabs_le_inv in H2; lra).
  assert (H2' : Rabs (R32 x2 - R32 x1 * R32 x1) <= / 8) by lra.
  split; [|split; [|split]].
  - destruct (poly32 x1 x2 x3 6000 11000000 1000 1448 (/16) 128 512 512 9 0 34 34 17179869184 17179869184 4294967296) as (G & M & E); fill;
    [ra 1448 34%Z 17179869184|apply (poly6_of 9); auto using six9; try lia; lra].
  - destruct (poly32 x1 x2 x3 5000 6000000 1000 1448 (/16) 128 512 256 8 0 33 34 8589934592 17179869184 2147483648) as (G & M & E); fill;
    [ra 1448 34%Z 17179869184|split; [exact G|lra]].
  - destruct (poly32 x1 x2 x3 4000 3000000 1000 1448 (/16) 128 256 256 8 0 33 33 8589934592 8589934592 2147483648) as (G & M & E); fill;
    [ra 1448 33%Z 8589934592|split; [exact G|lra]].
  - destruct (poly32 x1 x2 x3 3000 2000000 1000 1448 (/16) 128 256 128 7 0 32 32 4294967296 4294967296 1073741824) as (G & M & E); fill;
    [ra 1448 33%Z 8589934592|split; [exact G|lra]].
Qed.
End RegionA.

Section RegionB1.
Hypothesis (YB : 1448 <= R32 x1 <= 1692) (H2 : Rabs (R32 x2 - R32 x1 * R32 x1) <= / 8).
Lemma polys_B1_low : Rabs (R32 x3 - R32 x2 * R32 x1) <= 128 -> polys_ok 2745 2108 1471 834.
Proof.
  intros H3. assert (YY : 1000 * 1000 <= R32 x1 * R32 x1) by (apply Rmult_le_compat; lra). assert (Z0 : 0 <= R32 x2) by (apply Rabs_le_inv in H2; lra).
  split; [|split; [|split]].
  - destruct (poly32 x1 x2 x3 6000 11000000 1448 1692 (/8) 128 512 512 9 0 34 35 17179869184 34359738368 4294967296) as (G & M & E); fill;
    [ra 1692 34%Z 17179869184|apply (poly6_of 9); auto using six9; try lia; lra].
  - destruct (poly32 x1 x2 x3 5000 6000000 1448 1692 (/8) 128 512 512 8 0 34 34 17179869184 17179869184 2147483648) as (G & M & E); fill;
    [ra 1692 34%Z 17179869184|split; [exact G|lra]].
  - destruct (poly32 x1 x2 x3 4000 3000000 1448 1692 (/8) 128 512 256 8 0 33 33 8589934592 8589934592 2147483648) as (G & M & E); fill;
    [ra 1692 34%Z 17179869184|split; [exact G|lra]].
  - destruct (poly32 x1 x2 x3 3000 2000000 1448 1692 (/8) 128 256 128 7 0 32 32 4294967296 4294967296 1073741824) as (G & M & E); fill;
    [ra 1692 33%Z 8589934592|split; [exact G|lra]].
Qed.
Lemma polys_B1_high : Rabs (R32 x3 - R32 x2 * R32 x1) <= 256 -> mul2 9 (R32 x3) -> polys_ok 2873 2236 1343 962.
Proof.
  intros H3 M9. assert (YY : 1000 * 1000 <= R32 x1 * R32 x1) by (apply Rmult_le_compat; lra). assert (Z0 : 0 <= R32 x2) by (apply Rabs_le_inv in H2; lra).
  split; [|split; [|split]].
  - destruct (poly32 x1 x2 x3 6000 11000000 1448 1692 (/8) 256 512 512 9 0 34 35 17179869184 34359738368 4294967296) as (G & M & E); fill;
    [ra 1692 34%Z 17179869184|apply (poly6_of 9); auto using six9; try lia; lra].
  - destruct (poly32 x1 x2 x3 5000 6000000 1448 1692 (/8) 256 512 512 8 0 34 34 17179869184 17179869184 2147483648) as (G & M & E); fill;
    [ra 1692 34%Z 17179869184|split; [exact G|lra]].
  - destruct (poly32 x1 x2 x3 4000 3000000 1448 1692 (/8) 256 512 0 8 9 33 33 8589934592 8589934592 2147483648) as (G & M & E); fill;
    [ra 1692 34%Z 17179869184|exs 9%Z 4294967296%Z 8589934592%Z|split; [exact G|lra]].
  - destruct (poly32 x1 x2 x3 3000 2000000 1448 1692 (/8) 256 256 128 7 0 32 32 4294967296 4294967296 1073741824) as (G & M & E); fill;
    [ra 1692 33%Z 8589934592|split; [exact G|lra]].
Qed.
End RegionB1.

Section RegionB2.
Hypothesis (YB : 1692 <= R32 x1 <= 1853.5) (H2 : Rabs (R32 x2 - R32 x1 * R32 x1) <= / 8) (H3 : Rabs (R32 x3 - R32 x2 * R32 x1) <= 256) (M9 : mul2 9 (R32 x3)).
Lemma polys_B2 : polys_ok 3355 2206 1313 1060.
Proof.
  assert (YY : 1000 * 1000 <= R32 x1 * R32 x1) by (apply Rmult_le_compat; lra). assert (Z0 : 0 <= R32 x2) by (apply Rabs_le_inv in H2; lra).
  split; [|split; [|split]].
  - destruct (poly32 x1 x2 x3 6000 11000000 1692 1853.5 (/8) 256 1024 512 10 0 34 35 17179869184 34359738368 8589934592) as (G & M & E); fill;
    [ra 1853.5 35%Z 34359738368|apply (poly6_of 10); auto using six10; try lia; lra].
  - destruct (poly32 x1 x2 x3 5000 6000000 1692 1853.5 (/8) 256 512 512 8 0 34 34 17179869184 17179869184 2147483648) as (G & M & E); fill;
    [ra 1853.5 34%Z 17179869184|split; [exact G|lra]].
  - destruct (poly32 x1 x2 x3 4000 3000000 1692 1853.5 (/8) 256 512 0 8 9 33 33 8589934592 8589934592 2147483648) as (G & M & E); fill;
    [ra 1853.5 34%Z 17179869184|exs 9%Z 4294967296%Z 8589934592%Z|split; [exact G|lra]].
  - destruct (poly32 x1 x2 x3 3000 2000000 1692 1853.5 (/8) 256 512 0 7 8 32 32 4294967296 4294967296 1073741824) as (G & M & E); fill;
    [ra 1853.5 34%Z 17179869184|exs 8%Z 2147483648%Z 4294967296%Z|split; [exact G|lra]].
Qed.
End RegionB2.

Section RegionC.
Hypothesis (YC : 1853.5 <= R32 x1) (H2 : Rabs (R32 x2 - R32 x1 * R32 x1) <= / 8) (H3 : Rabs (R32 x3 - R32 x2 * R32 x1) <= 256) (M9 : mul2 9 (R32 x3)).
Variables (r6 r5 r4 r3 : R).
Hypothesis (R6 : Rabs (rnd32 (6000 * R32 x2) - 6000 * R32 x2) <= r6) (R5 : Rabs (rnd32 (5000 * R32 x2) - 5000 * R32 x2) <= r5)
  (R4 : Rabs (rnd32 (4000 * R32 x2) - 4000 * R32 x2) <= r4) (R3 : Rabs (rnd32 (3000 * R32 x2) - 3000 * R32 x2) <= r3)
  (L6 : r6 <= 1024) (L5 : r5 <= 1024) (L4 : r4 <= 1024) (L3 : r3 <= 1024).
Lemma polys_C : polys_ok (2310.5 + r6) (1673.5 + r5) (780.5 + r4) (527.5 + r3).
Proof.
  assert (YY : 1000 * 1000 <= R32 x1 * R32 x1) by (apply Rmult_le_compat; lra). assert (Z0 : 0 <= R32 x2) by (apply Rabs_le_inv in H2; lra).
  split; [|split; [|split]].
  - destruct (poly32 x1 x2 x3 6000 11000000 1853.5 2000 (/8) 256 r6 512 10 0 34 35 17179869184 34359738368 8589934592) as (G & M & E); fill.
    apply (poly6_of 10); auto using six10; try lia; lra.
  - destruct (poly32 x1 x2 x3 5000 6000000 1853.5 2000 (/8) 256 r5 512 8 0 34 34 17179869184 17179869184 2147483648) as (G & M & E); fill.
    split; [exact G|lra].
  - destruct (poly32 x1 x2 x3 4000 3000000 1853.5 2000 (/8) 256 r4 0 8 9 33 33 8589934592 8589934592 2147483648) as (G & M & E); fill;
    [exs 9%Z 4294967296%Z 8589934592%Z|split; [exact G|lra]].
  - destruct (poly32 x1 x2 x3 3000 2000000 1853.5 2000 (/8) 256 r3 0 7 8 32 32 4294967296 4294967296 1073741824) as (G & M & E); fill;
    [exs 8%Z 2147483648%Z 4294967296%Z|split; [exact G|lra]].
Qed.
End RegionC.
End Powers.

Lemma term32 : forall d p q P E M1 M2 e1 e2, (Z.abs d <= 32768)%Z -> fin32 p = true -> Rabs (R32 p - P) <= E ->
  R32 (f_of_Z q) = IZR q -> IZR q <> 0 -> (-100 <= e1 <= 120)%Z -> (-100 <= e2 <= 120)%Z -> bpow radix2 e1 = M1 -> bpow radix2 e2 = M2 ->
  32768 * (Rabs P + E) <= M1 -> 32768 * (Rabs P + E) + M1 / 33554432 <= M2 * Rabs (IZR q) ->
  fin32 (fi_term d p q) = true /\
  Rabs (R32 (fi_term d p q) - IZR d * P / IZR q) <= (32768 * E + M1 / 33554432) / Rabs (IZR q) + M2 / 33554432.
Proof.
  intros d p q P E M1 M2 e1 e2 D F EP VQ NQ E1 E2 HM1 HM2 B1 B2. unfold fi_term.
  destruct (f_of_Z_ok d ltac:(lia)) as [Vd Fd]. assert (DD : Rabs (IZR d) <= 32768) by (rewrite <- abs_IZR; apply IZR_le; lia).
  assert (QP : 0 < Rabs (IZR q)) by now apply Rabs_pos_lt.
  assert (PB : Rabs (R32 p) <= Rabs P + E).
  { replace (R32 p) with (P + (R32 p - P)) by ring. eapply Rle_trans; [apply Rabs_triang|]. lra. }
  assert (DP' : Rabs (IZR d * R32 p) <= 32768 * (Rabs P + E)) by (rewrite Rabs_mult; apply Rmult_le_compat; auto using Rabs_pos).
  assert (DP : Rabs (IZR d * R32 p) <= M1) by lra.
  destruct (mul32 (f_of_Z d) p e1 M1 Fd F E1 HM1) as [G1 R1]. { now rewrite Vd. }
  rewrite Vd in R1. set (m := fmul (f_of_Z d) p) in *. set (vm := R32 m) in *.
  assert (MB : Rabs vm <= 32768 * (Rabs P + E) + M1 / 33554432).
  { replace vm with (IZR d * R32 p + (vm - IZR d * R32 p)) by ring. eapply Rle_trans; [apply Rabs_triang|]. lra. }
  destruct (div32 m (f_of_Z q) e2 M2 G1 E2 HM2) as [G2 R2].
  { now rewrite VQ. }
  { fold vm. rewrite VQ. unfold Rdiv. rewrite Rabs_mult, Rabs_inv. apply Rmult_le_reg_r with (Rabs (IZR q)); [exact QP|].
    rewrite Rmult_assoc, Rinv_l by lra. lra. }
  split; [exact G2|]. fold vm in R2. rewrite VQ in R2. set (t := R32 (fdiv m (f_of_Z q))) in *.
  replace (t - IZR d * P / IZR q) with ((t - vm / IZR q) + ((vm - IZR d * R32 p) + IZR d * (R32 p - P)) / IZR q) by (field; exact NQ).
  eapply Rle_trans; [apply Rabs_triang|]. rewrite Rplus_comm. apply Rplus_le_compat; [|exact R2].
  unfold Rdiv at 1. rewrite Rabs_mult, Rabs_inv. unfold Rdiv at 1. apply Rmult_le_compat_r; [apply Rlt_le, Rinv_0_lt_compat, QP|].
  eapply Rle_trans; [apply Rabs_triang|]. rewrite Rplus_comm. apply Rplus_le_compat; [|exact R1].
  rewrite Rabs_mult. apply Rmult_le_compat; auto using Rabs_pos.
Qed.

(* the exact value at abscissa y = 1000 x *)
Definition lag (a b c d : Z) (y : R) : R :=
  IZR a * (cub 6000 11000000 y - 6000000000) / -6000000000 + IZR b * cub 5000 6000000 y / 2000000000
  + IZR c * cub 4000 3000000 y / -2000000000 + IZR d * cub 3000 2000000 y / 6000000000.

Lemma scaled : forall d P Pm q, (Z.abs d <= 32768)%Z -> Rabs P <= Pm -> 0 < q -> Rabs (IZR d * P / q) <= 32768 * Pm / q.
Proof.
  intros d P Pm q D H Q. assert (DD : Rabs (IZR d) <= 32768) by (rewrite <- abs_IZR; apply IZR_le; lia).
  unfold Rdiv. rewrite Rabs_mult, Rabs_inv, Rabs_mult, (Rabs_pos_eq q) by lra.
  apply Rmult_le_compat_r; [apply Rlt_le, Rinv_0_lt_compat, Q|]. apply Rmult_le_compat; auto using Rabs_pos.
Qed.

(* how far the four products a * x2 are from representable values, together: x2 = K / 4 *)
Definition off (v m : Z) : Z := Z.abs (m * ((v + m / 2) / m) - v).
Lemma off_step : forall v m t, (0 < m)%Z -> off (v + t * m) m = off v m.
Proof. intros v m t M. unfold off. replace (v + t * m + m / 2)%Z with (v + m / 2 + t * m)%Z by ring. rewrite Z.div_add by lia. f_equal. ring. Qed.
Lemma off_half : forall v m, (0 < m)%Z -> (Z.even m = true)%Z -> (off v m <= m / 2)%Z.
Proof.
  intros v m M E. unfold off. pose proof (Z.div_mod (v + m / 2) m ltac:(lia)). pose proof (Z.mod_pos_bound (v + m / 2) m M).
  apply Z.even_spec in E. destruct E as [h ->]. replace (2 * h / 2)%Z with h in * by (rewrite Z.mul_comm, Z.div_mul; lia). lia.
Qed.
Definition off4 (k : Z) : Z := (off (1500 * k) 2048 + 3 * off (1250 * k) 2048 + 3 * off (1000 * k) 1024 + off (750 * k) 1024)%Z.
Lemma off4_all : forallb (fun k => Z.leb (off4 (Z.of_nat k)) 5112) (seq 0 2048) = true.
Proof. vm_compute. reflexivity. Qed.
Lemma off4_ok : forall k, (off4 k <= 5112)%Z.
Proof.
  intros k. assert (E : off4 k = off4 (k mod 2048)).
  { rewrite (Z.div_mod k 2048) at 1 by lia. set (t := (k / 2048)%Z). set (r := (k mod 2048)%Z). unfold off4.
    replace (1500 * (2048 * t + r))%Z with (1500 * r + (1500 * t) * 2048)%Z by lia. replace (1250 * (2048 * t + r))%Z with (1250 * r + (1250 * t) * 2048)%Z by lia.
    replace (1000 * (2048 * t + r))%Z with (1000 * r + (2000 * t) * 1024)%Z by lia. replace (750 * (2048 * t + r))%Z with (750 * r + (1500 * t) * 1024)%Z by lia.
    now rewrite !off_step by lia. }
  rewrite E. pose proof (Z.mod_pos_bound k 2048 ltac:(lia)) as B. pose proof off4_all as A. rewrite forallb_forall in A.
  specialize (A (Z.to_nat (k mod 2048))). rewrite Z2Nat.id in A by lia. apply Z.leb_le, A, in_seq. lia.
Qed.
Lemma off_round : forall v e m, (0 <= e <= 60)%Z -> (2 ^ e = m)%Z -> (0 <= v <= m * 2 ^ 24 - m)%Z -> Rabs (rnd32 (IZR v) - IZR v) <= IZR (off v m).
Proof.
  intros v e m E M V. assert (0 < m)%Z by (subst m; lia). unfold off. rewrite abs_IZR, minus_IZR.
  apply rnd32_nearest. rewrite mult_IZR, Rmult_comm, <- (b_of e m) by (lia || assumption). apply fmt32_me; [|lia].
  assert (0 <= (v + m / 2) / m)%Z by (apply Z.div_pos; [|lia]; assert (0 <= m / 2)%Z by (apply Z.div_pos; lia); lia).
  assert ((v + m / 2) / m < 2 ^ 24 + 1)%Z; [|lia]. apply Z.div_lt_upper_bound; [lia|]. assert (m / 2 <= m)%Z by (apply Z.div_le_upper_bound; lia). lia.
Qed.

Lemma sum_bound : forall a b c d x1 x2 x3 E6 E5 E4 E3 e1 e2 M1 M2, (Z.abs a <= 32768)%Z -> (Z.abs b <= 32768)%Z -> (Z.abs c <= 32768)%Z -> (Z.abs d <= 32768)%Z ->
  1000 <= R32 x1 <= 2000 -> polys_ok x1 x2 x3 E6 E5 E4 E3 -> E6 <= 4000 -> E5 <= 4000 -> E4 <= 4000 -> E3 <= 4000 ->
  (-100 <= e1 <= 120)%Z -> (-100 <= e2 <= 120)%Z -> bpow radix2 e1 = M1 -> bpow radix2 e2 = M2 -> M2 <= 65536 -> M1 <= 70368744177664 ->
  32768 * (cub 5000 6000000 (R32 x1) + 4000) <= M1 -> 32768 * (cub 5000 6000000 (R32 x1) + 4000) + M1 / 33554432 <= M2 * 2000000000 -> 32768 * cub 5000 6000000 (R32 x1) / 2000000000 + 2732 <= M2 ->
  let s := fadd (fadd (fadd (fi_term a (fsub (fi_poly x1 x2 x3 6000 11000000) (f_of_Z 6000000000)) (-6000000000))
                            (fi_term b (fi_poly x1 x2 x3 5000 6000000) 2000000000))
                      (fi_term c (fi_poly x1 x2 x3 4000 3000000) (-2000000000)))
                (fi_term d (fi_poly x1 x2 x3 3000 2000000) 6000000000) in
  fin32 s = true /\ Rabs (R32 s - lag a b c d (R32 x1)) <= 32768 * (E6 + 3 * E5 + 3 * E4 + E3) / 6000000000 + 0.00735 + M1 / 33554432 / 2000000000 + M2 / 16777216 /\ Rabs (lag a b c d (R32 x1)) <= 45000.
Proof.
  intros a b c d x1 x2 x3 E6 E5 E4 E3 e1 e2 M1 M2 Ha Hb Hc Hd Y ((G6 & X6) & (G5 & X5) & (G4 & X4) & (G3 & X3)) B6 B5 B4 B3 He1 He2 HM1 HM2 HM2' HM1' K1 K2 K3. cbv zeta. unfold poly6 in *.
  pose proof (cub6 _ Y) as C6. pose proof (cub5 _ Y) as C5. pose proof (cub4 _ Y) as C4. pose proof (cub3 _ Y) as C3.
  set (P6 := fsub _ (f_of_Z 6000000000)) in *. set (Q6 := cub 6000 11000000 (R32 x1) - 6000000000) in *.
  set (P5 := fi_poly x1 x2 x3 5000 6000000) in *. set (P4 := fi_poly x1 x2 x3 4000 3000000) in *. set (P3 := fi_poly x1 x2 x3 3000 2000000) in *.
  assert (SUM : cub 5000 6000000 (R32 x1) - cub 4000 3000000 (R32 x1) <= 2250000000).
  { pose proof (q_range _ Y). unfold cub. lra. }
  set (Q5 := cub 5000 6000000 (R32 x1)) in *. set (Q4 := cub 4000 3000000 (R32 x1)) in *. set (Q3 := cub 3000 2000000 (R32 x1)) in *.
  assert (V6 : R32 (f_of_Z (-6000000000)) = IZR (-6000000000)) by (apply (const32 (-6000000000) (-11718750) 9); lia).
  assert (V2 : R32 (f_of_Z (-2000000000)) = IZR (-2000000000)) by (apply (const32 (-2000000000) (-15625000) 7); lia).
  assert (W6 : R32 (f_of_Z 6000000000) = IZR 6000000000) by (apply (const32 6000000000 11718750 9); lia).
  assert (W2 : R32 (f_of_Z 2000000000) = IZR 2000000000) by (apply (const32 2000000000 15625000 7); lia).
  assert (A6 : Rabs (IZR (-6000000000)) = 6000000000) by (rewrite Rabs_left; lra).
  assert (A2 : Rabs (IZR (-2000000000)) = 2000000000) by (rewrite Rabs_left; lra).
  assert (D6 : Rabs 6000000000 = 6000000000) by (rewrite Rabs_pos_eq; lra).
  assert (D2 : Rabs 2000000000 = 2000000000) by (rewrite Rabs_pos_eq; lra).
  assert (M6 : Rabs Q6 <= 500000000) by (apply Rabs_le; lra). assert (M5 : Rabs Q5 = Q5) by (apply Rabs_pos_eq; lra).
  assert (M4 : Rabs Q4 <= 2000000000) by (apply Rabs_le; lra). assert (M3 : Rabs Q3 <= 500000000) by (apply Rabs_le; lra).
  destruct (term32 a P6 (-6000000000) Q6 E6 17592186044416 4096 44 12 Ha G6 X6 V6) as [T6 R6]; rewrite ?A6; try lia; try lra; try (apply b_of; [lia|reflexivity]).
  destruct (term32 b P5 2000000000 Q5 E5 M1 M2 e1 e2 Hb G5 X5 W2) as [T5 R5]; rewrite ?D2, ?M5; try assumption; try lia; try lra.
  destruct (term32 c P4 (-2000000000) Q4 E4 70368744177664 65536 46 16 Hc G4 X4 V2) as [T4 R4]; rewrite ?A2; try lia; try lra; try (apply b_of; [lia|reflexivity]).
  destruct (term32 d P3 6000000000 Q3 E3 17592186044416 4096 44 12 Hd G3 X3 W6) as [T3 R3]; rewrite ?D6; try lia; try lra; try (apply b_of; [lia|reflexivity]).
  rewrite A6 in R6. rewrite D2 in R5. rewrite A2 in R4. rewrite D6 in R3.
  set (t6 := fi_term a P6 _) in *. set (t5 := fi_term b P5 _) in *. set (t4 := fi_term c P4 _) in *. set (t3 := fi_term d P3 _) in *.
  unfold lag. fold Q6 Q5 Q4 Q3.
  assert (U6 : Rabs (IZR a * Q6 / -6000000000) <= 2731).
  { replace (IZR a * Q6 / -6000000000) with (- (IZR a * Q6 / 6000000000)) by field. rewrite Rabs_Ropp.
    eapply Rle_trans; [apply (scaled a Q6 500000000 6000000000 Ha M6); lra|lra]. }
  assert (U3 : Rabs (IZR d * Q3 / 6000000000) <= 2731). { eapply Rle_trans; [apply (scaled d Q3 500000000 6000000000 Hd M3); lra|lra]. }
  assert (U5 : Rabs (IZR b * Q5 / 2000000000) <= 32768 * Q5 / 2000000000) by (apply scaled; auto; lra).
  assert (U4 : Rabs (IZR c * Q4 / -2000000000) <= 32768 * - Q4 / 2000000000).
  { replace (IZR c * Q4 / -2000000000) with (- (IZR c * Q4 / 2000000000)) by field. rewrite Rabs_Ropp.
    apply scaled; auto; [|lra]. rewrite Rabs_left1; lra. }
  set (u6 := IZR a * Q6 / -6000000000) in *. set (u5 := IZR b * Q5 / 2000000000) in *.
  set (u4 := IZR c * Q4 / -2000000000) in *. set (u3 := IZR d * Q3 / 6000000000) in *. clearbody u6 u5 u4 u3.
  apply Rabs_le_inv in R6, R5, R4, R3, U6, U5, U4, U3.
  destruct (add32 t6 t5 e2 M2 T6 T5) as [S1 L1]; [lia|assumption|apply Rabs_le; lra|]. apply Rabs_le_inv in L1.
  destruct (add32 _ t4 16 65536 S1 T4) as [S2 L2]; [lia|apply b_of; [lia|reflexivity]|apply Rabs_le; lra|]. apply Rabs_le_inv in L2.
  destruct (add32 _ t3 16 65536 S2 T3) as [S3 L3]; [lia|apply b_of; [lia|reflexivity]|apply Rabs_le; lra|]. apply Rabs_le_inv in L3.
  split; [exact S3|]. split; apply Rabs_le; lra.
Qed.

(* how fast the exact value changes *)
Lemma slope : forall a b y z K, 1000 <= y <= 2000 -> 1000 <= z <= 2000 ->
  Rabs (y * y + y * z + z * z - IZR a * (y + z) + IZR b) <= K -> Rabs (cub a b y - cub a b z) <= Rabs (y - z) * K.
Proof.
  intros a b y z K Y Z H. replace (cub a b y - cub a b z) with ((y - z) * (y * y + y * z + z * z - IZR a * (y + z) + IZR b)) by (unfold cub; ring).
  rewrite Rabs_mult. apply Rmult_le_compat_l; [apply Rabs_pos|exact H].
Qed.
Lemma slopes : forall y z, 1000 <= y <= 2000 -> 1000 <= z <= 2000 ->
  Rabs (y * y + y * z + z * z - 6000 * (y + z) + 11000000) <= 2000000 /\ Rabs (y * y + y * z + z * z - 5000 * (y + z) + 6000000) <= 2340000 /\
  Rabs (y * y + y * z + z * z - 4000 * (y + z) + 3000000) <= 2340000 /\ Rabs (y * y + y * z + z * z - 3000 * (y + z) + 2000000) <= 2000000.
Proof.
  intros y z Y Z. set (p := y - 1000). set (r := z - 1000). replace y with (1000 + p) by (unfold p; ring). replace z with (1000 + r) by (unfold r; ring).
  assert (0 <= p <= 1000) by (unfold p; lra). assert (0 <= r <= 1000) by (unfold r; lra). clearbody p r.
  assert (K1 : p * p <= 1000 * p) by (apply Rmult_le_compat_r; lra). assert (K2 : r * r <= 1000 * r) by (apply Rmult_le_compat_r; lra).
  assert (K3 : p * r <= 1000 * r) by (apply Rmult_le_compat_r; lra). assert (K4 : p * r <= 1000 * p) by (rewrite (Rmult_comm p); apply Rmult_le_compat_r; lra).
  assert (K5 : 0 <= (p - r) * (p - r)) by (apply Rle_0_sqr). set (s := p + r).
  assert (K6 : 0 <= (s - 2000) * (s - 2000)) by (apply Rle_0_sqr). assert (K7 : 0 <= (3 * s - 4000) * (3 * s - 4000)) by (apply Rle_0_sqr).
  assert (K8 : 0 <= (3 * s - 2000) * (3 * s - 2000)) by (apply Rle_0_sqr). unfold s in *.
  repeat split; apply Rabs_le; lra.
Qed.
Lemma cub_diff : forall a b y z K u d q, (Z.abs d <= 32768)%Z -> 0 < q -> Rabs (cub a b y - cub a b z) <= Rabs (y - z) * K -> Rabs (y - z) <= u -> 0 <= K ->
  Rabs (IZR d * (cub a b y - cub a b z) / q) <= 32768 * (u * K) / q.
Proof.
  intros a b y z K u d q D Q H U HK. apply scaled; auto. eapply Rle_trans; [exact H|]. now apply Rmult_le_compat_r.
Qed.
Lemma lag_diff : forall a b c d y z u, (Z.abs a <= 32768)%Z -> (Z.abs b <= 32768)%Z -> (Z.abs c <= 32768)%Z -> (Z.abs d <= 32768)%Z ->
  1000 <= y <= 2000 -> 1000 <= z <= 2000 -> Rabs (y - z) <= u -> u <= / 16000 -> Rabs (lag a b c d y - lag a b c d z) <= 0.0062.
Proof.
  intros a b c d y z u A B C D Y Z U HU. destruct (slopes y z Y Z) as (S6 & S5 & S4 & S3).
  pose proof (cub_diff _ _ y z _ u a 6000000000 A ltac:(lra) (slope 6000 11000000 y z _ Y Z S6) U ltac:(lra)) as D6.
  pose proof (cub_diff _ _ y z _ u b 2000000000 B ltac:(lra) (slope 5000 6000000 y z _ Y Z S5) U ltac:(lra)) as D5.
  pose proof (cub_diff _ _ y z _ u c 2000000000 C ltac:(lra) (slope 4000 3000000 y z _ Y Z S4) U ltac:(lra)) as D4.
  pose proof (cub_diff _ _ y z _ u d 6000000000 D ltac:(lra) (slope 3000 2000000 y z _ Y Z S3) U ltac:(lra)) as D3.
  apply Rabs_le_inv in D6, D5, D4, D3. unfold lag. apply Rabs_le. lra.
Qed.

(* the powers *)
Lemma x1_ok : forall x, fin32 x = true -> 1 <= R32 x <= 2 ->
  fin32 (fi_x1 x) = true /\ 1000 <= R32 (fi_x1 x) <= 2000 /\ Rabs (R32 (fi_x1 x) - 1000 * R32 x) <= / 16000.
Proof.
  intros x F X. unfold fi_x1. destruct (d_of_f_ok x F) as [V FX]. destruct (d_of_Z_ok 1000 ltac:(lia)) as [VK FK].
  assert (B : bpow radix2 11 = 2048) by (apply (b_of 11 2048); [lia|reflexivity]).
  destruct (dmul_ok (d_of_f x) (d_of_Z 1000) FX FK) as [P FP].
  { rewrite V, VK. apply Rle_trans with (bpow radix2 11); [rewrite B; apply Rabs_le; lra|apply bpow_le; lia]. }
  rewrite V, VK in P. set (m := dmul (d_of_f x) (d_of_Z 1000)) in *.
  assert (G1 : rnd64 1000 = 1000) by (apply rnd64_id; apply (fmt64_Z 1000); lia). assert (G2 : rnd64 2000 = 2000) by (apply rnd64_id; apply (fmt64_Z 2000); lia).
  assert (M : 1000 <= R64 m <= 2000). { rewrite P. split; [rewrite <- G1 at 1|rewrite <- G2]; apply rnd64_le; lra. }
  pose proof (rnd64_error (R32 x * 1000)) as E. rewrite <- P in E. rewrite (Rabs_pos_eq (R32 x * 1000)) in E by lra.
  destruct (f_of_d_ok m FP) as [Q FQ]. { apply Rle_trans with (bpow radix2 11); [rewrite B; apply Rabs_le; lra|apply bpow_le; lia]. }
  split; [exact FQ|]. rewrite Q.
  assert (H1 : rnd32 1000 = 1000) by (apply rnd32_id; apply (fmt32_Z 1000); lia). assert (H2 : rnd32 2000 = 2000) by (apply rnd32_id; apply (fmt32_Z 2000); lia).
  split. { split; [rewrite <- H1 at 1|rewrite <- H2]; apply rnd32_le; lra. }
  pose proof (near32 (R64 m) 11 ltac:(lia)) as N. rewrite B in N. specialize (N ltac:(apply Rabs_le; lra)).
  assert (bpow radix2 (-53) <= bpow radix2 (-40)) by (apply bpow_le; lia). assert (bpow radix2 (-1075) <= bpow radix2 (-40)) by (apply bpow_le; lia).
  change (bpow radix2 (-40)) with (/ 1099511627776) in *. pose proof (bpow_gt_0 radix2 (-53)).
  apply Rabs_le_inv in N, E. assert (bpow radix2 (-53) * (R32 x * 1000) <= / 1099511627776 * 2000) by (apply Rmult_le_compat; lra).
  apply Rabs_le. lra.
Qed.
Definition fi_total (a b c d : Z) (x1 x2 x3 : b32) : b32 :=
  fadd (fadd (fadd (fi_term a (fsub (fi_poly x1 x2 x3 6000 11000000) (f_of_Z 6000000000)) (-6000000000))
                   (fi_term b (fi_poly x1 x2 x3 5000 6000000) 2000000000))
             (fi_term c (fi_poly x1 x2 x3 4000 3000000) (-2000000000)))
       (fi_term d (fi_poly x1 x2 x3 3000 2000000) 6000000000).

(* anywhere in the range *)
Lemma sum_any : forall a b c d x1 x2 x3 E6 E5 E4 E3, (Z.abs a <= 32768)%Z -> (Z.abs b <= 32768)%Z -> (Z.abs c <= 32768)%Z -> (Z.abs d <= 32768)%Z ->
  1000 <= R32 x1 <= 2000 -> polys_ok x1 x2 x3 E6 E5 E4 E3 -> E6 <= 4000 -> E5 <= 4000 -> E4 <= 4000 -> E3 <= 4000 -> E6 + 3 * E5 + 3 * E4 + E3 <= 14900 ->
  fin32 (fi_total a b c d x1 x2 x3) = true /\ Rabs (R32 (fi_total a b c d x1 x2 x3) - lag a b c d (R32 x1)) <= 0.0938 /\ Rabs (lag a b c d (R32 x1)) <= 45000.
Proof.
  intros a b c d x1 x2 x3 E6 E5 E4 E3 A B C D Y P L6 L5 L4 L3 T. pose proof (cub5 _ Y) as C5.
  destruct (sum_bound a b c d x1 x2 x3 E6 E5 E4 E3 46 16 70368744177664 65536 A B C D Y P L6 L5 L4 L3) as (F & E & L); try lia; try lra; try (apply b_of; [lia|reflexivity]).
  split; [exact F|]. split; [|exact L]. eapply Rle_trans; [exact E|]. lra.
Qed.
(* the upper part of the range, where the second weight is small *)
Lemma sum_upper : forall a b c d x1 x2 x3 E6 E5 E4 E3, (Z.abs a <= 32768)%Z -> (Z.abs b <= 32768)%Z -> (Z.abs c <= 32768)%Z -> (Z.abs d <= 32768)%Z ->
  1692 <= R32 x1 <= 2000 -> polys_ok x1 x2 x3 E6 E5 E4 E3 -> E6 <= 4000 -> E5 <= 4000 -> E4 <= 4000 -> E3 <= 4000 -> E6 + 3 * E5 + 3 * E4 + E3 <= 15500 ->
  fin32 (fi_total a b c d x1 x2 x3) = true /\ Rabs (R32 (fi_total a b c d x1 x2 x3) - lag a b c d (R32 x1)) <= 0.0938 /\ Rabs (lag a b c d (R32 x1)) <= 45000.
Proof.
  intros a b c d x1 x2 x3 E6 E5 E4 E3 A B C D Y P L6 L5 L4 L3 T.
  assert (C5 : 0 <= cub 5000 6000000 (R32 x1) <= 693000000).
  { set (y := R32 x1) in *. replace (cub 5000 6000000 y) with (y * (3000 - y) * (2000 - y)) by (unfold cub; ring).
    assert (0 <= y * (3000 - y)) by (apply Rmult_le_pos; lra). split; [apply Rmult_le_pos; lra|].
    replace 693000000 with (2250000 * 308) by ring. apply Rmult_le_compat; try lra. pose proof (Rle_0_sqr (y - 1500)) as S. unfold Rsqr in S. lra. }
  destruct (sum_bound a b c d x1 x2 x3 E6 E5 E4 E3 45 14 35184372088832 16384 A B C D ltac:(lra) P L6 L5 L4 L3) as (F & E & L); try lia; try lra; try (apply b_of; [lia|reflexivity]).
  split; [exact F|]. split; [|exact L]. eapply Rle_trans; [exact E|]. lra.
Qed.

Lemma total_ok : forall a b c d x1, (Z.abs a <= 32768)%Z -> (Z.abs b <= 32768)%Z -> (Z.abs c <= 32768)%Z -> (Z.abs d <= 32768)%Z ->
  fin32 x1 = true -> 1000 <= R32 x1 <= 2000 -> let x2 := fmul x1 x1 in let x3 := fmul x2 x1 in
  fin32 (fi_total a b c d x1 x2 x3) = true /\ Rabs (R32 (fi_total a b c d x1 x2 x3) - lag a b c d (R32 x1)) <= 0.0938 /\ Rabs (lag a b c d (R32 x1)) <= 45000.
Proof.
  intros a b c d x1 A B C D F1 Y x2 x3. pose proof (yy _ Y) as Y4. assert (Y1 : 1000 * 1000 <= R32 x1 * R32 x1) by (apply Rmult_le_compat; lra).
  destruct (mul32 x1 x1 22 4194304 F1 F1) as [F2 E2]; [lia|apply b_of; [lia|reflexivity]|rewrite Rabs_pos_eq; lra|].
  fold x2 in F2, E2. assert (H2 : Rabs (R32 x2 - R32 x1 * R32 x1) <= / 8) by lra. pose proof (Rabs_le_inv _ _ H2) as I2.
  assert (P0 : 0 <= R32 x2 * R32 x1) by (apply Rmult_le_pos; lra).
  assert (PB : R32 x2 * R32 x1 <= 4000001 * 2000) by (apply Rmult_le_compat; lra).
  destruct (mul32 x2 x1 33 8589934592 F2 F1) as [F3 E3]; [lia|apply b_of; [lia|reflexivity]|rewrite Rabs_pos_eq; lra|].
  fold x3 in F3, E3. assert (H3 : Rabs (R32 x3 - R32 x2 * R32 x1) <= 256) by lra. pose proof (Rabs_le_inv _ _ H3) as I3.
  assert (M9 : 4294967296 <= R32 x2 * R32 x1 -> mul2 9 (R32 x3)).
  { intros L. apply mul2_of; [lia|]. rewrite (b_of (9 + 23) 4294967296) by (lia || reflexivity).
    assert (G : fmt32 4294967296) by (rewrite <- (b_of 32 4294967296) by (lia || reflexivity); apply fmt32_bpow; lia).
    destruct (fmul_ok x2 x1 F2 F1) as [V _].
    { rewrite Rabs_pos_eq by lra. apply Rle_trans with (bpow radix2 33); [rewrite (b_of 33 8589934592) by (lia || reflexivity); lra|apply bpow_le; lia]. }
    fold x3 in V. assert (L3 : 4294967296 <= R32 x3) by (rewrite V, <- (rnd32_id 4294967296 G); now apply rnd32_le). rewrite Rabs_pos_eq; lra. }
  destruct (Rle_lt_dec (R32 x1) 1448) as [YA|YA].
  { assert (YY : R32 x1 * R32 x1 <= 1448 * 1448) by (apply Rmult_le_compat; lra).
    destruct (mul32 x1 x1 21 2097152 F1 F1) as [_ E2']; [lia|apply b_of; [lia|reflexivity]|rewrite Rabs_pos_eq; lra|]. fold x2 in E2'.
    assert (PA : R32 x2 * R32 x1 <= 2097152 * 1448) by (apply Rmult_le_compat; lra).
    destruct (mul32 x2 x1 32 4294967296 F2 F1) as [_ E3']; [lia|apply b_of; [lia|reflexivity]|rewrite Rabs_pos_eq; lra|]. fold x3 in E3'.
    apply (sum_any a b c d x1 x2 x3 2000 1700 1100 800); auto; try lra. apply polys_A; auto; lra. }
  assert (YL : 1448 * 1448 <= R32 x1 * R32 x1) by (apply Rmult_le_compat; lra).
  destruct (Rle_lt_dec (R32 x1) 1692) as [YB|YB].
  { destruct (Rle_lt_dec (R32 x2 * R32 x1) 4294967296) as [L|L].
    - destruct (mul32 x2 x1 32 4294967296 F2 F1) as [_ E3']; [lia|apply b_of; [lia|reflexivity]|rewrite Rabs_pos_eq; lra|]. fold x3 in E3'.
      apply (sum_any a b c d x1 x2 x3 2745 2108 1471 834); auto; try lra. apply polys_B1_low; auto; lra.
    - apply (sum_any a b c d x1 x2 x3 2873 2236 1343 962); auto; try lra. apply polys_B1_high; auto; try lra. apply M9. lra. }
  assert (YM : 1692 * 1692 <= R32 x1 * R32 x1) by (apply Rmult_le_compat; lra).
  assert (PM : 2862863 * 1692 <= R32 x2 * R32 x1) by (apply Rmult_le_compat; lra).
  destruct (Rle_lt_dec (R32 x1) 1853.5) as [YC|YC].
  { apply (sum_upper a b c d x1 x2 x3 3355 2206 1313 1060); auto; try lra. apply polys_B2; auto; try lra. apply M9. lra. }
  assert (K4 : mul2 (-2) (R32 x2)).
  { apply mul2_of; [lia|]. change (bpow radix2 (-2 + 23)) with (IZR 2097152). rewrite Rabs_pos_eq; lra. }
  destruct K4 as (K & HK). change (bpow radix2 (-2)) with (/ 4) in HK.
  assert (KB : (0 <= K <= 16000004)%Z) by (split; apply le_IZR; lra).
  assert (O6 : Rabs (rnd32 (6000 * R32 x2) - 6000 * R32 x2) <= IZR (off (1500 * K) 2048)).
  { replace (6000 * R32 x2) with (IZR (1500 * K)) by (rewrite mult_IZR, HK; field). apply (off_round _ 11); lia. }
  assert (O5 : Rabs (rnd32 (5000 * R32 x2) - 5000 * R32 x2) <= IZR (off (1250 * K) 2048)).
  { replace (5000 * R32 x2) with (IZR (1250 * K)) by (rewrite mult_IZR, HK; field). apply (off_round _ 11); lia. }
  assert (O4 : Rabs (rnd32 (4000 * R32 x2) - 4000 * R32 x2) <= IZR (off (1000 * K) 1024)).
  { replace (4000 * R32 x2) with (IZR (1000 * K)) by (rewrite mult_IZR, HK; field). apply (off_round _ 10); lia. }
  assert (O3 : Rabs (rnd32 (3000 * R32 x2) - 3000 * R32 x2) <= IZR (off (750 * K) 1024)).
  { replace (3000 * R32 x2) with (IZR (750 * K)) by (rewrite mult_IZR, HK; field). apply (off_round _ 10); lia. }
  pose proof (off4_ok K) as S. unfold off4 in S. apply IZR_le in S. rewrite !plus_IZR, !mult_IZR in S.
  assert (B6 : IZR (off (1500 * K) 2048) <= 1024) by (apply IZR_le, (off_half (1500 * K) 2048); [lia|reflexivity]).
  assert (B5 : IZR (off (1250 * K) 2048) <= 1024) by (apply IZR_le, (off_half (1250 * K) 2048); [lia|reflexivity]).
  assert (B4 : IZR (off (1000 * K) 1024) <= 512) by (apply IZR_le, (off_half (1000 * K) 1024); [lia|reflexivity]).
  assert (B3 : IZR (off (750 * K) 1024) <= 512) by (apply IZR_le, (off_half (750 * K) 1024); [lia|reflexivity]).
  apply (sum_upper a b c d x1 x2 x3 _ _ _ _ A B C D ltac:(lra) (polys_C x1 x2 x3 F1 F2 F3 Y ltac:(lra) H2 H3 (M9 ltac:(lra)) _ _ _ _ O6 O5 O4 O3 ltac:(lra) ltac:(lra) ltac:(lra) ltac:(lra))); lra.
Qed.

Lemma fi_sum_ok : forall a b c d x, (Z.abs a <= 32768)%Z -> (Z.abs b <= 32768)%Z -> (Z.abs c <= 32768)%Z -> (Z.abs d <= 32768)%Z ->
  fin32 x = true -> 1 <= R32 x <= 2 ->
  fin32 (fi_sum a b c d x) = true /\ Rabs (R32 (fi_sum a b c d x) - lag a b c d (1000 * R32 x)) <= 0.1 /\ Rabs (R32 (fi_sum a b c d x)) <= 50000.
Proof.
  intros a b c d x A B C D F X. unfold fi_sum. destruct (x1_ok x F X) as (F1 & Y & E1). set (x1 := fi_x1 x) in *.
  destruct (total_ok a b c d x1 A B C D F1 Y) as (FS & ES & LS). unfold fi_total in FS, ES. split; [exact FS|].
  set (s := R32 (fadd _ _)) in *. pose proof (lag_diff a b c d (R32 x1) (1000 * R32 x) _ A B C D Y ltac:(lra) E1 ltac:(lra)) as L.
  apply Rabs_le_inv in ES, LS, L. split; apply Rabs_le; lra.
Qed.

Definition clampR (r : R) : R := Rmax (-32768) (Rmin 32767 r).
Lemma clamp_near : forall z r k, Rabs (IZR z - r) <= k -> Rabs (IZR (clamp16 z) - clampR r) <= k.
Proof.
  intros z r k H. apply Rabs_le_inv in H. unfold clamp16, clampR. apply Rabs_le.
  destruct (Z.ltb_spec z (-32768)) as [L|L].
  - apply IZR_lt in L. unfold Rmin, Rmax. repeat (destruct (Rle_dec _ _)); lra.
  - apply IZR_le in L. destruct (Z.ltb_spec 32767 z) as [M|M]; [apply IZR_lt in M|apply IZR_le in M]; unfold Rmin, Rmax; repeat (destruct (Rle_dec _ _)); lra.
Qed.

Definition cubic (f : R -> R) : Prop := exists k0 k1 k2 k3, forall t, f t = k0 + k1 * t + k2 * (t * t) + k3 * (t * t * t).

(* what fastinterpolate delivers, against any cubic through the four points *)
Theorem cubic_accuracy : forall a b c d x, in_s16 a -> in_s16 b -> in_s16 c -> in_s16 d -> fin32 x = true -> 1 <= R32 x <= 2 ->
  exists v, fastinterpolate a b c d x = Ok v /\ in_s16 v /\
    forall f, cubic f -> f 0 = IZR a -> f 1 = IZR b -> f 2 = IZR c -> f 3 = IZR d -> Rabs (IZR v - clampR (f (R32 x))) <= 1.1.
Proof.
  intros a b c d x A B C D F X. unfold in_s16 in A, B, C, D.
  destruct (fi_sum_ok a b c d x ltac:(lia) ltac:(lia) ltac:(lia) ltac:(lia) F X) as (FS & ES & BS).
  unfold fastinterpolate, f_to_s32, f_trunc. rewrite FS. set (s := R32 (fi_sum a b c d x)) in *.
  assert (T : Btrunc (fi_sum a b c d x) = Ztrunc s) by (apply Btrunc32). rewrite T.
  assert (N : Rabs (IZR (Ztrunc s) - s) <= 1).
  { apply Rabs_le. destruct (Rle_lt_dec 0 s) as [P|P].
    - pose proof (Ztrunc_bounds_pos s P). lra.
    - pose proof (Ztrunc_bounds_neg s ltac:(lra)). lra. }
  assert (R : in_s32b (Ztrunc s) = true).
  { apply Rabs_le_inv in BS, N. assert (-50001 <= Ztrunc s <= 50001)%Z by (split; apply le_IZR; lra). unfold in_s32b. apply andb_true_intro. split; [apply Z.leb_le|apply Z.ltb_lt]; lia. }
  rewrite R. exists (clamp16 (Ztrunc s)). split; [reflexivity|]. split.
  - unfold clamp16, in_s16. destruct (Z.ltb_spec (Ztrunc s) (-32768)); [lia|]. destruct (Z.ltb_spec 32767 (Ztrunc s)); lia.
  - intros f (k0 & k1 & k2 & k3 & K) f0 f1 f2 f3. apply clamp_near.
    assert (E : f (R32 x) = lag a b c d (1000 * R32 x)). { unfold lag, cub. rewrite <- f0, <- f1, <- f2, <- f3, !K. field. }
    rewrite E. apply Rabs_le_inv in ES, N. apply Rabs_le. lra.
Qed.
Theorem cubic_accuracy_weak : forall a b c d x, in_s16 a -> in_s16 b -> in_s16 c -> in_s16 d -> fin32 x = true -> 1 <= R32 x <= 2 ->
  exists v, fastinterpolate a b c d x = Ok v /\ in_s16 v /\
    forall f, cubic f -> f 0 = IZR a -> f 1 = IZR b -> f 2 = IZR c -> f 3 = IZR d -> Rabs (IZR v - clampR (f (R32 x))) <= 1.125.
Proof.
  intros a b c d x A B C D F X. destruct (cubic_accuracy a b c d x A B C D F X) as (v & V & S & P). exists v. split; [exact V|]. split; [exact S|].
  intros f Hf f0 f1 f2 f3. specialize (P f Hf f0 f1 f2 f3). lra.
Qed.
