(* Rounding errors with fused arithmetic. *)

From Coq Require Import ZArith Lia List Bool Reals Lra Psatz.
From Flocq Require Import Core.Core IEEE754.BinarySingleNaN.
From Verif Require Import Machine Floats FloatFacts InterpModel ReaderModel CubicProofs FadeSpec FadeProofs ContractModel.
Local Open Scope R_scope.

Lemma ffma_ok : forall x y z, fin32 x = true -> fin32 y = true -> fin32 z = true -> Rabs (R32 x * R32 y + R32 z) <= bpow radix2 120 ->
  R32 (ffma x y z) = rnd32 (R32 x * R32 y + R32 z) /\ fin32 (ffma x y z) = true.
Proof.
  intros x y z Fx Fy Fz H. unfold ffma. pose proof (Bfma_correct 24 128 _ _ mode_NE x y z Fx Fy Fz) as C. cbv zeta in C.
  change (round radix2 (SpecFloat.fexp 24 128) (round_mode mode_NE) (R32 x * R32 y + R32 z)) with (rnd32 (R32 x * R32 y + R32 z)) in C.
  rewrite rnd32_lt_emax in C by exact H. tauto.
Qed.
Lemma dfma_ok : forall x y z, fin64 x = true -> fin64 y = true -> fin64 z = true -> Rabs (R64 x * R64 y + R64 z) <= bpow radix2 1000 ->
  R64 (dfma x y z) = rnd64 (R64 x * R64 y + R64 z) /\ fin64 (dfma x y z) = true.
Proof.
  intros x y z Fx Fy Fz H. unfold dfma. pose proof (Bfma_correct 53 1024 _ _ mode_NE x y z Fx Fy Fz) as C. cbv zeta in C.
  change (round radix2 (SpecFloat.fexp 53 1024) (round_mode mode_NE) (R64 x * R64 y + R64 z)) with (rnd64 (R64 x * R64 y + R64 z)) in C.
  rewrite rnd64_lt_emax in C by exact H. tauto.
Qed.
Lemma fma32 : forall a b c e M, fin32 a = true -> fin32 b = true -> fin32 c = true -> (-100 <= e <= 120)%Z -> bpow radix2 e = M -> Rabs (R32 a * R32 b + R32 c) <= M ->
  fin32 (ffma a b c) = true /\ Rabs (R32 (ffma a b c) - (R32 a * R32 b + R32 c)) <= M / 33554432.
Proof. intros a b c e M Fa Fb Fc He HM H. rewrite <- HM in *. destruct (ffma_ok a b c Fa Fb Fc) as [-> F]; [apply (big32 e); auto; lia|]. split; [exact F|]. apply near32; auto; lia. Qed.
Lemma neg32 : forall x, R32 (fneg x) = - R32 x /\ fin32 (fneg x) = fin32 x.
Proof. intros x. unfold fneg. split; [apply B2R_Bopp|apply is_finite_Bopp]. Qed.

(* one of the cubics, whatever is fused *)
Lemma poly_any : forall k x1 x2 x3 a b ea es eb ep Ma Ms Mb Mp C,
  fin32 x1 = true -> fin32 x2 = true -> fin32 x3 = true -> 1000 <= R32 x1 <= 2000 ->
  Rabs (R32 x2 - R32 x1 * R32 x1) <= / 8 -> Rabs (R32 x3 - R32 x2 * R32 x1) <= 256 ->
  (3000 <= a <= 6000)%Z -> (0 <= b <= 2 ^ 24)%Z ->
  (-100 <= ea <= 120)%Z -> (-100 <= es <= 120)%Z -> (-100 <= eb <= 120)%Z -> (-100 <= ep <= 120)%Z ->
  bpow radix2 ea = Ma -> bpow radix2 es = Ms -> bpow radix2 eb = Mb -> bpow radix2 ep = Mp ->
  IZR a * 4000001 <= Ma -> 4000000 * (IZR a - 2000) + 3000 <= Ms -> IZR b * 2000 <= Mb -> Ma <= 34359738368 -> Ms <= 17179869184 -> Mb <= 34359738368 ->
  Rabs (cub a b (R32 x1)) <= C -> C + 4000 <= Mp ->
  fin32 (fi_poly_c k x1 x2 x3 a b) = true /\
  Rabs (R32 (fi_poly_c k x1 x2 x3 a b) - cub a b (R32 x1)) <= (IZR a - 1000) / 8 + 256 + Ma / 33554432 + Ms / 33554432 + Mb / 33554432 + Mp / 33554432.
Proof.
  intros k x1 x2 x3 a b ea es eb ep Ma Ms Mb Mp C F1 F2 F3 Y H2 H3 Ha Hb EA ES EB EP HMa HMs HMb HMp BA BS BB LA LS LB BC BP.
  destruct (f_of_Z_ok a ltac:(lia)) as [Va Fa]. destruct (f_of_Z_ok b ltac:(lia)) as [Vb Fb].
  assert (IA : 3000 <= IZR a <= 6000) by (split; apply IZR_le; lia). assert (IB : 0 <= IZR b) by (apply IZR_le; lia).
  pose proof (low_part _ Y (IZR a) ltac:(lra)) as LP. unfold cub in *. set (y := R32 x1) in *. set (A := IZR a) in *. clearbody A. set (B := IZR b) in *. clearbody B.
  set (z2 := R32 x2) in *. set (z3 := R32 x3) in *.
  assert (YH : y * y <= 2000 * 2000) by (apply Rmult_le_compat; lra). assert (YP : 1000 * 1000 <= y * y) by (apply Rmult_le_compat; lra).
  assert (D2 : Rabs ((z2 - y * y) * (y - A)) <= (A - 1000) / 8).
  { rewrite Rabs_mult. assert (Rabs (y - A) <= A - 1000) by (apply Rabs_le; lra). replace ((A - 1000) / 8) with (/ 8 * (A - 1000)) by field. apply Rmult_le_compat; auto using Rabs_pos. }
  apply Rabs_le_inv in H2, H3, D2, LP, BC.
  assert (Z2 : 0 <= z2 <= 4000001) by lra.
  assert (P2 : A * z2 <= A * 4000001) by (apply Rmult_le_compat_l; lra). assert (P2' : 0 <= A * z2) by (apply Rmult_le_pos; lra).
  assert (BY : 0 <= B * y <= B * 2000) by (split; [apply Rmult_le_pos; lra|apply Rmult_le_compat_l; lra]).
  assert (EQ : z2 * y - A * z2 - (y * y * y - A * (y * y)) = (z2 - y * y) * (y - A)) by ring.
  (* the subtraction *)
  assert (S : forall s, (s = match fu_sub k with SubPlain => fsub x3 (fmul (f_of_Z a) x2) | SubScale => ffma (fneg (f_of_Z a)) x2 x3 | SubCube => ffma x2 x1 (fneg (fmul (f_of_Z a) x2)) end) ->
    fin32 s = true /\ Rabs (R32 s - (y * y * y - A * (y * y))) <= (A - 1000) / 8 + 256 + Ma / 33554432 + Ms / 33554432).
  { intros s ->. destruct (mul32 (f_of_Z a) x2 ea Ma Fa F2 EA HMa) as [G1 R1]. { rewrite Va. fold z2. rewrite Rabs_pos_eq; lra. }
    rewrite Va in R1. fold z2 in R1. set (m := fmul (f_of_Z a) x2) in *. set (vm := R32 m) in *. apply Rabs_le_inv in R1.
    destruct (fu_sub k).
    - destruct (sub32 x3 m es Ms F3 G1 ES HMs) as [G R]. { fold z3 vm. apply Rabs_le. lra. }
      fold z3 vm in R. apply Rabs_le_inv in R. split; [exact G|]. apply Rabs_le. lra.
    - destruct (neg32 (f_of_Z a)) as [VN FN]. rewrite Fa in FN.
      destruct (fma32 (fneg (f_of_Z a)) x2 x3 es Ms FN F2 F3 ES HMs) as [G R]. { rewrite VN, Va. fold z2 z3. apply Rabs_le. lra. }
      rewrite VN, Va in R. fold z2 z3 in R. apply Rabs_le_inv in R. split; [exact G|]. apply Rabs_le. lra.
    - destruct (neg32 m) as [VN FN]. rewrite G1 in FN.
      destruct (fma32 x2 x1 (fneg m) es Ms F2 F1 FN ES HMs) as [G R]. { rewrite VN. fold z2 y vm. apply Rabs_le. lra. }
      rewrite VN in R. fold z2 y vm in R. apply Rabs_le_inv in R. split; [exact G|]. apply Rabs_le. lra. }
  unfold fi_poly_c. cbv zeta. set (s := match fu_sub k with SubPlain => _ | SubScale => _ | SubCube => _ end) in *. destruct (S s eq_refl) as [GS RS]. clear S. clearbody s.
  apply Rabs_le_inv in RS. set (vs := R32 s) in *. destruct (fu_add k).
  - destruct (fma32 (f_of_Z b) x1 s ep Mp Fb F1 GS EP HMp) as [G R]. { rewrite Vb. fold y vs. apply Rabs_le. lra. }
    rewrite Vb in R. fold y vs in R. apply Rabs_le_inv in R. split; [exact G|]. apply Rabs_le. lra.
  - destruct (mul32 (f_of_Z b) x1 eb Mb Fb F1 EB HMb) as [G1 R1]. { rewrite Vb. fold y. rewrite Rabs_pos_eq; lra. }
    rewrite Vb in R1. fold y in R1. set (m := fmul (f_of_Z b) x1) in *. set (vm := R32 m) in *. apply Rabs_le_inv in R1.
    destruct (add32 s m ep Mp GS G1 EP HMp) as [G R]. { fold vs vm. apply Rabs_le. lra. }
    fold vs vm in R. apply Rabs_le_inv in R. split; [exact G|]. apply Rabs_le. lra.
Qed.

(* the sum of the four terms from the errors of the polynomials *)
Lemma terms_sum : forall a b c d y P6 P5 P4 P3, (Z.abs a <= 32768)%Z -> (Z.abs b <= 32768)%Z -> (Z.abs c <= 32768)%Z -> (Z.abs d <= 32768)%Z -> 1000 <= y <= 2000 ->
  fin32 P6 = true -> fin32 P5 = true -> fin32 P4 = true -> fin32 P3 = true ->
  Rabs (R32 P6 - (cub 6000 11000000 y - 6000000000)) <= 3713 -> Rabs (R32 P5 - cub 5000 6000000 y) <= 2868 ->
  Rabs (R32 P4 - cub 4000 3000000 y) <= 1719 -> Rabs (R32 P3 - cub 3000 2000000 y) <= 1290 ->
  let s := fadd (fadd (fadd (fi_term a P6 (-6000000000)) (fi_term b P5 2000000000)) (fi_term c P4 (-2000000000))) (fi_term d P3 6000000000) in
  fin32 s = true /\ Rabs (R32 s - lag a b c d y) <= 0.116 /\ Rabs (lag a b c d y) <= 45000.
Proof.
  intros a b c d y P6 P5 P4 P3 Ha Hb Hc Hd Y G6 G5 G4 G3 X6 X5 X4 X3. cbv zeta.
  pose proof (cub6 _ Y) as C6. pose proof (cub5 _ Y) as C5. pose proof (cub4 _ Y) as C4. pose proof (cub3 _ Y) as C3.
  set (Q6 := cub 6000 11000000 y - 6000000000) in *.
  assert (SUM : cub 5000 6000000 y - cub 4000 3000000 y <= 2250000000).
  { pose proof (q_range _ Y). unfold cub. lra. }
  set (Q5 := cub 5000 6000000 y) in *. set (Q4 := cub 4000 3000000 y) in *. set (Q3 := cub 3000 2000000 y) in *.
  assert (V6 : R32 (f_of_Z (-6000000000)) = IZR (-6000000000)) by (apply (const32 (-6000000000) (-11718750) 9); lia).
  assert (V2 : R32 (f_of_Z (-2000000000)) = IZR (-2000000000)) by (apply (const32 (-2000000000) (-15625000) 7); lia).
  assert (W6 : R32 (f_of_Z 6000000000) = IZR 6000000000) by (apply (const32 6000000000 11718750 9); lia).
  assert (W2 : R32 (f_of_Z 2000000000) = IZR 2000000000) by (apply (const32 2000000000 15625000 7); lia).
  assert (A6 : Rabs (IZR (-6000000000)) = 6000000000) by (rewrite Rabs_left; lra).
  assert (A2 : Rabs (IZR (-2000000000)) = 2000000000) by (rewrite Rabs_left; lra).
  assert (D6 : Rabs 6000000000 = 6000000000) by (rewrite Rabs_pos_eq; lra).
  assert (D2 : Rabs 2000000000 = 2000000000) by (rewrite Rabs_pos_eq; lra).
  assert (M6 : Rabs Q6 <= 500000000) by (apply Rabs_le; lra). assert (M5 : Rabs Q5 = Q5) by (apply Rabs_pos_eq; lra).
  assert (M4 : Rabs Q4 <= 2000000000) by (apply Rabs_le; lra). assert (M3 : Rabs Q3 <= 500000000) by (apply Rabs_le; lra).
  destruct (term32 a P6 (-6000000000) Q6 3713 17592186044416 4096 44 12 Ha G6 X6 V6) as [T6 R6]; rewrite ?A6; try lia; try lra; try (apply b_of; [lia|reflexivity]).
  destruct (term32 b P5 2000000000 Q5 2868 70368744177664 65536 46 16 Hb G5 X5 W2) as [T5 R5]; rewrite ?D2, ?M5; try lia; try lra; try (apply b_of; [lia|reflexivity]).
  destruct (term32 c P4 (-2000000000) Q4 1719 70368744177664 65536 46 16 Hc G4 X4 V2) as [T4 R4]; rewrite ?A2; try lia; try lra; try (apply b_of; [lia|reflexivity]).
  destruct (term32 d P3 6000000000 Q3 1290 17592186044416 4096 44 12 Hd G3 X3 W6) as [T3 R3]; rewrite ?D6; try lia; try lra; try (apply b_of; [lia|reflexivity]).
  rewrite A6 in R6. rewrite D2 in R5. rewrite A2 in R4. rewrite D6 in R3.
  set (t6 := fi_term a P6 _) in *. set (t5 := fi_term b P5 _) in *. set (t4 := fi_term c P4 _) in *. set (t3 := fi_term d P3 _) in *.
  unfold lag. fold Q6 Q5 Q4 Q3.
  assert (U6 : Rabs (IZR a * Q6 / -6000000000) <= 2731).
  { replace (IZR a * Q6 / -6000000000) with (- (IZR a * Q6 / 6000000000)) by field. rewrite Rabs_Ropp.
    eapply Rle_trans; [apply (scaled a Q6 500000000 6000000000 Ha M6); lra|lra]. }
  assert (U3 : Rabs (IZR d * Q3 / 6000000000) <= 2731). { eapply Rle_trans; [apply (scaled d Q3 500000000 6000000000 Hd M3); lra|lra]. }
  assert (U5 : Rabs (IZR b * Q5 / 2000000000) <= 32768 * Q5 / 2000000000) by (apply scaled; auto; lra).
  assert (U4 : Rabs (IZR c * Q4 / -2000000000) <= 32768 * - Q4 / 2000000000).
  { replace (IZR c * Q4 / -2000000000) with (- (IZR c * Q4 / 2000000000)) by field. rewrite Rabs_Ropp.
    apply scaled; auto; [|lra]. rewrite Rabs_left1; lra. }
  set (u6 := IZR a * Q6 / -6000000000) in *. set (u5 := IZR b * Q5 / 2000000000) in *.
  set (u4 := IZR c * Q4 / -2000000000) in *. set (u3 := IZR d * Q3 / 6000000000) in *. clearbody u6 u5 u4 u3.
  apply Rabs_le_inv in R6, R5, R4, R3, U6, U5, U4, U3.
  destruct (add32 t6 t5 16 65536 T6 T5) as [S1 L1]; [lia|apply b_of; [lia|reflexivity]|apply Rabs_le; lra|]. apply Rabs_le_inv in L1.
  destruct (add32 _ t4 16 65536 S1 T4) as [S2 L2]; [lia|apply b_of; [lia|reflexivity]|apply Rabs_le; lra|]. apply Rabs_le_inv in L2.
  destruct (add32 _ t3 16 65536 S2 T3) as [S3 L3]; [lia|apply b_of; [lia|reflexivity]|apply Rabs_le; lra|]. apply Rabs_le_inv in L3.
  split; [exact S3|]. split; apply Rabs_le; lra.
Qed.

Ltac pow := try (apply b_of; [lia|reflexivity]); try lia; try lra.
Lemma fi_sum_c_ok : forall k a b c d x, (Z.abs a <= 32768)%Z -> (Z.abs b <= 32768)%Z -> (Z.abs c <= 32768)%Z -> (Z.abs d <= 32768)%Z -> fin32 x = true -> 1 <= R32 x <= 2 ->
  fin32 (fi_sum_c k a b c d x) = true /\ Rabs (R32 (fi_sum_c k a b c d x) - lag a b c d (1000 * R32 x)) <= 0.125 /\ Rabs (R32 (fi_sum_c k a b c d x)) <= 50000.
Proof.
  intros k a b c d x A B C D F X. unfold fi_sum_c. destruct (x1_ok x F X) as (F1 & Y & E1). set (x1 := fi_x1 x) in *. cbv zeta.
  pose proof (yy _ Y) as Y4. assert (Y1 : 1000 * 1000 <= R32 x1 * R32 x1) by (apply Rmult_le_compat; lra).
  destruct (mul32 x1 x1 22 4194304 F1 F1) as [F2 E2]; [lia|apply b_of; [lia|reflexivity]|rewrite Rabs_pos_eq; lra|].
  set (x2 := fmul x1 x1) in *. assert (H2 : Rabs (R32 x2 - R32 x1 * R32 x1) <= / 8) by lra. pose proof (Rabs_le_inv _ _ H2) as I2.
  assert (P0 : 0 <= R32 x2 * R32 x1) by (apply Rmult_le_pos; lra). assert (PB : R32 x2 * R32 x1 <= 4000001 * 2000) by (apply Rmult_le_compat; lra).
  destruct (mul32 x2 x1 33 8589934592 F2 F1) as [F3 E3]; [lia|apply b_of; [lia|reflexivity]|rewrite Rabs_pos_eq; lra|].
  set (x3 := fmul x2 x1) in *. assert (H3 : Rabs (R32 x3 - R32 x2 * R32 x1) <= 256) by lra.
  destruct (poly_any (k 0%nat) x1 x2 x3 6000 11000000 35 34 35 33 34359738368 17179869184 34359738368 8589934592 6500000000 F1 F2 F3 Y H2 H3) as [G6 X6]; pow; [now apply abs6|].
  destruct (poly_any (k 1%nat) x1 x2 x3 5000 6000000 35 34 34 31 34359738368 17179869184 17179869184 2147483648 2000000000 F1 F2 F3 Y H2 H3) as [G5 X5]; pow; [now apply abs5|].
  destruct (poly_any (k 2%nat) x1 x2 x3 4000 3000000 34 33 33 31 17179869184 8589934592 8589934592 2147483648 2000000000 F1 F2 F3 Y H2 H3) as [G4 X4]; pow; [now apply abs4|].
  destruct (poly_any (k 3%nat) x1 x2 x3 3000 2000000 34 32 32 29 17179869184 4294967296 4294967296 536870912 500000000 F1 F2 F3 Y H2 H3) as [G3 X3]; pow; [now apply abs3|].
  set (q6 := fi_poly_c (k 0%nat) x1 x2 x3 6000 11000000) in *.
  destruct six as [V6 FS6]. pose proof (cub6 _ Y) as C6. pose proof (Rabs_le_inv _ _ X6) as I6.
  destruct (sub32 q6 (f_of_Z 6000000000) 29 536870912 G6 FS6) as [G6' X6']; pow. { rewrite V6. apply Rabs_le. lra. }
  rewrite V6 in X6'. apply Rabs_le_inv in X6'.
  destruct (terms_sum a b c d (R32 x1) (fsub q6 (f_of_Z 6000000000)) (fi_poly_c (k 1%nat) x1 x2 x3 5000 6000000) (fi_poly_c (k 2%nat) x1 x2 x3 4000 3000000)
    (fi_poly_c (k 3%nat) x1 x2 x3 3000 2000000) A B C D Y G6' G5 G4 G3) as (FS & ES & LS).
  { apply Rabs_le. lra. } { eapply Rle_trans; [exact X5|lra]. } { eapply Rle_trans; [exact X4|lra]. } { eapply Rle_trans; [exact X3|lra]. }
  split; [exact FS|]. set (s := R32 (fadd _ _)) in *. pose proof (lag_diff a b c d (R32 x1) (1000 * R32 x) _ A B C D Y ltac:(lra) E1 ltac:(lra)) as L.
  apply Rabs_le_inv in ES, LS, L. split; apply Rabs_le; lra.
Qed.

(* what fastinterpolate delivers, whatever is fused, against any cubic through the four points *)
Theorem cubic_fused : forall k a b c d x, in_s16 a -> in_s16 b -> in_s16 c -> in_s16 d -> fin32 x = true -> 1 <= R32 x <= 2 ->
  exists v, fastinterpolate_c k a b c d x = Ok v /\ in_s16 v /\
    forall f, cubic f -> f 0 = IZR a -> f 1 = IZR b -> f 2 = IZR c -> f 3 = IZR d -> Rabs (IZR v - clampR (f (R32 x))) <= 1.125.
Proof.
  intros k a b c d x A B C D F X. unfold in_s16 in A, B, C, D.
  destruct (fi_sum_c_ok k a b c d x ltac:(lia) ltac:(lia) ltac:(lia) ltac:(lia) F X) as (FS & ES & BS).
  unfold fastinterpolate_c, f_to_s32, f_trunc. rewrite FS. set (s := R32 (fi_sum_c k a b c d x)) in *.
  assert (T : Btrunc (fi_sum_c k a b c d x) = Ztrunc s) by (apply Btrunc32). rewrite T.
  assert (N : Rabs (IZR (Ztrunc s) - s) <= 1).
  { apply Rabs_le. destruct (Rle_lt_dec 0 s) as [P|P].
    - pose proof (Ztrunc_bounds_pos s P). lra.
    - pose proof (Ztrunc_bounds_neg s ltac:(lra)). lra. }
  assert (R : in_s32b (Ztrunc s) = true).
  { apply Rabs_le_inv in BS, N. assert (-50001 <= Ztrunc s <= 50001)%Z by (split; apply le_IZR; lra). unfold in_s32b. apply andb_true_intro. split; [apply Z.leb_le|apply Z.ltb_lt]; lia. }
  rewrite R. exists (clamp16 (Ztrunc s)). split; [reflexivity|]. split.
  - unfold clamp16, in_s16. destruct (Z.ltb_spec (Ztrunc s) (-32768)); [lia|]. destruct (Z.ltb_spec 32767 (Ztrunc s)); lia.
  - intros f (k0 & k1 & k2 & k3 & K) f0 f1 f2 f3. apply clamp_near.
    assert (E : f (R32 x) = lag a b c d (1000 * R32 x)). { unfold lag, cub. rewrite <- f0, <- f1, <- f2, <- f3, !K. field. }
    rewrite E. apply Rabs_le_inv in ES, N. apply Rabs_le. lra.
Qed.

(* the mixture, whatever is fused *)
Theorem mix_fused : forall k c a b, gain_ok c -> s16_val a -> s16_val b ->
  exists v, mix16_c k c a (dsub d1 c) b = Ok v /\ s16_val v /\ Rabs (IZR v - (R64 c * IZR a + (1 - R64 c) * IZR b)) <= 1 + / 34359738368 /\
    (Z.min a b - 1 <= v <= Z.max a b + 1)%Z /\ (Z.min 0 (Z.min a b) <= v <= Z.max 0 (Z.max a b))%Z.
Proof.
  intros k c a b G A B. destruct (co_gain c G) as [[F1 G1] E1]. pose proof G as GG. destruct G as [F G].
  destruct (d_of_Z_ok a ltac:(unfold s16_val in A; lia)) as [A1 A2]. destruct (d_of_Z_ok b ltac:(unfold s16_val in B; lia)) as [B1 B2].
  assert (AR : -32768 <= IZR a <= 32767) by (split; apply IZR_le; apply A).
  assert (BR : -32768 <= IZR b <= 32767) by (split; apply IZR_le; apply B).
  set (g := dsub d1 c) in *. clearbody g.
  destruct (dmul_ok g (d_of_Z b) F1 B2) as [P1 P2]. { apply big_ok. rewrite B1. apply Rabs_le. nra. }
  destruct (dmul_ok c (d_of_Z a) F A2) as [Q1 Q2]. { apply big_ok. rewrite A1. apply Rabs_le. nra. }
  rewrite B1 in P1. rewrite A1 in Q1.
  pose proof (rnd64_error (1 - R64 c)) as X1. rewrite <- E1 in X1. rewrite (Rabs_pos_eq (1 - R64 c)) in X1 by lra.
  pose proof (rnd64_error (R64 g * IZR b)) as X2. rewrite <- P1 in X2.
  pose proof (rnd64_error (R64 c * IZR a)) as X3. rewrite <- Q1 in X3.
  pose proof small_bpow as T. set (t := bpow radix2 (-1075)) in *. clearbody t. rewrite eps_53 in *.
  assert (PB : Rabs (R64 g * IZR b) <= 32768) by (apply Rabs_le; nra).
  assert (QB : Rabs (R64 c * IZR a) <= 32768) by (apply Rabs_le; nra).
  assert (Y2 : Rabs (R64 (dmul g (d_of_Z b)) - R64 g * IZR b) <= / 200000000000) by lra.
  assert (Y3 : Rabs (R64 (dmul c (d_of_Z a)) - R64 c * IZR a) <= / 200000000000) by lra.
  unfold mix16_c. set (p := dmul g (d_of_Z b)) in *. set (q := dmul c (d_of_Z a)) in *.
  apply Rabs_le_inv in Y2. apply Rabs_le_inv in Y3. apply Rabs_le_inv in PB. apply Rabs_le_inv in QB. apply Rabs_le_inv in X1.
  assert (GB : Rabs ((R64 g - (1 - R64 c)) * IZR b) <= / 200000000000).
  { rewrite Rabs_mult. assert (D : Rabs (R64 g - (1 - R64 c)) <= / 8000000000000000) by (apply Rabs_le; lra).
    assert (E : Rabs (IZR b) <= 32768) by (apply Rabs_le; lra). pose proof (Rabs_pos (R64 g - (1 - R64 c))). pose proof (Rabs_pos (IZR b)). nra. }
  apply Rabs_le_inv in GB. set (e := R64 c * IZR a + (1 - R64 c) * IZR b).
  assert (N : forall s w, s = rnd64 w -> Rabs (w - e) <= / 60000000000 -> Rabs (s - e) <= / 34359738368).
  { intros s w -> W. apply Rabs_le_inv in W. pose proof (rnd64_error w) as X4. rewrite eps_53 in X4. unfold e in *.
    assert (W2 : Rabs w <= 65538) by (apply Rabs_le; lra). pose proof small_bpow as SB. assert (X5 : Rabs (rnd64 w - w) <= / 100000000000) by lra.
    apply Rabs_le_inv in X5. apply Rabs_le. lra. }
  assert (E : exists s, fin64 s = true /\ Rabs (R64 s - e) <= / 34359738368 /\
    d_to_s16 (match k with MixPlain => dadd q p | MixLeft => dfma c (d_of_Z a) p | MixRight => dfma g (d_of_Z b) q end) = d_to_s16 s).
  { destruct k.
    - destruct (dadd_ok q p Q2 P2) as [S1 S2]. { apply big_ok. apply Rabs_le. lra. }
      exists (dadd q p). split; [exact S2|]. split; [|reflexivity]. apply (N _ _ S1). unfold e. apply Rabs_le. lra.
    - destruct (dfma_ok c (d_of_Z a) p F A2 P2) as [S1 S2]. { apply big_ok. rewrite A1. apply Rabs_le. lra. }
      eexists. split; [exact S2|]. split; [|reflexivity]. apply (N _ _ S1). rewrite A1. unfold e. apply Rabs_le. lra.
    - destruct (dfma_ok g (d_of_Z b) q F1 B2 Q2) as [S1 S2]. { apply big_ok. rewrite B1. apply Rabs_le. lra. }
      eexists. split; [exact S2|]. split; [|reflexivity]. apply (N _ _ S1). rewrite B1. unfold e. apply Rabs_le. lra. }
  destruct E as (s & FS & NS & ES). rewrite ES. apply Rabs_le_inv in NS.
  pose proof (convex_between (R64 c) a b G) as C. unfold e in NS.
  destruct (trunc_between (Z.min a b) (Z.max a b) (R64 s) ltac:(lra)) as [T1 T2].
  exists (Ztrunc (R64 s)). split; [apply d_to_s16_ok; [exact FS|]; unfold in_s16, s16_val in *; lia|].
  split; [unfold s16_val in *; lia|]. split; [|split; [exact T1|exact T2]].
  pose proof (Ztrunc_frac (R64 s)) as FR. apply Rabs_def2 in FR. unfold e. apply Rabs_le. lra.
Qed.

(* at a sample's own position *)
Theorem near_sample : forall k a b c d, in_s16 a -> in_s16 b -> in_s16 c -> in_s16 d -> forall x, fin32 x = true -> R32 x = 1 ->
  exists v, fastinterpolate_c k a b c d x = Ok v /\ (Z.abs (v - b) <= 1)%Z.
Proof.
  intros k a b c d A B C D x F X. destruct (cubic_fused k a b c d x A B C D F ltac:(lra)) as (v & E & S & P). exists v. split; [exact E|].
  set (f := fun t : R => lag a b c d (1000 * t)).
  assert (FC : cubic f).
  { exists (IZR a), (- 11 / 6 * IZR a + 3 * IZR b - 3 / 2 * IZR c + / 3 * IZR d), (IZR a - 5 / 2 * IZR b + 2 * IZR c - / 2 * IZR d),
      (- / 6 * IZR a + / 2 * IZR b - / 2 * IZR c + / 6 * IZR d). intros t. unfold f, lag, cub. field. }
  specialize (P f FC). unfold f, lag, cub in P. specialize (P ltac:(field) ltac:(field) ltac:(field) ltac:(field)).
  rewrite X in P. match type of P with Rabs (_ - clampR ?e) <= _ => replace e with (IZR b) in P by field end.
  assert (K : clampR (IZR b) = IZR b).
  { unfold clampR. assert (-32768 <= IZR b <= 32767) by (unfold in_s16 in B; split; apply IZR_le; lia). rewrite Rmin_right, Rmax_right; lra. }
  rewrite K in P. apply Rabs_le_inv in P. assert (-2 < v - b < 2)%Z; [|lia]. split; apply lt_IZR; rewrite minus_IZR; lra.
Qed.
