(* Which loop blocks a repeating play position visits, and that they are buffered. *)

From Coq Require Import ZArith Lia List Bool.
From Verif Require Import Machine CacheModel CacheFacts CacheProofs WindowProofs LoopWindow LoopFile.
Import ListNotations.
Local Open Scope Z_scope.

(* A forward path over frames below lf: steps of at most s frames, or back to ls
   when the next step would reach lf; wr counts the turns *)
Definition path (ls lf s : Z) (ix wr : nat -> Z) : Prop :=
  0 <= ls < lf /\ 0 <= s /\ 0 <= ix O < lf /\ wr O = 0 /\
  forall k, (wr (S k) = wr k /\ ix k <= ix (S k) <= ix k + s /\ ix (S k) < lf) \/
            (wr (S k) = wr k + 1 /\ ix (S k) = ls /\ lf <= ix k + s).

Lemma mul_lt_cancel : forall p x y, 0 < p -> p * x < p * y -> x < y.
Proof. intros. nia. Qed.
Lemma div_small : forall n s q b, 0 <= n -> n < 2 * b -> 1 <= s -> 1 <= q -> (n * s + 1) * q <= 2 * b * s * q.
Proof. intros n s' q b H1 H2 H3 H4. assert (n * s' + 1 <= 2 * b * s') by nia. nia. Qed.

Section P.
Variables (ls lf s : Z) (ix wr : nat -> Z).
Hypothesis PT : path ls lf s ix wr.

Lemma path_range : forall k, 0 <= ix k < lf.
Proof.
  destruct PT as (A & B & R & _ & ST). induction k as [|k IH]; [auto|]. destruct (ST k) as [(_ & H & H2)|(_ & H & _)]; lia.
Qed.
Lemma path_wr : forall k n, wr k <= wr (k + n)%nat.
Proof.
  destruct PT as (A & B & R & _ & ST). intros k. induction n as [|n IH]; [rewrite Nat.add_0_r; lia|].
  rewrite Nat.add_succ_r. destruct (ST (k + n)%nat) as [(H & _)|(H & _)]; lia.
Qed.
Lemma path_wr0 : forall k, 0 <= wr k.
Proof. intros k. pose proof (path_wr 0 k) as H. cbn [Nat.add] in H. destruct PT as (_ & _ & _ & W & _). lia. Qed.

Lemma path_inside : forall k, 0 < wr k -> ls <= ix k.
Proof.
  destruct PT as (A & B & R & W0 & ST). induction k as [|k IH]; intros H; [lia|].
  destruct (ST k) as [(E & H1 & _)|(E & H1 & _)]; [rewrite E in H; specialize (IH H); lia|lia].
Qed.

Lemma path_seg : forall k n, wr (k + n)%nat = wr k -> ix k <= ix (k + n)%nat <= ix k + Z.of_nat n * s.
Proof.
  destruct PT as (A & B & R & W0 & ST). intros k. induction n as [|n IH]; intros E; [rewrite Nat.add_0_r; lia|].
  rewrite Nat.add_succ_r in *. pose proof (path_wr k n). destruct (ST (k + n)%nat) as [(H1 & H2 & _)|(H1 & _)]; [|lia].
  specialize (IH ltac:(lia)). nia.
Qed.

Lemma path_later : forall k n, ix k <= ix (k + n)%nat \/ ls <= ix (k + n)%nat.
Proof.
  intros k n. pose proof (path_wr k n). destruct (Z.eq_dec (wr (k + n)%nat) (wr k)) as [E|E].
  - pose proof (path_seg _ _ E). lia.
  - right. apply path_inside. pose proof (path_wr0 k). lia.
Qed.

(* Reaching a turn takes enough steps *)
Lemma path_turn : forall k n, wr k < wr (k + n)%nat -> lf <= ix k + Z.of_nat n * s.
Proof.
  destruct PT as (A & B & R & W0 & ST). intros k. induction n as [|n IH]; intros E; [rewrite Nat.add_0_r in E; lia|].
  rewrite Nat.add_succ_r in *. pose proof (path_wr k n) as M. destruct (Z.eq_dec (wr (k + n)%nat) (wr k)) as [Q|Q].
  - pose proof (path_seg _ _ Q). destruct (ST (k + n)%nat) as [(H1 & H2 & _)|(H1 & _ & H2)]; nia.
  - specialize (IH ltac:(lia)). nia.
Qed.

Lemma path_one : forall k n, wr (k + n)%nat = wr k + 1 -> exists n1 n2, (n1 + n2 = n)%nat /\
  lf <= ix k + Z.of_nat n1 * s /\ ls <= ix (k + n)%nat <= ls + Z.of_nat n2 * s.
Proof.
  destruct PT as (A & B & R & W0 & ST). intros k. induction n as [|n IH]; intros E; [rewrite Nat.add_0_r in E; lia|].
  rewrite Nat.add_succ_r in *. destruct (ST (k + n)%nat) as [(H1 & H2 & _)|(H1 & H2 & H3)].
  - destruct (IH ltac:(lia)) as (n1 & n2 & N & L1 & L2). exists n1, (S n2). split; [lia|]. split; [auto|]. nia.
  - exists (S n), O. split; [lia|]. split; [|lia].
    pose proof (path_seg k n ltac:(lia)). nia.
Qed.

Lemma path_two : forall k n, wr k + 2 <= wr (k + n)%nat -> lf - ls <= Z.of_nat n * s.
Proof.
  destruct PT as (A & B & R & W0 & ST). intros k. induction n as [|n IH]; intros E; [rewrite Nat.add_0_r in E; lia|].
  rewrite Nat.add_succ_r in *. destruct (Z.le_gt_cases (wr k + 2) (wr (k + n)%nat)) as [Q|Q].
  - specialize (IH Q). nia.
  - destruct (ST (k + n)%nat) as [(H1 & _)|(H1 & H2 & H3)]; [lia|].
    destruct (path_one k n ltac:(lia)) as (n1 & n2 & N & L1 & L2). nia.
Qed.

Variables (c : ccfg) (h : Z) (nch : nat) (X : Z).
Hypothesis C : cfg_ok c.
Hypothesis H0 : 0 <= h.
Hypothesis N1 : (1 <= nch)%nat.

Let first i := h + i * Z.of_nat nch.
Let fblk i := blk c (first i).
Let LS := fblk ls.
Let LE := fblk lf.
Let T := X - LS + 1.
Let M := Z.of_nat (c_nbuf c).
Hypothesis XE : LE <= X.

Lemma blk_le : forall i j, i <= j -> blk c i <= blk c j.
Proof. intros i j H. unfold blk. apply Z.div_le_mono; [|auto]. pose proof (BS_pos _ C). lia. Qed.
Lemma fblk_le : forall i j, i <= j -> fblk i <= fblk j.
Proof. intros i j H. apply blk_le. unfold first. nia. Qed.

Lemma LS_le : LS <= X.
Proof. destruct PT as (A & _). pose proof (fblk_le ls lf ltac:(lia)). unfold LS, LE in *. lia. Qed.

(* Blocks of frame k *)
Lemma acc_range : forall k ch, (ch < nch)%nat -> fblk (ix k) <= blk c (first (ix k) + Z.of_nat ch) <= X.
Proof.
  intros k ch L. pose proof (path_range k). split; [apply blk_le; lia|].
  apply Z.le_trans with LE; [|auto]. apply blk_le. unfold first. nia.
Qed.

(* ---- all blocks of the loop are in the window ---------------------------- *)

Definition complete (k : nat) (a : Z) : Prop :=
  X < a + M /\ T <= M /\ (a <= fblk (ix k) \/ LS <= fblk (ix k)).

Lemma complete_slot : forall a b, X < a + M -> T <= M -> b <= X -> (a <= b \/ LS <= b) -> exists p, slot c LS X a b p.
Proof.
  intros a b A1 A2 BX B. pose proof LS_le as SX.
  destruct (Z.le_gt_cases a b) as [L|L].
  - destruct (slot_exists c LS X a b b) as (p & SP & _); [apply unroll_low; auto|unfold M in *; lia|eauto].
  - assert (LS <= b) by lia. unfold T in *. set (P := X - LS + 1) in *. set (w := (a - b + P - 1) / P).
    assert (HP : 0 < P) by (unfold P; lia).
    pose proof (Z.div_mod (a - b + P - 1) P ltac:(lia)) as DM. pose proof (Z.mod_pos_bound (a - b + P - 1) P HP) as MB.
    fold w in DM. assert (0 <= w) by (apply Z.div_pos; lia).
    destruct (slot_exists c LS X a b (b + w * P)) as (p & SP & _); [unfold P; apply unroll_turn; lia|unfold M in *; lia|eauto].
Qed.

Lemma complete_pres : forall k a n, complete k a -> forall b, fetched c h nch ix k n b -> exists p, slot c LS X a b p.
Proof.
  intros k a n (A1 & A2 & A3) b (k' & ch & K & CH & -> ). pose proof (acc_range k' ch CH) as AR. fold (first (ix k')).
  apply complete_slot; auto; [apply AR|].
  replace k' with (k + (k' - k))%nat in * by lia.
  destruct (path_later k (k' - k)) as [L|L]; apply fblk_le in L; unfold LS in *; lia.
Qed.

Lemma complete_next : forall k a n o, complete k a -> firsts c LS X a (fetched c h nch ix k n) o ->
  complete (k + n) (a + Z.of_nat (match o with Some d => d | None => O end)).
Proof.
  intros k a n o (A1 & A2 & A3) FO. pose proof LS_le as SX. split; [lia|]. split; [auto|].
  destruct (path_later k n) as [L|L]; apply fblk_le in L; [|right; unfold LS; lia].
  destruct (Z.le_gt_cases LS (fblk (ix k))) as [B|B]; [right; lia|]. left.
  destruct o as [d|]; [|lia]. destruct FO as [F1 (b & F2 & F3)].
  destruct n as [|n]; [destruct F2 as (k' & ch & K & _); lia|].
  assert (Q : fetched c h nch ix k (S n) (fblk (ix k))).
  { exists k, O. split; [lia|]. split; [lia|]. unfold fblk, first. f_equal. lia. }
  destruct (slot_exists c LS X a (fblk (ix k)) (fblk (ix k))) as (p & SP & LP).
  { apply unroll_low. lia. } { unfold M in *. lia. }
  pose proof (F1 _ _ Q SP). lia.
Qed.

(* ---- the window follows the play position -------------------------------- *)

Hypothesis XL : X = LE.
Variable B : nat.
Hypothesis S1 : 1 <= s.
Hypothesis FAST : 2 * Z.of_nat B * s * Z.of_nat nch <= (M - 3) * BS c.

Definition line (k : nat) (b : Z) : Z := b + wr k * T.

Lemma line_mono : forall k n, line k (fblk (ix k)) <= line (k + n) (fblk (ix (k + n))).
Proof.
  destruct PT as (A & _ & _ & _ & ST). intros k. induction n as [|n IH]; [rewrite Nat.add_0_r; lia|].
  eapply Z.le_trans; [exact IH|]. rewrite Nat.add_succ_r. unfold line. clear IH.
  destruct (ST (k + n)%nat) as [(H1 & H2 & _)|(H1 & H2 & _)]; rewrite H1.
  - pose proof (fblk_le (ix (k + n)) (ix (S (k + n))) ltac:(lia)). lia.
  - rewrite H2. fold LS. pose proof (fblk_le (ix (k + n)) lf) as Q. pose proof (path_range (k + n)).
    specialize (Q ltac:(lia)). fold LE in Q. unfold T. lia.
Qed.

Lemma line_acc : forall k ch, (ch < nch)%nat -> let b := blk c (first (ix k) + Z.of_nat ch) in
  unroll LS X (line k b) = b.
Proof.
  intros k ch L b. pose proof (acc_range k ch L) as AR. fold b in AR. pose proof (path_wr0 k) as W.
  unfold line, T. apply unroll_turn; auto; [apply LS_le| |lia].
  destruct (Z.eq_dec (wr k) 0); [auto|]. right. pose proof (path_inside k ltac:(lia)) as IN.
  apply fblk_le in IN. fold LS in IN. lia.
Qed.

(* Two blocks apart *)
Lemma blk_diff : forall i d, 0 <= d -> BS c * (blk c (i + d) - blk c i) <= d + BS c - 1.
Proof.
  intros i d D. pose proof (blk_mod c i C). pose proof (mod_BS c i C).
  pose proof (blk_mod c (i + d) C). pose proof (mod_BS c (i + d) C). nia.
Qed.
Lemma blk_far : forall i d, BS c * (blk c (i + d) - blk c i) >= d - (BS c - 1).
Proof.
  intros i d. pose proof (blk_mod c i C). pose proof (mod_BS c i C).
  pose proof (blk_mod c (i + d) C). pose proof (mod_BS c (i + d) C). nia.
Qed.

(* no turn within two updates from k0: the span *)
Lemma span0 : forall k0 n ch, (n < 2 * B)%nat -> (ch < nch)%nat -> wr (k0 + n)%nat = wr k0 ->
  blk c (first (ix (k0 + n)) + Z.of_nat ch) < fblk (ix k0) + M.
Proof.
  intros k0 n ch L CH E. pose proof (path_seg _ _ E) as [P1 P2]. pose proof (BS_pos _ C) as HB.
  pose proof (div_small (Z.of_nat n) s (Z.of_nat nch) (Z.of_nat B) ltac:(lia) ltac:(lia) S1 ltac:(lia)) as Q.
  set (d := first (ix (k0 + n)%nat) + Z.of_nat ch - first (ix k0)).
  assert (D1 : 0 <= d) by (unfold d, first; nia).
  assert (D2 : d < (Z.of_nat n * s + 1) * Z.of_nat nch).
  { unfold d, first. assert ((ix (k0 + n)%nat - ix k0) * Z.of_nat nch <= Z.of_nat n * s * Z.of_nat nch) by (apply Z.mul_le_mono_nonneg_r; lia). lia. }
  pose proof (blk_diff (first (ix k0)) d D1) as BD.
  replace (first (ix k0) + d) with (first (ix (k0 + n)%nat) + Z.of_nat ch) in BD by (unfold d; lia).
  unfold fblk. set (b1 := blk c (first (ix (k0 + n)%nat) + Z.of_nat ch)) in *. set (b2 := blk c (first (ix k0))) in *.
  clearbody b1 b2 d. clear - BD D2 Q FAST HB. enough (BS c * (b1 - b2) < BS c * M) by (apply mul_lt_cancel in H; lia).
  lia.
Qed.

(* one turn *)
Lemma span1 : forall k0 n ch, (n < 2 * B)%nat -> (ch < nch)%nat -> wr (k0 + n)%nat = wr k0 + 1 ->
  blk c (first (ix (k0 + n)) + Z.of_nat ch) + T < fblk (ix k0) + M.
Proof.
  intros k0 n ch L CH E. destruct (path_one _ _ E) as (n1 & n2 & NN & P1 & P2). pose proof (BS_pos _ C) as HB.
  pose proof (div_small (Z.of_nat n) s (Z.of_nat nch) (Z.of_nat B) ltac:(lia) ltac:(lia) S1 ltac:(lia)) as Q.
  pose proof (path_range k0) as RG.
  set (d2 := first (ix (k0 + n)%nat) + Z.of_nat ch - first ls).
  set (d1 := first lf - first (ix k0)).
  assert (D1 : 0 <= d1 <= Z.of_nat n1 * s * Z.of_nat nch).
  { unfold d1, first. assert ((lf - ix k0) * Z.of_nat nch <= Z.of_nat n1 * s * Z.of_nat nch) by (apply Z.mul_le_mono_nonneg_r; lia). nia. }
  assert (D2 : 0 <= d2 < (Z.of_nat n2 * s + 1) * Z.of_nat nch).
  { unfold d2, first. assert ((ix (k0 + n)%nat - ls) * Z.of_nat nch <= Z.of_nat n2 * s * Z.of_nat nch) by (apply Z.mul_le_mono_nonneg_r; lia).
    assert (0 <= (ix (k0 + n)%nat - ls) * Z.of_nat nch) by (apply Z.mul_nonneg_nonneg; lia). lia. }
  assert (DD : d1 + d2 < (Z.of_nat n * s + 1) * Z.of_nat nch) by (rewrite <- NN, Nat2Z.inj_add; lia).
  pose proof (blk_diff (first ls) d2 ltac:(lia)) as B2.
  pose proof (blk_diff (first (ix k0)) d1 ltac:(lia)) as B1.
  replace (first ls + d2) with (first (ix (k0 + n)%nat) + Z.of_nat ch) in B2 by (unfold d2; lia).
  replace (first (ix k0) + d1) with (first lf) in B1 by (unfold d1; lia).
  fold (fblk ls) (fblk (ix k0)) (fblk lf) in *. fold LS in B2. fold LE in B1. unfold T. rewrite XL.
  set (b1 := blk c (first (ix (k0 + n)%nat) + Z.of_nat ch)) in *. set (b2 := fblk (ix k0)) in *.
  clearbody b1 b2 d1 d2 LS LE. clear - B1 B2 DD Q FAST HB D1 D2.
  enough (BS c * (b1 + (LE - LS + 1) - b2) < BS c * M) by (apply mul_lt_cancel in H; lia). lia.
Qed.

(* a loop of at least M blocks has no two turns within two updates *)
Lemma span2 : forall k0 n, (n < 2 * B)%nat -> M <= T -> wr (k0 + n)%nat <= wr k0 + 1.
Proof.
  intros k0 n L MT. destruct (Z.le_gt_cases (wr (k0 + n)%nat) (wr k0 + 1)) as [|G]; [auto|exfalso].
  pose proof (path_two k0 n ltac:(lia)) as P. pose proof (BS_pos _ C) as HB.
  pose proof (div_small (Z.of_nat n) s (Z.of_nat nch) (Z.of_nat B) ltac:(lia) ltac:(lia) S1 ltac:(lia)) as Q.
  destruct PT as (A & _).
  pose proof (blk_diff (first ls) (first lf - first ls)) as BD.
  replace (first ls + (first lf - first ls)) with (first lf) in BD by lia.
  fold (fblk ls) (fblk lf) in BD. fold LS LE in BD. unfold T in MT. rewrite XL in MT.
  assert (D0 : 0 <= first lf - first ls) by (unfold first; nia). specialize (BD D0).
  assert (D1 : first lf - first ls <= Z.of_nat n * s * Z.of_nat nch).
  { unfold first. assert ((lf - ls) * Z.of_nat nch <= Z.of_nat n * s * Z.of_nat nch) by (apply Z.mul_le_mono_nonneg_r; lia). lia. }
  clearbody LS LE. set (d := first lf - first ls) in *. clearbody d. clear - BD D1 Q FAST HB MT N1. nia.
Qed.

(* before the window has reached the loop end there is no turn within two updates *)
Lemma span_plain : forall k0 n, (n < 2 * B)%nat -> fblk (ix k0) + M - 1 < X -> wr (k0 + n)%nat = wr k0.
Proof.
  intros k0 n L MT. pose proof (path_wr k0 n). destruct (Z.eq_dec (wr (k0 + n)%nat) (wr k0)) as [|G]; [auto|exfalso].
  pose proof (path_turn k0 n ltac:(lia)) as P. pose proof (BS_pos _ C) as HB.
  pose proof (div_small (Z.of_nat n) s (Z.of_nat nch) (Z.of_nat B) ltac:(lia) ltac:(lia) S1 ltac:(lia)) as Q.
  pose proof (path_range k0) as RG.
  pose proof (blk_diff (first (ix k0)) (first lf - first (ix k0))) as BD.
  replace (first (ix k0) + (first lf - first (ix k0))) with (first lf) in BD by lia.
  fold (fblk (ix k0)) (fblk lf) in BD. fold LE in BD. rewrite XL in MT.
  assert (D0 : 0 <= first lf - first (ix k0)) by (unfold first; nia). specialize (BD D0).
  assert (D1 : first lf - first (ix k0) <= Z.of_nat n * s * Z.of_nat nch).
  { unfold first. assert ((lf - ix k0) * Z.of_nat nch <= Z.of_nat n * s * Z.of_nat nch) by (apply Z.mul_le_mono_nonneg_r; lia). lia. }
  clearbody LS LE. set (d := first lf - first (ix k0)) in *. set (b := fblk (ix k0)) in *. clearbody d b.
  clear - BD D1 Q FAST HB MT N1. nia.
Qed.

(* The window starts at the first block of an earlier frame k0, at most one update
   ago; either the loop is long, or the window has not reached its end yet *)
Definition tracking (k : nat) (a : Z) : Prop :=
  (exists k0, (k0 <= k <= k0 + B)%nat /\ a = line k0 (fblk (ix k0)) /\ (M <= T \/ (wr k0 = 0 /\ a + M - 1 < X))) \/
  complete k a.

Lemma track_acc : forall k a n k0, (k0 <= k <= k0 + B)%nat -> (n <= B)%nat -> a = line k0 (fblk (ix k0)) ->
  (M <= T \/ (wr k0 = 0 /\ a + M - 1 < X)) ->
  forall k' ch, (k <= k' < k + n)%nat -> (ch < nch)%nat ->
    let b := blk c (first (ix k') + Z.of_nat ch) in
    slot c LS X a b (Z.to_nat (line k' b - a)) /\ a <= line k' b.
Proof.
  intros k a n k0 K N AE RG k' ch K' CH.
  assert (EM : exists m, k' = (k0 + m)%nat) by (exists (k' - k0)%nat; lia). destruct EM as (m & -> ).
  intros b. pose proof LS_le as SX.
  pose proof (line_acc (k0 + m) ch CH) as LA. cbv zeta in LA. fold b in LA. assert (ML : (m < 2 * B)%nat) by lia.
  pose proof (acc_range (k0 + m) ch CH) as AR. fold b in AR.
  assert (LO : a <= line (k0 + m) b).
  { pose proof (line_mono k0 m) as LM. rewrite <- AE in LM. unfold line in *. lia. }
  pose proof (path_wr k0 m) as WM.
  assert (HI : line (k0 + m) b < a + M).
  { destruct RG as [RG|[R0 RG]].
    - pose proof (span2 k0 m ML RG). destruct (Z.eq_dec (wr (k0 + m)%nat) (wr k0)) as [E|E].
      + pose proof (span0 k0 m ch ML CH E) as SP. fold b in SP. unfold line in *. rewrite E. lia.
      + assert (E1 : wr (k0 + m)%nat = wr k0 + 1) by lia. pose proof (span1 k0 m ch ML CH E1) as SP. fold b in SP.
        unfold line in *. rewrite E1. lia.
    - assert (AF : a = fblk (ix k0)) by (rewrite AE; unfold line; rewrite R0; lia).
      pose proof (span_plain k0 m ML ltac:(lia)) as E.
      pose proof (span0 k0 m ch ML CH E) as SP. fold b in SP. unfold line in *. rewrite E, R0. lia. }
  split; [|exact LO]. split; [unfold M in *; lia|]. split; [replace (a + Z.of_nat (Z.to_nat (line (k0 + m) b - a))) with (line (k0 + m) b) by lia; exact LA|].
  intros t LT EQ. set (u := a + Z.of_nat t) in *.
  assert (UL : a <= u < line (k0 + m) b) by (unfold u; lia).
  (* the order is injective on the window *)
  destruct RG as [RG|[R0 RG]].
  - rewrite <- LA in EQ. clear - EQ UL HI RG SX. set (v := line (k0 + m) b) in *. clearbody v u.
    assert (INJ : v - u < T) by lia. unfold T in *. unfold unroll in EQ.
    destruct (Z.leb_spec u X), (Z.leb_spec v X); try lia.
    + pose proof (Z.mod_pos_bound (v - LS) (X - LS + 1) ltac:(lia)).
      pose proof (Z.div_mod (v - LS) (X - LS + 1) ltac:(lia)) as DM.
      assert (1 <= (v - LS) / (X - LS + 1)) by (apply Z.div_le_lower_bound; lia). nia.
    + pose proof (Z.div_mod (v - LS) (X - LS + 1) ltac:(lia)) as DM.
      pose proof (Z.div_mod (u - LS) (X - LS + 1) ltac:(lia)) as DM'.
      assert ((v - LS) / (X - LS + 1) = (u - LS) / (X - LS + 1)); [|nia].
      assert (v - u = (X - LS + 1) * ((v - LS) / (X - LS + 1) - (u - LS) / (X - LS + 1))) by lia. nia.
  - rewrite <- LA in EQ. rewrite !unroll_low in EQ by lia. lia.
Qed.

Lemma track_pres : forall k a n, tracking k a -> (n <= B)%nat ->
  forall b, fetched c h nch ix k n b -> exists p, slot c LS X a b p.
Proof.
  intros k a n [(k0 & K & AE & RG)|G] L b FB; [|eapply complete_pres; eauto].
  destruct FB as (k' & ch & K' & CH & -> ).
  eexists. apply (track_acc k a n k0 K L AE RG k' ch K' CH).
Qed.

Lemma track_next : forall k a n o, tracking k a -> (n <= B)%nat -> firsts c LS X a (fetched c h nch ix k n) o ->
  tracking (k + n) (a + Z.of_nat (match o with Some d => d | None => O end)).
Proof.
  intros k a n o [(k0 & K & AE & RG)|G] L FO; [|right; apply complete_next; auto].
  destruct n as [|n].
  { destruct o as [d|]; [destruct FO as [_ (b & (k' & ch & K' & _) & _)]; lia|].
    rewrite Nat.add_0_r, Z.add_0_r. left. exists k0. auto. }
  pose proof (track_acc k a (S n) k0 K L AE RG) as TA. cbv zeta in TA.
  assert (Q0 : fetched c h nch ix k (S n) (fblk (ix k))).
  { exists k, O. split; [lia|]. split; [lia|]. unfold fblk, first. f_equal. lia. }
  destruct (TA k O ltac:(lia) ltac:(lia)) as [T1 T2].
  replace (first (ix k) + Z.of_nat 0) with (first (ix k)) in T1, T2 by lia. fold (fblk (ix k)) in T1, T2.
  destruct o as [d|]; [|destruct (FO _ Q0)]. destruct FO as [F1 (b & F2 & F3)].
  assert (DE : a + Z.of_nat d = line k (fblk (ix k))).
  { pose proof (F1 _ _ Q0 T1) as D1. destruct F2 as (k' & ch & K' & CH & EB).
    destruct (TA k' ch K' CH) as [U1 U2]. fold (first (ix k')) in EB. rewrite <- EB in U1, U2.
    pose proof (slot_unique _ _ _ _ _ _ _ F3 U1) as DD. pose proof (acc_range k' ch CH) as AR.
    rewrite <- EB in AR.
    pose proof (line_mono k (k' - k)) as LM. replace (k + (k' - k))%nat with k' in LM by lia.
    unfold line in *. lia. }
  rewrite DE. set (a' := line k (fblk (ix k))) in *.
  assert (A1 : a <= a') by lia.
  destruct RG as [RG|[R0 RG]].
  { left. exists k. split; [lia|]. auto. }
  assert (AF : a = fblk (ix k0)) by (rewrite AE; unfold line; rewrite R0; lia).
  assert (WK : wr k = 0).
  { destruct (Nat.eq_dec B 0); [lia|]. pose proof (span_plain k0 (k - k0) ltac:(lia) ltac:(lia)) as E.
    replace (k0 + (k - k0))%nat with k in E by lia. lia. }
  destruct (Z.le_gt_cases M T) as [MT|MT]; [left; exists k; split; [lia|]; auto|].
  destruct (Z.lt_ge_cases (a' + M - 1) X) as [NX|NX]; [left; exists k; split; [lia|]; auto|].
  right. split; [lia|]. split; [lia|].
  assert (AK : a' = fblk (ix k)) by (unfold a', line; rewrite WK; lia).
  destruct (path_later k (S n)) as [Y|Y]; apply fblk_le in Y; [left; lia|right; unfold LS; lia].
Qed.

End P.
