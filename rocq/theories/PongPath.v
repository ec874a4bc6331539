(* Which loop blocks a play position that goes to and fro visits, and that they are
   buffered. *)

From Coq Require Import ZArith Lia List Bool.
From Verif Require Import Machine CacheModel CacheFacts CacheProofs WindowProofs FileProofs LoopSpec.
Import ListNotations.
Local Open Scope Z_scope.

(* Positions that cover the blocks lo .. hi, moving up or down between S and X; T and
   L are the turns at the top and at the bottom *)
Record zigzag (S X : Z) (lo hi : nat -> Z) (bk : nat -> bool) (T L : nat -> Prop) : Prop := mkZZ {
  zz_range : forall j, S <= lo j <= hi j /\ hi j <= X;
  zz_top : forall j, T j -> hi j = X;
  zz_low : forall j, L j -> lo j = S;
  zz_up : forall j, bk (Datatypes.S j) = false ->
    L (Datatypes.S j) /\ bk j = true \/ bk j = false /\ lo j <= lo (Datatypes.S j) /\ hi j <= hi (Datatypes.S j);
  zz_down : forall j, bk (Datatypes.S j) = true ->
    T (Datatypes.S j) /\ bk j = false \/ bk j = true /\ lo (Datatypes.S j) <= lo j /\ hi (Datatypes.S j) <= hi j }.

Lemma mirror : forall S X lo hi bk T L, zigzag S X lo hi bk T L ->
  zigzag (- X) (- S) (fun j => - hi j) (fun j => - lo j) (fun j => negb (bk j)) L T.
Proof.
  intros S X lo hi bk T L [R HT HL U D]. constructor.
  - intros j. specialize (R j). lia.
  - intros j H. rewrite (HL j H). reflexivity.
  - intros j H. rewrite (HT j H). reflexivity.
  - intros j H. apply negb_false_iff in H. destruct (D j H) as [[A B]|(A & B & E)]; rewrite A || rewrite B; [left; auto|right]. split; [reflexivity|lia].
  - intros j H. apply negb_true_iff in H. destruct (U j H) as [[A B]|(A & B & E)]; rewrite A || rewrite B; [left; auto|right]. split; [reflexivity|lia].
Qed.

(* What the positions of 2B consecutive frames span *)
Definition close (D : Z) (B : nat) (lo hi : nat -> Z) : Prop :=
  forall i j, (i <= j < i + 2 * B)%nat -> hi j - lo i <= D /\ hi i - lo j <= D.
Lemma close_mirror : forall D B lo hi, close D B lo hi -> close D B (fun j => - hi j) (fun j => - lo j).
Proof. intros D B lo hi H i j IJ. specialize (H i j IJ). lia. Qed.

(* The window from block a upwards, before frame k *)
Definition rising (S X M : Z) (B : nat) (lo hi : nat -> Z) (bk : nat -> bool) (T : nat -> Prop) (a : Z) (k : nat) : Prop :=
  S <= a <= X - M + 1 /\ (bk k = false \/ lo k = S \/ T k) /\ a <= lo k /\
  (a + M - 1 = X \/ forall j, (k <= j < k + B)%nat -> hi j <= a + M - 1).

(* Up to the next turn at the top the position does not fall below its start *)
Lemma climb : forall S X lo hi bk T L, zigzag S X lo hi bk T L -> forall k n, bk k = false \/ lo k = S \/ T k ->
  (exists i, (k <= i <= k + n)%nat /\ T i) \/ (lo k <= lo (k + n)%nat /\ (bk (k + n)%nat = false \/ lo (k + n)%nat = S)).
Proof.
  intros S X lo hi bk T L ZZ k n U. destruct ZZ as [R HT HL UP DN]. induction n as [|n IH].
  - rewrite Nat.add_0_r. destruct U as [U|[U|U]]; [right; split; [lia|auto]..|left; exists k; split; [lia|auto]].
  - destruct IH as [(i & I1 & I2)|[I1 I2]]; [left; exists i; split; [lia|auto]|].
    rewrite Nat.add_succ_r. destruct (bk (Datatypes.S (k + n))) eqn:E.
    + destruct (DN _ E) as [[A _]|(A & A2 & A3)].
      * left. exists (Datatypes.S (k + n)). split; [lia|auto].
      * right. destruct I2 as [I2|I2]; [congruence|]. pose proof (R (Datatypes.S (k + n))). split; [lia|right; lia].
    + right. destruct (UP _ E) as [[A A2]|(A & A2 & A3)].
      * destruct I2 as [I2|I2]; [congruence|]. rewrite (HL _ A). split; [lia|auto].
      * split; [lia|auto].
Qed.

Section Z.
Variables (S X M D : Z) (B : nat) (lo hi : nat -> Z) (bk : nat -> bool) (T L : nat -> Prop).
Hypothesis ZZ : zigzag S X lo hi bk T L.
Hypothesis CL : close D B lo hi.
Hypothesis DM : D <= M - 2.
Hypothesis SX : S + M - 1 <= X.
Notation rising := (rising S X M B lo hi bk T).

Lemma rising_pres : forall a k j, rising a k -> (k <= j < k + B)%nat -> a <= lo j /\ hi j <= a + M - 1.
Proof.
  intros a k j (A & U & LO & RE) J. pose proof (zz_range _ _ _ _ _ _ _ ZZ j) as R. split; [|destruct RE as [RE|RE]; [lia|auto]].
  destruct (climb _ _ _ _ _ _ _ ZZ k (j - k) U) as [(i & I1 & I2)|[I1 _]].
  - apply (zz_top _ _ _ _ _ _ _ ZZ) in I2. destruct (CL i j) as [_ C]; [lia|]. lia.
  - replace (k + (j - k))%nat with j in I1 by lia. lia.
Qed.

Notation falling := (PongPath.rising (- X) (- S) M B (fun j => - hi j) (fun j => - lo j) (fun j => negb (bk j)) L).

(* After frames k .. k+n-1 with lowest block m: the window moves up as far as the loop
   end allows *)
Lemma rising_next : forall a k n m, rising a k -> (n <= B)%nat ->
  (forall j, (k <= j < k + n)%nat -> m <= lo j) -> (exists j, (k <= j < k + n)%nat /\ lo j = m) ->
  (a + M - 1 = X -> a < m -> forall j, (k <= j < k + n)%nat -> hi j < X) ->
  rising (Z.min m (X - M + 1)) (k + n).
Proof.
  intros a k n m RI NB MN (j0 & J0 & MJ) NR. pose proof RI as (A & U & LO & RE).
  assert (NT : forall i, (k <= i < k + n)%nat -> ~ T i).
  { intros i I TI. apply (zz_top _ _ _ _ _ _ _ ZZ) in TI.
    destruct (rising_pres a k i RI ltac:(lia)) as [_ P2].
    assert (MX : X - D <= m).
    { destruct (Nat.le_gt_cases i j0); [destruct (CL i j0); lia|destruct (CL j0 i); lia]. }
    specialize (NR ltac:(lia) ltac:(lia) i I). lia. }
  assert (ML : m <= lo k) by (apply MN; lia).
  assert (AM : a <= m) by (destruct (rising_pres a k j0 RI); lia).
  assert (RE' : Z.min m (X - M + 1) + M - 1 = X \/ forall j, (k + n <= j < k + n + B)%nat -> hi j <= Z.min m (X - M + 1) + M - 1).
  { destruct (Z.le_gt_cases (X - M + 1) m); [left; lia|right]. intros j J. destruct (CL j0 j); lia. }
  destruct (climb _ _ _ _ _ _ _ ZZ k n U) as [(i & I1 & I2)|[I1 I2]].
  - assert (i = k + n)%nat by (destruct (Nat.eq_dec i (k + n)); auto; destruct (NT i); [lia|auto]). subst i.
    pose proof (zz_top _ _ _ _ _ _ _ ZZ _ I2) as HT. destruct (CL (k + n)%nat (k + n)%nat); [lia|].
    split; [lia|]. split; [auto|]. split; [lia|auto].
  - split; [lia|]. split; [tauto|]. split; [lia|auto].
Qed.

(* If the block of the loop end was read, the order of the buffers is reversed *)
Lemma rising_turn : forall k n i, (n <= B)%nat -> (k <= i < k + n)%nat -> hi i = X -> falling (- X) (k + n).
Proof.
  intros k n i NB I HI. pose proof (mirror _ _ _ _ _ _ _ ZZ) as ZM.
  assert (FAR : forall j, (k + n <= j < k + n + B)%nat \/ (i <= j <= k + n)%nat -> X - D <= lo j).
  { intros j J. destruct (CL i j); lia. }
  split; [lia|]. split; [|split].
  - destruct (climb _ _ _ _ _ _ _ ZM i (k + n - i)) as [(i' & I1 & I2)|[_ I2]].
    + right. left. lia.
    + apply (zz_low _ _ _ _ _ _ _ ZZ) in I2. pose proof (FAR i' ltac:(lia)). lia.
    + replace (i + (k + n - i))%nat with (k + n)%nat in I2 by lia. tauto.
  - pose proof (zz_range _ _ _ _ _ _ _ ZZ (k + n)%nat). lia.
  - right. intros j J. pose proof (FAR j ltac:(lia)). lia.
Qed.
End Z.

(* ---- the orbit of a ping-pong loop ------------------------------------------- *)

Lemma quot_fwd : forall f num den s, 0 < den -> Z.abs f < den -> 0 < num -> num <= s * den ->
  0 <= Z.quot (f + num) den <= s.
Proof.
  intros f num den s D F N H. destruct (Z.le_gt_cases 0 (f + num)).
  - rewrite Z.quot_div_nonneg by lia. split; [apply Z.div_pos; lia|].
    apply Z.lt_succ_r. apply Z.div_lt_upper_bound; nia.
  - assert (E : Z.quot (f + num) den = 0) by (apply Z.quot_small_iff; lia). nia.
Qed.
Lemma quot_back : forall f num den s, 0 < den -> Z.abs f < den -> 0 < num -> num <= s * den ->
  - s <= Z.quot (f - num) den <= 0.
Proof.
  intros f num den s D F N H. replace (f - num) with (- (- f + num)) by lia. rewrite Z.quot_opp_l by lia.
  pose proof (quot_fwd (- f) num den s D ltac:(lia) N H). lia.
Qed.

Section O.
Variables (ls lo lf num den s p0 : Z) (nch : nat).
Hypothesis HL : 0 <= lo < lf.
Hypothesis HP : p0 < lf.
Hypothesis HD : 0 < den.
Hypothesis HN : 0 < num.
Hypothesis HS : num <= s * den.
Hypothesis N1 : (1 <= nch)%nat.
Let top := lf - Z.of_nat nch.
Let l := mkLoop true ls lo lf top.
Let orb k := orbit l num den (mkHead p0 0 false) k.

(* One step: on, or to the other end *)
Definition pong_move (h h' : head) : Prop :=
  if hd_back h then
    (hd_back h' = true /\ hd_i h - s <= hd_i h' <= hd_i h /\ lo <= hd_i h') \/
    (hd_back h' = false /\ hd_i h' = lo /\ hd_i h - s < lo)
  else
    (hd_back h' = false /\ hd_i h <= hd_i h' <= hd_i h + s /\ hd_i h' < lf) \/
    (hd_back h' = true /\ hd_i h' = top /\ lo <= top /\ lf <= hd_i h + s) \/
    (hd_back h' = false /\ hd_i h' = lo /\ top < lo /\ lf <= hd_i h + s).

Lemma turn_f : forall h, hd_f (turn l h) = hd_f h.
Proof.
  intros [i f b]. unfold turn. cbn [hd_back hd_i hd_f lp_lo lp_hi lp_pp lp_top lp_re l].
  destruct b; [destruct (i <? lo)|destruct (lf <=? i); [destruct (top <? lo)|]]; reflexivity.
Qed.

Lemma orb_f : forall k, Z.abs (hd_f (orb k)) < den.
Proof.
  induction k as [|k IH]; unfold orb in *; cbn [orbit]; rewrite turn_f; [cbn; lia|].
  unfold move. cbn [hd_f]. match goal with |- context [Z.rem ?x _] => set (z := x) end. clearbody z.
  pose proof (Z.rem_bound_abs z den ltac:(lia)). lia.
Qed.

Lemma orb_move : forall k, pong_move (orb k) (orb (S k)).
Proof.
  intros k. pose proof (orb_f k) as F. change (orb (S k)) with (turn l (move num den (orb k))).
  destruct (orb k) as [i f b]. cbn [hd_f] in F. unfold pong_move, move, turn.
  cbn [hd_back hd_i hd_f lp_lo lp_hi lp_pp lp_top lp_re l]. destruct b.
  - pose proof (quot_back f num den s HD F HN HS). destruct (Z.ltb_spec (i + Z.quot (f - num) den) lo); cbn [hd_i hd_back]; [right|left]; repeat split; lia.
  - pose proof (quot_fwd f num den s HD F HN HS). destruct (Z.leb_spec lf (i + Z.quot (f + num) den)); [|left; cbn [hd_i hd_back]; repeat split; lia].
    right. destruct (Z.ltb_spec top lo); cbn [hd_i hd_back]; [right|left]; repeat split; lia.
Qed.

Lemma orb_0 : orb O = mkHead p0 0 false.
Proof. unfold orb. cbn [orbit]. unfold turn. cbn. destruct (Z.leb_spec lf p0); [lia|reflexivity]. Qed.

Lemma orb_range : forall k, Z.min p0 lo <= hd_i (orb k) < lf /\ (hd_back (orb k) = true -> lo <= hd_i (orb k)).
Proof.
  induction k as [|k [I1 I2]]; [rewrite orb_0; cbn; split; [lia|discriminate]|].
  pose proof (orb_move k) as MV. unfold pong_move in MV.
  destruct (hd_back (orb k)); [specialize (I2 eq_refl)|];
    [destruct MV as [(E & A)|(E & A)]|destruct MV as [(E & A)|[(E & A)|(E & A)]]]; rewrite E; (split; [unfold top in *; lia|]); intros; try discriminate; lia.
Qed.

(* Distances *)
Lemma orb_near : forall k n, Z.abs (Z.min (hd_i (orb (k + n)%nat)) top - Z.min (hd_i (orb k)) top) <= s * Z.of_nat n.
Proof.
  intros k n. assert (0 <= s) by nia. induction n as [|n IH]; [rewrite Nat.add_0_r; lia|].
  rewrite Nat.add_succ_r. pose proof (orb_move (k + n)) as MV. unfold pong_move in MV. pose proof (orb_range (k + n)) as [R1 R2].
  assert (ST : Z.abs (Z.min (hd_i (orb (S (k + n)))) top - Z.min (hd_i (orb (k + n))) top) <= s).
  { destruct (hd_back (orb (k + n))); [specialize (R2 eq_refl)|];
      [destruct MV as [(E & A)|(E & A)]|destruct MV as [(E & A)|[(E & A)|(E & A)]]]; unfold top in *; lia. }
  lia.
Qed.
End O.

(* ---- in blocks ------------------------------------------------------------------- *)

Lemma blk_span : forall c x y m, cfg_ok c -> y < x + m * BS c -> blk c y - blk c x <= m.
Proof.
  intros c x y m C H. pose proof (BS_pos _ C). unfold blk.
  assert (y / BS c < x / BS c + 1 + m); [|lia].
  apply Z.div_lt_upper_bound; [lia|]. pose proof (Z.div_mod x (BS c) ltac:(lia)). pose proof (Z.mod_pos_bound x (BS c)). nia.
Qed.

Lemma span_mul : forall s n q d b, 1 <= q -> 1 <= s -> 0 <= n -> n + 1 <= 2 * b -> d <= s * n + q - 1 -> d * q + q - 1 < (2 * b * s + q - 1) * q.
Proof. intros s n q d b Q S N B D. assert (d + 1 <= 2 * b * s + q - 1) by nia. nia. Qed.

Section W.
Variables (ls lo lf num den s p0 : Z) (nch : nat) (c : ccfg) (h : Z).
Hypothesis C : cfg_ok c.
Hypothesis HL : 0 <= lo < lf.
Hypothesis HP : lo <= p0 < lf.
Hypothesis HD : 0 < den.
Hypothesis HN : 0 < num.
Hypothesis HS : num <= s * den.
Hypothesis N1 : (1 <= nch)%nat.
Let top := lf - Z.of_nat nch.
Let orb k := orbit (mkLoop true ls lo lf top) num den (mkHead p0 0 false) k.
Let first i := h + i * Z.of_nat nch.
Let first_block k := blk c (first (hd_i (orb k))).
Let last_block k := blk c (first (hd_i (orb k)) + Z.of_nat nch - 1).

Lemma orb_zigzag : lo <= top -> blk c (first top + Z.of_nat nch - 1) = blk c (first lf) ->
  zigzag (blk c (first lo)) (blk c (first lf)) first_block last_block (fun k => hd_back (orb k))
    (fun k => hd_i (orb k) = top /\ hd_back (orb k) = true) (fun k => hd_i (orb k) = lo /\ hd_back (orb k) = false).
Proof.
  intros LT TB. unfold first_block, last_block.
  assert (BM : forall x y, x <= y -> blk c (first x) <= blk c (first y) /\ blk c (first x + Z.of_nat nch - 1) <= blk c (first y + Z.of_nat nch - 1)).
  { intros x y XY. split; apply (blk_mono c C); unfold first; nia. }
  constructor.
  - intros j. destruct (orb_range ls lo lf num den s p0 nch HL ltac:(lia) HD HN HS N1 j) as [R _]. fold top orb in R.
    change (orbit _ _ _ _ j) with (orb j) in R.
    split; [split|].
    + apply BM. lia.
    + apply (blk_mono c C). lia.
    + apply (blk_mono c C). unfold first. nia.
  - intros j [E _]. rewrite E. exact TB.
  - intros j [E _]. now rewrite E.
  - intros j E. pose proof (orb_move ls lo lf num den s p0 nch HD HN HS N1 j) as MV. unfold pong_move in MV.
    fold top in MV. change (orbit _ _ _ _ (S j)) with (orb (S j)) in MV. change (orbit _ _ _ _ j) with (orb j) in MV.
    destruct (hd_back (orb j)).
    + destruct MV as [(E2 & A)|(E2 & A)]; [congruence|]. left. tauto.
    + right. split; [reflexivity|]. apply BM. destruct MV as [(E2 & A)|[(E2 & A)|(E2 & A)]]; [lia|congruence|lia].
  - intros j E. pose proof (orb_move ls lo lf num den s p0 nch HD HN HS N1 j) as MV. unfold pong_move in MV.
    fold top in MV. change (orbit _ _ _ _ (S j)) with (orb (S j)) in MV. change (orbit _ _ _ _ j) with (orb j) in MV.
    destruct (hd_back (orb j)).
    + right. split; [reflexivity|]. apply BM. destruct MV as [(E2 & A)|(E2 & A)]; [lia|congruence].
    + left. destruct MV as [(E2 & A)|[(E2 & A)|(E2 & A)]]; [congruence|tauto|congruence].
Qed.

Lemma orb_close : forall B M, (2 * Z.of_nat B * s + Z.of_nat nch - 1) * Z.of_nat nch <= (M - 2) * BS c ->
  close (M - 2) B first_block last_block.
Proof.
  intros B M K i j IJ. assert (S1 : 1 <= s) by nia.
  pose proof (orb_near ls lo lf num den s p0 nch HL ltac:(lia) HD HN HS N1 i (j - i)) as NR.
  replace (i + (j - i))%nat with j in NR by lia.
  fold top in NR. change (orbit _ _ _ _ j) with (orb j) in NR. change (orbit _ _ _ _ i) with (orb i) in NR.
  destruct (orb_range ls lo lf num den s p0 nch HL ltac:(lia) HD HN HS N1 i) as [R1 _].
  destruct (orb_range ls lo lf num den s p0 nch HL ltac:(lia) HD HN HS N1 j) as [R2 _].
  fold top in R1, R2. change (orbit _ _ _ _ j) with (orb j) in R2. change (orbit _ _ _ _ i) with (orb i) in R1.
  set (x := hd_i (orb i)) in *. set (y := hd_i (orb j)) in *.
  assert (DD : y - x <= s * Z.of_nat (j - i) + Z.of_nat nch - 1 /\ x - y <= s * Z.of_nat (j - i) + Z.of_nat nch - 1).
  { unfold top in *. lia. }
  pose proof (span_mul s (Z.of_nat (j - i)) (Z.of_nat nch) (y - x) (Z.of_nat B) ltac:(lia) S1 ltac:(lia) ltac:(lia) (proj1 DD)) as P1.
  pose proof (span_mul s (Z.of_nat (j - i)) (Z.of_nat nch) (x - y) (Z.of_nat B) ltac:(lia) S1 ltac:(lia) ltac:(lia) (proj2 DD)) as P2.
  unfold first_block, last_block. fold x y. split; apply (blk_span c _ _ _ C); unfold first; lia.
Qed.
End W.

(* As long as the top is not reached, the head does not turn *)
Lemma stays_up : forall S X lo hi bk T L k n, zigzag S X lo hi bk T L -> bk k = false ->
  (exists i, (k <= i <= k + n)%nat /\ T i) \/ bk (k + n)%nat = false.
Proof.
  intros S X lo hi bk T L k n [R HT HL U D] B. induction n as [|n IH]; [rewrite Nat.add_0_r; auto|].
  destruct IH as [(i & I1 & I2)|IH]; [left; exists i; split; [lia|auto]|]. rewrite Nat.add_succ_r.
  destruct (bk (Datatypes.S (k + n))) eqn:E; [|auto]. destruct (D _ E) as [[A _]|(A & _)]; [|congruence].
  left. exists (Datatypes.S (k + n)). split; [lia|auto].
Qed.
