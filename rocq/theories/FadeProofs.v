(* The crossfade: gains, blending, and the end of playback with two heads (C20, C22). *)

From Coq Require Import ZArith Lia List Bool Reals Lra.
From RecordUpdate Require Import RecordUpdate.
From Flocq Require Import Core.Core IEEE754.BinarySingleNaN.
From Verif Require Import Machine Floats FloatFacts WavModel InterpModel CacheModel CacheFacts ReaderModel
  ReaderFacts ReaderSpec Sessions StreamFacts Walk FadeSpec.
Import ListNotations.
Local Open Scope R_scope.

(* ---- arithmetic ---- *)

Lemma rnd64_zero : rnd64 0 = 0.
Proof. apply rnd64_id, (fmt64_Z 0). lia. Qed.
Lemma rnd64_one : rnd64 1 = 1.
Proof. apply rnd64_id, (fmt64_Z 1). lia. Qed.
Lemma rnd64_unit : forall x, 0 <= x <= 1 -> 0 <= rnd64 x <= 1.
Proof.
  intros x [A B]. apply rnd64_le in A. apply rnd64_le in B. rewrite rnd64_zero in A. rewrite rnd64_one in B. lra.
Qed.
Lemma small_bpow : 0 <= bpow radix2 (-1075) <= / 1152921504606846976.
Proof. split; [apply bpow_ge_0|]. change (/ 1152921504606846976) with (bpow radix2 (-60)). apply bpow_le. lia. Qed.
Lemma eps_53 : bpow radix2 (-53) = / 9007199254740992. Proof. reflexivity. Qed.
Lemma big_ok : forall x, Rabs x <= 1000000000000 -> Rabs x <= bpow radix2 1000.
Proof.
  intros x H. apply Rle_trans with (1 := H). apply Rle_trans with (bpow radix2 40); [|apply bpow_le; lia].
  rewrite bpow_IZR by lia. apply IZR_le. lia.
Qed.

(* 1 - c for a gain c *)
Lemma co_gain : forall c, gain_ok c -> gain_ok (dsub d1 c) /\ R64 (dsub d1 c) = rnd64 (1 - R64 c).
Proof.
  intros c [F [B1 B2]]. destruct (dsub_ok d1 c fin_d1 F) as [E1 E2].
  { apply big_ok. rewrite R64_d1. apply Rabs_le. lra. }
  rewrite R64_d1 in E1. split; [|exact E1]. split; [exact E2|]. rewrite E1. apply rnd64_unit. lra.
Qed.

(* Truncating a value that is almost inside an interval of integers *)
Lemma trunc_between : forall m M x, IZR m - / 4 <= x <= IZR M + / 4 ->
  (m - 1 <= Ztrunc x <= M + 1)%Z /\ (Z.min 0 m <= Ztrunc x <= Z.max 0 M)%Z.
Proof.
  intros m M x [L U]. destruct (Rle_or_lt 0 x) as [P|N].
  - destruct (Ztrunc_bounds_pos x P) as [T1 T2].
    assert (Z1 : (0 <= Ztrunc x)%Z) by (rewrite <- (Ztrunc_IZR 0); now apply Ztrunc_le).
    assert (Z2 : (Ztrunc x <= M)%Z) by (apply Z.lt_succ_r, lt_IZR; rewrite succ_IZR; lra).
    assert (Z3 : (m - 1 <= Ztrunc x)%Z) by (apply Z.lt_succ_r, lt_IZR; rewrite succ_IZR, minus_IZR; lra). lia.
  - destruct (Ztrunc_bounds_neg x ltac:(lra)) as [T1 T2].
    assert (Z1 : (Ztrunc x <= 0)%Z) by (rewrite <- (Ztrunc_IZR 0); apply Ztrunc_le; lra).
    assert (Z2 : (m <= Ztrunc x)%Z) by (apply Z.lt_succ_r, lt_IZR; rewrite succ_IZR; lra).
    assert (Z3 : (Ztrunc x <= M + 1)%Z) by (apply Z.lt_succ_r, lt_IZR; rewrite succ_IZR, plus_IZR; lra). lia.
Qed.
Lemma convex_between : forall c a b, 0 <= c <= 1 ->
  IZR (Z.min a b) <= (1 - c) * IZR b + c * IZR a <= IZR (Z.max a b).
Proof.
  intros c a b C. destruct (Z.le_ge_cases a b) as [H|H].
  - rewrite Z.min_l, Z.max_r by lia. apply IZR_le in H. nra.
  - rewrite Z.min_r, Z.max_l by lia. apply IZR_le in H. nra.
Qed.

(* The blended sample *)
Definition s16_val (a : Z) : Prop := (-32768 <= a <= 32767)%Z.
Lemma mix_value : forall c a b, gain_ok c -> s16_val a -> s16_val b ->
  exists x, mix16 (dsub d1 c) b c a = Ok (Ztrunc x) /\
    Rabs (x - ((1 - R64 c) * IZR b + R64 c * IZR a)) <= / 34359738368 /\ (R64 c = 1 -> x = IZR a).
Proof.
  intros c a b G A B. destruct (co_gain c G) as [[F1 G1] E1]. destruct G as [F G].
  destruct (d_of_Z_ok a ltac:(unfold s16_val in A; lia)) as [A1 A2]. destruct (d_of_Z_ok b ltac:(unfold s16_val in B; lia)) as [B1 B2].
  assert (AR : -32768 <= IZR a <= 32767) by (split; apply IZR_le; apply A).
  assert (BR : -32768 <= IZR b <= 32767) by (split; apply IZR_le; apply B).
  set (g := dsub d1 c) in *. clearbody g.
  destruct (dmul_ok g (d_of_Z b) F1 B2) as [P1 P2]. { apply big_ok. rewrite B1. apply Rabs_le. nra. }
  destruct (dmul_ok c (d_of_Z a) F A2) as [Q1 Q2]. { apply big_ok. rewrite A1. apply Rabs_le. nra. }
  rewrite B1 in P1. rewrite A1 in Q1.
  pose proof (rnd64_error (1 - R64 c)) as X1. rewrite <- E1 in X1. rewrite (Rabs_pos_eq (1 - R64 c)) in X1 by lra.
  pose proof (rnd64_error (R64 g * IZR b)) as X2. rewrite <- P1 in X2.
  pose proof (rnd64_error (R64 c * IZR a)) as X3. rewrite <- Q1 in X3.
  pose proof small_bpow as T. set (t := bpow radix2 (-1075)) in *. clearbody t. rewrite eps_53 in *.
  assert (PB : Rabs (R64 g * IZR b) <= 32768) by (apply Rabs_le; nra).
  assert (QB : Rabs (R64 c * IZR a) <= 32768) by (apply Rabs_le; nra).
  assert (Y2 : Rabs (R64 (dmul g (d_of_Z b)) - R64 g * IZR b) <= / 200000000000) by lra.
  assert (Y3 : Rabs (R64 (dmul c (d_of_Z a)) - R64 c * IZR a) <= / 200000000000) by lra.
  set (p := dmul g (d_of_Z b)) in *. set (q := dmul c (d_of_Z a)) in *.
  apply Rabs_le_inv in Y2. apply Rabs_le_inv in Y3. apply Rabs_le_inv in PB. apply Rabs_le_inv in QB.
  destruct (dadd_ok p q P2 Q2) as [S1 S2]. { apply big_ok. apply Rabs_le. lra. }
  pose proof (rnd64_error (R64 p + R64 q)) as X4. rewrite <- S1 in X4. rewrite eps_53 in X4.
  assert (X4' : Rabs (R64 (dadd p q) - (R64 p + R64 q)) <= / 100000000000).
  { assert (Rabs (R64 p + R64 q) <= 65537) by (apply Rabs_le; lra). pose proof small_bpow. lra. }
  clear X4. apply Rabs_le_inv in X4'. apply Rabs_le_inv in X1.
  assert (GB : Rabs ((R64 g - (1 - R64 c)) * IZR b) <= / 200000000000).
  { rewrite Rabs_mult. assert (D : Rabs (R64 g - (1 - R64 c)) <= / 8000000000000000) by (apply Rabs_le; lra).
    assert (E : Rabs (IZR b) <= 32768) by (apply Rabs_le; lra). pose proof (Rabs_pos (R64 g - (1 - R64 c))). pose proof (Rabs_pos (IZR b)). nra. }
  apply Rabs_le_inv in GB.
  assert (N : Rabs (R64 (dadd p q) - ((1 - R64 c) * IZR b + R64 c * IZR a)) <= / 34359738368) by (apply Rabs_le; lra).
  exists (R64 (dadd p q)). split; [|split; [exact N|]].
  - unfold mix16. fold p q. apply d_to_s16_ok; [exact S2|].
    pose proof (convex_between (R64 c) a b G) as C. apply Rabs_le_inv in N.
    destruct (trunc_between (Z.min a b) (Z.max a b) (R64 (dadd p q)) ltac:(lra)) as [_ T2]. unfold in_s16, s16_val in *. lia.
  - intros C1. assert (G0 : R64 g = 0) by (rewrite E1, C1, Rminus_diag_eq; auto using rnd64_zero).
    rewrite S1, P1, Q1, G0, C1. rewrite Rmult_0_l, Rmult_1_l, rnd64_zero, Rplus_0_l.
    rewrite (rnd64_id (IZR a)) by (apply fmt64_Z; unfold s16_val in A; lia). apply rnd64_id, fmt64_Z. unfold s16_val in A; lia.
Qed.

(* The gain of the first head x frames into a fade of d *)
Definition fade_gain (x d : Z) : b64 := dsub d1 (ddiv (d_of_Z x) (d_of_Z d)).
Lemma fade_gain_ok : forall x d, (0 <= x <= d)%Z -> (1 <= d < 2 ^ 32)%Z ->
  gain_ok (fade_gain x d) /\ Rabs (R64 (fade_gain x d) - (1 - IZR x / IZR d)) <= / 2251799813685248 /\
  (x = 0%Z -> R64 (fade_gain x d) = 1) /\ (x = d -> R64 (fade_gain x d) = 0) /\ ((x < d)%Z -> 0 < R64 (fade_gain x d)).
Proof.
  intros x d X D. unfold fade_gain.
  destruct (d_of_Z_ok x ltac:(lia)) as [X1 X2]. destruct (d_of_Z_ok d ltac:(lia)) as [D1 D2].
  assert (DR : 1 <= IZR d) by (apply IZR_le; lia). assert (XR : 0 <= IZR x <= IZR d) by (split; apply IZR_le; lia).
  assert (I : 0 < / IZR d <= 1) by (split; [apply Rinv_0_lt_compat; lra|rewrite <- Rinv_1; apply Rinv_le; lra]).
  assert (Q : 0 <= IZR x / IZR d <= 1).
  { split; [apply Rmult_le_pos; lra|]. apply Rmult_le_reg_r with (IZR d); [lra|]. unfold Rdiv. rewrite Rmult_assoc, Rinv_l by lra. lra. }
  destruct (ddiv_ok (d_of_Z x) (d_of_Z d) X2) as [E1 E2]. { rewrite D1. lra. } { apply big_ok. rewrite X1, D1. apply Rabs_le. lra. }
  rewrite X1, D1 in E1. pose proof (rnd64_unit _ Q) as U.
  assert (G : gain_ok (ddiv (d_of_Z x) (d_of_Z d))) by (split; [exact E2|rewrite E1; exact U]).
  destruct (co_gain _ G) as [G2 E3]. rewrite E1 in E3. split; [exact G2|]. rewrite E3.
  set (w := rnd64 (IZR x / IZR d)) in *. split; [|split; [|split]].
  - pose proof (rnd64_error (IZR x / IZR d)) as W1. fold w in W1. pose proof (rnd64_error (1 - w)) as W2.
    rewrite eps_53 in *. rewrite (Rabs_pos_eq (IZR x / IZR d)) in W1 by lra. rewrite (Rabs_pos_eq (1 - w)) in W2 by lra.
    pose proof small_bpow as T. apply Rabs_le_inv in W1. apply Rabs_le_inv in W2. apply Rabs_le. lra.
  - intros ->. unfold w, Rdiv. rewrite Rmult_0_l, rnd64_zero, Rminus_0_r. apply rnd64_one.
  - intros ->. unfold w. replace (IZR d / IZR d) with 1 by (field; lra). rewrite rnd64_one, Rminus_diag_eq by auto. apply rnd64_zero.
  - intros L. assert (W : w <= 1 - bpow radix2 (-32)).
    { unfold w. rewrite <- (rnd64_id (1 - bpow radix2 (-32))).
      - apply rnd64_le. apply Rmult_le_reg_r with (IZR d); [lra|]. unfold Rdiv. rewrite Rmult_assoc, Rinv_l by lra.
        assert (IZR x <= IZR d - 1) by (rewrite <- minus_IZR; apply IZR_le; lia).
        assert (IZR d <= 4294967296) by (apply IZR_le; lia). change (bpow radix2 (-32)) with (/ 4294967296). nra.
      - replace (1 - bpow radix2 (-32)) with (IZR 4294967295 * bpow radix2 (-32)) by (change (bpow radix2 (-32)) with (/ 4294967296); lra).
        apply fmt64_me; lia. }
    apply Rlt_le_trans with (bpow radix2 (-32)); [apply bpow_gt_0|]. rewrite <- (rnd64_id (bpow radix2 (-32))) by (apply fmt64_bpow; lia).
    apply rnd64_le. lra.
Qed.

Theorem mix_blended : forall x d a b, (0 <= x < d)%Z -> (1 <= d <= 2 ^ 30)%Z -> s16_val a -> s16_val b ->
  exists v, mix16 (dsub d1 (fade_gain x d)) b (fade_gain x d) a = Ok v /\ blended d x a b v.
Proof.
  intros x d a b X D A B. destruct (fade_gain_ok x d ltac:(lia) ltac:(lia)) as (G & E & G0 & _ & _).
  set (c := fade_gain x d) in *. clearbody c. destruct (mix_value c a b G A B) as (y & M & N & ONE).
  exists (Ztrunc y). split; [exact M|].
  pose proof (convex_between (R64 c) a b (proj2 G)) as C. apply Rabs_le_inv in N.
  destruct (trunc_between (Z.min a b) (Z.max a b) y ltac:(lra)) as [T1 T2].
  split; [intros ->; rewrite (ONE (G0 eq_refl)); apply Ztrunc_IZR|]. split; [lia|]. split; [|split; [exact T1|exact T2]].
  assert (DR : 1 <= IZR d) by (apply IZR_le; lia). assert (D30 : IZR d <= 1073741824) by (apply IZR_le; lia).
  assert (AR : -32768 <= IZR a <= 32767) by (split; apply IZR_le; apply A). assert (BR : -32768 <= IZR b <= 32767) by (split; apply IZR_le; apply B).
  set (k := IZR x / IZR d) in *. assert (KD : k * IZR d = IZR x) by (unfold k; field; lra).
  pose proof (Ztrunc_frac y) as F. apply Rabs_def2 in F. apply Rabs_le_inv in E.
  assert (Y : Rabs (y - ((1 - k) * IZR a + k * IZR b)) <= / 4294967296).
  { replace (y - ((1 - k) * IZR a + k * IZR b)) with ((y - ((1 - R64 c) * IZR b + R64 c * IZR a)) + (R64 c - (1 - k)) * (IZR a - IZR b)) by ring.
    assert (Rabs ((R64 c - (1 - k)) * (IZR a - IZR b)) <= / 8589934592).
    { rewrite Rabs_mult. assert (Rabs (R64 c - (1 - k)) <= / 2251799813685248) by (apply Rabs_le; lra).
      assert (Rabs (IZR a - IZR b) <= 65536) by (apply Rabs_le; lra).
      pose proof (Rabs_pos (R64 c - (1 - k))). pose proof (Rabs_pos (IZR a - IZR b)). nra. }
    apply Rabs_le_inv in H. apply Rabs_le. lra. }
  apply Rabs_le_inv in Y.
  assert (Z : (- (d + 1) < d * Ztrunc y - ((d - x) * a + x * b) < d + 1)%Z); [|lia].
  set (v := Ztrunc y) in *.
  assert (EQ : IZR (d * v - ((d - x) * a + x * b)) = IZR d * (IZR v - ((1 - k) * IZR a + k * IZR b))).
  { rewrite minus_IZR, plus_IZR, !mult_IZR, minus_IZR. rewrite <- KD. ring. }
  set (u := IZR v - ((1 - k) * IZR a + k * IZR b)) in *.
  assert (UB : - (1 + / 4294967296) < u < 1 + / 4294967296) by (unfold u; lra).
  pose proof (Rmult_lt_compat_l (IZR d) u (1 + / 4294967296) ltac:(lra) ltac:(lra)) as U1.
  pose proof (Rmult_lt_compat_l (IZR d) (- (1 + / 4294967296)) u ltac:(lra) ltac:(lra)) as U2.
  split; apply lt_IZR; rewrite EQ, ?opp_IZR, plus_IZR; lra.
Qed.
Local Close Scope R_scope.
Local Open Scope Z_scope.

(* ---- the gain of every fade ---- *)

(* Loop, fade and channels: unchanged by reading *)
Record fade_fit (r : reader) : Prop := mkFit {
  ff_dual : r_dual r = true;
  ff_hdr : 0 <= r_hdr r;
  ff_nch : 1 <= r_nch r < 2 ^ 15;
  ff_ls : 0 <= r_ls r;
  ff_dur : 1 <= r_cfdur r;
  ff_lf : r_ls r + r_cfdur r <= r_lf r;
  ff_top : r_hdr r + r_lf r * r_nch r < 2 ^ 31 }.
Lemma fit_statics : forall r s, same_statics r s -> fade_fit r -> fade_fit s.
Proof.
  intros r s [E _] [A B C D F G H].
  assert (X : (r_dual r, r_hdr r, r_nch r, r_ls r, r_cfdur r, r_lf r) = (r_dual s, r_hdr s, r_nch s, r_ls s, r_cfdur s, r_lf s)).
  { apply (f_equal (fun x => (r_dual x, r_hdr x, r_nch x, r_ls x, r_cfdur x, r_lf x))) in E. exact E. }
  injection X as X1 X2 X3 X4 X5 X6. constructor; congruence.
Qed.
Lemma fit_spos : forall r n, fade_fit r -> 0 <= n <= r_lf r -> spos r n = r_hdr r + n * r_nch r /\ sts r n = r_hdr r + n * r_nch r.
Proof.
  intros r n [A B C D E F G] N. assert (0 <= r_hdr r + n * r_nch r < 2 ^ 31) by nia.
  unfold spos, sts. rewrite u32_id by (unfold in_u32; lia). split; [apply s32_id; unfold in_s32; lia|reflexivity].
Qed.

(* which way the second head moves *)
Definition upward (r : reader) : bool := xorb (loop_eqb (r_loop r) LPingpong) (dlt d0 (r_rate r)).
Record fade_inv (r : reader) : Prop := mkFade {
  fi_fit : fade_fit r;
  fi_st : r_cfst r = 0 \/ (r_cfst r = 1 /\
            if upward r then spos r (r_ls r) <= r_pos2 r else r_pos2 r <= spos r (r_lf r));
  fi_cf : gain_ok (r_cf r);
  fi_remf : is_finite (r_rem r) = true;
  fi_rem : (Rabs (R64 (r_rem r)) < 1)%R }.

Lemma ready_inv : forall r, ready_to_fade r -> fade_inv r.
Proof. intros r (A & B & C & D & E & F & G & H & I & J & K). constructor; auto. constructor; auto. Qed.

Lemma inv_quiet : forall r s, quiet r s -> fade_inv r -> fade_inv s.
Proof.
  intros r s Q I. pose proof (quiet_statics _ _ Q) as ST. destruct Q as [E _].
  assert (X : (r_cfst r, r_loop r, r_rate r, r_pos2 r, r_cf r, r_rem r) = (r_cfst s, r_loop s, r_rate s, r_pos2 s, r_cf s, r_rem s)).
  { apply (f_equal (fun x => (r_cfst x, r_loop x, r_rate x, r_pos2 x, r_cf x, r_rem x))) in E. exact E. }
  assert (Y : (r_hdr r, r_nch r, r_ls r, r_lf r) = (r_hdr s, r_nch s, r_ls s, r_lf s)).
  { apply (f_equal (fun x => (r_hdr x, r_nch x, r_ls x, r_lf x))) in E. exact E. }
  injection X as X1 X2 X3 X4 X5 X6. injection Y as Y1 Y2 Y3 Y4. destruct I as [A B C D F].
  constructor; [now apply (fit_statics r)| |congruence|congruence|congruence].
  unfold upward, spos, sts in *. rewrite <- X1, <- X2, <- X3, <- X4, <- Y1, <- Y2, <- Y3, <- Y4. exact B.
Qed.

Lemma next_quiet : forall r ch o s, r_dual r = true -> readNextValue r ch = Ok (o, s) -> quiet r s /\ o <> None.
Proof.
  intros r ch o s D H. destruct o as [v|].
  - split; [now apply readNextValue_some in H|discriminate].
  - exfalso. unfold readNextValue in H. unfold at_end in H. rewrite D in H.
    apply bind_ok in H. destruct H as ([v r1] & _ & H). apply bind_ok in H. destruct H as ([w r2] & _ & H). discriminate.
Qed.
Lemma quiet_dual : forall r s, quiet r s -> r_dual s = r_dual r.
Proof. intros r s [E _]. apply (f_equal r_dual) in E. symmetry. exact E. Qed.
Lemma channels_quiet : forall f todo ch r o s, r_dual r = true -> read_channels f todo ch r = Ok (o, s) -> quiet r s /\ o <> None.
Proof.
  intros f. induction todo as [|todo IH]; intros ch r o s D H; cbn [read_channels] in H.
  - injection H as <- <-. split; [apply quiet_refl|discriminate].
  - apply bind_ok in H. destruct H as ([x r1] & E & H). destruct f as [|f]; [discriminate|]. cbn [read_one] in E.
    apply bind_ok in E. destruct E as ([y r2] & E & E2). destruct (next_quiet _ _ _ _ D E) as [Q N]. destruct y as [v|]; [|congruence].
    injection E2 as <- <-. apply bind_ok in H. destruct H as ([y r3] & E3 & H). injection H as <- <-.
    destruct (IH _ _ _ _ (eq_trans (quiet_dual _ _ Q) D) E3) as [Q2 N2]. split; [eapply quiet_trans; eauto|]. destruct y; [discriminate|congruence].
Qed.

Lemma update_inv : forall r s, fade_inv r -> updateCrossfade r = Ok s -> fade_inv s.
Proof.
  intros r s I H. unfold updateCrossfade in H. cbv zeta in H.
  set (r1 := if dle d0 (r_rate r) then _ else _) in H.
  assert (I1 : fade_inv r1).
  { assert (START : forall p, (if upward r then spos r (r_ls r) <= p else p <= spos r (r_lf r)) ->
      fade_inv (r <| r_pos2 := p |> <| r_cfst := 1 |>)).
    { intros p P. destruct I as [A B C D F]. constructor; [destruct A; constructor; assumption| |exact C|exact D|exact F]. right. split; [reflexivity|exact P]. }
    pose proof (fi_fit r I) as FF.
    destruct (fit_spos r (r_ls r) FF) as [P1 _]. { destruct FF; lia. }
    destruct (fit_spos r (r_lf r) FF) as [P2 _]. { destruct FF; lia. }
    assert (LE : spos r (r_ls r) <= spos r (r_lf r)) by (rewrite P1, P2; destruct FF; nia).
    unfold r1. destruct (dle d0 (r_rate r)) eqn:GE.
    - destruct ((_ =? _) && _); [|exact I]. apply START. destruct (upward r); destruct (loop_eqb _ _); lia.
    - destruct ((_ =? _) && _); [|exact I]. apply START. destruct (upward r); destruct (loop_eqb _ _); lia. }
  assert (PP : loop_eqb (r_loop r) LPingpong = loop_eqb (r_loop r1) LPingpong).
  { unfold r1. destruct (dle d0 (r_rate r)); destruct ((_ =? _) && _); reflexivity. }
  clearbody r1. rewrite PP in H. clear PP I r. destruct (Z.eqb_spec (r_cfst r1) 1) as [ST|ST].
  2: { apply Ok_inj in H. now subst s. }
  pose proof (fi_fit r1 I1) as FF. pose proof I1 as [_ [B|[_ B]] C D F]; [congruence|].
  assert (FIN : fade_inv (if loop_eqb (r_loop r1) LPingpong
     then r1 <| r_pos1 := r_pos2 r1 |> <| r_cfst := 0 |> <| r_rate := dneg (r_rate (r1 <| r_pos1 := r_pos2 r1 |> <| r_cfst := 0 |>)) |>
     else r1 <| r_pos1 := r_pos2 r1 |> <| r_cfst := 0 |>)).
  { destruct (loop_eqb _ _); (constructor; [destruct FF; constructor; assumption|left; reflexivity|exact C|exact D|exact F]). }
  destruct (fit_spos r1 (r_ls r1) FF) as [P1 Q1]. { destruct FF; lia. }
  destruct (fit_spos r1 (r_lf r1) FF) as [P2 Q2]. { destruct FF; lia. }
  destruct (fit_spos r1 (r_ls r1 + r_cfdur r1) FF) as [P3 _]. { destruct FF; lia. }
  destruct (fit_spos r1 (r_lf r1 - r_cfdur r1) FF) as [P4 _]. { destruct FF; lia. }
  assert (GAIN : forall x t, 0 <= x <= r_cfdur r1 * r_nch r1 ->
    (if u32 (r_nch r1) =? 0 then UB UbDivZero else Ok (r1 <| r_cf := dsub d1 (ddiv (d_of_Z (u32 x / u32 (r_nch r1))) (d_of_Z (r_cfdur r1))) |>)) = Ok t -> fade_inv t).
  { intros x t X G. destruct (_ =? 0); [discriminate|]. apply Ok_inj in G. subst t.
    assert (DU : r_cfdur r1 * r_nch r1 < 2 ^ 31) by (destruct FF; nia).
    rewrite (u32_id x) by (unfold in_u32; destruct FF; nia). rewrite (u32_id (r_nch r1)) by (unfold in_u32; destruct FF; lia).
    assert (DX : 0 <= x / r_nch r1 <= r_cfdur r1).
    { destruct FF. split; [apply Z.div_pos; lia|]. apply Z.div_le_upper_bound; [lia|]. rewrite Z.mul_comm. lia. }
    destruct (fade_gain_ok (x / r_nch r1) (r_cfdur r1) DX) as [G _]. { destruct FF; nia. }
    constructor; [destruct FF; constructor; assumption|right; split; [exact ST|exact B]|exact G|exact D|exact F]. }
  unfold upward in B. destruct (xorb _ _).
  - destruct (Z.ltb_spec (spos r1 (r_ls r1 + r_cfdur r1)) (r_pos2 r1)); [apply Ok_inj in H; now subst s|].
    eapply GAIN; [|exact H]. rewrite Q1, P3, P1 in *. lia.
  - destruct (Z.ltb_spec (r_pos2 r1) (spos r1 (r_lf r1 - r_cfdur r1))); [apply Ok_inj in H; now subst s|].
    eapply GAIN; [|exact H]. rewrite Q2, P4, P2 in *. lia.
Qed.

Lemma chk32_inv : forall z x, chk32 z = Ok x -> x = z.
Proof. intros z x H. unfold chk32 in H. destruct (in_s32b z); [now apply Ok_inj in H|discriminate]. Qed.

Lemma dadd_inv : forall x y, fin64 (dadd x y) = true -> fin64 x = true /\ fin64 y = true /\ R64 (dadd x y) = rnd64 (R64 x + R64 y).
Proof.
  intros x y H. assert (F : fin64 x = true /\ fin64 y = true).
  { destruct x as [sx| sx| |sx mx ex bx], y as [sy|sy| |sy my ey bY]; cbn in H; try discriminate; auto; destruct sx, sy; discriminate. }
  destruct F as [Fx Fy]. split; [exact Fx|]. split; [exact Fy|].
  unfold dadd in *. pose proof (Bplus_correct 53 1024 _ _ mode_NE x y Fx Fy) as C.
  destruct (Rlt_bool _ _); [apply C|]. exfalso. destruct C as [C _].
  rewrite <- is_finite_SF_B2SF in H. rewrite C in H. discriminate.
Qed.

(* the fraction left by a step *)
Lemma frac_left : forall x d, fin64 x = true -> d = Ztrunc (R64 x) -> in_s32 d ->
  fin64 (dsub x (d_of_Z d)) = true /\ (Rabs (R64 (dsub x (d_of_Z d))) < 1)%R.
Proof.
  intros x d F E D. destruct (d_of_Z_ok d) as [Z1 Z2]; [unfold in_s32 in D; lia|].
  destruct (dsub_ok x (d_of_Z d) F Z2) as [S1 S2].
  { rewrite Z1, E. eapply Rle_trans; [apply Rlt_le, Ztrunc_frac|]. change 1%R with (bpow radix2 0). apply bpow_le. lia. }
  split; [exact S2|]. rewrite S1, Z1, E. rewrite rnd64_id by (apply fmt64_frac, fmt64_R64). apply Ztrunc_frac.
Qed.

(* the frame counter follows the sign of the rate *)
Lemma step_sign : forall x y, fin64 (dadd x y) = true -> (Rabs (R64 x) < 1)%R ->
  (dlt d0 y = true -> 0 <= Ztrunc (R64 (dadd x y))) /\ (dlt d0 y = false -> Ztrunc (R64 (dadd x y)) <= 0).
Proof.
  intros x y F B. destruct (dadd_inv x y F) as (F1 & F2 & E). apply Rabs_def2 in B. rewrite E.
  assert (RX : rnd64 (R64 x) = R64 x) by (apply rnd64_id, fmt64_R64). split; intro S.
  - rewrite dlt_R in S by auto. rewrite R64_d0 in S.
    destruct (Rlt_bool_spec 0 (R64 y)) as [P|P]; [|discriminate].
    assert (G : (R64 x <= rnd64 (R64 x + R64 y))%R) by (rewrite <- RX at 1; apply rnd64_le; lra).
    destruct (Rle_or_lt 0 (rnd64 (R64 x + R64 y))) as [Q|Q]; [rewrite <- (Ztrunc_IZR 0); now apply Ztrunc_le|].
    rewrite Ztrunc_ceil by lra. apply Z.lt_succ_r.
    apply lt_IZR. rewrite succ_IZR. pose proof (Zceil_ub (rnd64 (R64 x + R64 y))). lra.
  - rewrite dlt_R in S by auto. rewrite R64_d0 in S.
    destruct (Rlt_bool_spec 0 (R64 y)) as [P|P]; [discriminate|].
    assert (G : (rnd64 (R64 x + R64 y) <= R64 x)%R) by (rewrite <- RX at 2; apply rnd64_le; lra).
    destruct (Rle_or_lt 0 (rnd64 (R64 x + R64 y))) as [Q|Q]; [|rewrite <- (Ztrunc_IZR 0); apply Ztrunc_le; lra].
    rewrite Ztrunc_floor by lra. apply Z.lt_succ_r. apply lt_IZR. rewrite succ_IZR. pose proof (Zfloor_lb (rnd64 (R64 x + R64 y))). lra.
Qed.

Lemma advance_inv : forall r s, fade_inv r -> advance r = Ok s -> fade_inv s.
Proof.
  intros r s I H. unfold advance in H. cbv zeta in H. apply bind_ok in H. destruct H as (d & E & H).
  destruct (d_to_s32_inv _ _ E) as (FS & DT & D32). destruct I as [A B C D F].
  destruct (frac_left _ d FS DT D32) as [R1 R2]. destruct (step_sign (r_rem r) (r_rate r) FS F) as [S1 S2]. rewrite <- DT in S1, S2.
  set (x := dsub _ _) in *. clearbody x. clear DT FS E.
  apply bind_ok in H. destruct H as (st & E & H). apply chk32_inv in E. apply bind_ok in H. destruct H as (p1 & E1 & H). apply chk32_inv in E1.
  destruct (Z.eqb_spec (r_cfst r) 0) as [Z|Z].
  - apply Ok_inj in H. subst s. constructor; [destruct A; constructor; assumption|left; exact Z|exact C|exact R1|exact R2].
  - destruct B as [B|[B1 B2]]; [congruence|]. apply bind_ok in H. destruct H as (p2 & E2 & H). apply chk32_inv in E2.
    apply Ok_inj in H. subst s. constructor; [destruct A; constructor; assumption| |exact C|exact R1|exact R2].
    right. split; [exact B1|]. unfold upward in *. cbn [r_loop r_rate]. 
    change (if xorb (loop_eqb (r_loop r) LPingpong) (dlt d0 (r_rate r)) then spos r (r_ls r) <= p2 else p2 <= spos r (r_lf r)).
    assert (NN : 1 <= r_nch r) by (destruct A; lia). subst st p2.
    destruct (dlt d0 (r_rate r)); [specialize (S1 eq_refl)|specialize (S2 eq_refl)]; destruct (loop_eqb _ _); cbn [xorb] in *; nia.
Qed.

Lemma frame_inv : forall f r o s, fade_inv r -> read_frame f r = Ok (o, s) -> fade_inv s /\ o <> None.
Proof.
  intros f r o s I H. unfold read_frame in H. apply bind_ok in H. destruct H as (r1 & E & H).
  rewrite (ff_dual _ (fi_fit _ I)) in E. apply (update_inv _ _ I) in E.
  apply bind_ok in H. destruct H as ([x r2] & E2 & H). destruct (channels_quiet _ _ _ _ _ _ (ff_dual _ (fi_fit _ E)) E2) as [Q N].
  apply (inv_quiet _ _ Q) in E. destruct x as [vs|]; [|congruence].
  apply bind_ok in H. destruct H as (r3 & E3 & H). injection H as <- <-. split; [|discriminate]. now apply (advance_inv r2).
Qed.
Lemma loop_inv : forall f g r n l s, fade_inv r -> read_loop f g r n = Ok (l, s) -> fade_inv s /\ Z.of_nat (length l) = Z.max 0 n.
Proof.
  intros f. induction g as [|g IH]; intros r n l s I H; cbn [read_loop] in H.
  - destruct (Z.leb_spec n 0); [injection H as <- <-; split; [exact I|cbn; lia]|discriminate].
  - destruct (Z.leb_spec n 0); [injection H as <- <-; split; [exact I|cbn; lia]|].
    apply bind_ok in H. destruct H as ([o r1] & E & H). destruct (frame_inv _ _ _ _ I E) as [I1 N]. destruct o as [vs|]; [|congruence].
    replace (r_nch r =? 0) with false in H by (symmetry; apply Z.eqb_neq; destruct (fi_fit _ I); lia).
    apply bind_ok in H. destruct H as ([l2 r2] & E2 & H). injection H as <- <-. destruct (IH _ _ _ _ I1 E2) as [I2 L].
    split; [exact I2|]. cbn [length]. lia.
Qed.
Theorem read_inv : forall f r n l s, fade_inv r -> r_read f r n = Ok (l, s) -> fade_inv s.
Proof.
  intros f r n l s I H. unfold r_read in H. destruct (negb _); [injection H as <- <-; exact I|].
  destruct (_ <? 0); [discriminate|]. now apply loop_inv in H.
Qed.
Lemma rate_inv : forall r x s, fade_inv r -> dlt d0 x = dlt d0 (r_rate r) -> setPlaybackRate r x = Ok s -> fade_inv s.
Proof.
  intros r x s I X H. assert (K : forall p, fade_inv (r <| r_rate := x |> <| r_pos1 := p |>) /\ fade_inv (r <| r_rate := x |>)).
  { intro p. destruct I as [A B C D F]. split; (constructor; [destruct A; constructor; assumption| |exact C|exact D|exact F];
      change (r_cfst r = 0 \/ (r_cfst r = 1 /\ if xorb (loop_eqb (r_loop r) LPingpong) (dlt d0 x) then spos r (r_ls r) <= r_pos2 r else r_pos2 r <= spos r (r_lf r))); rewrite X; exact B). }
  pose proof (fun p => proj1 (K p)) as K1. pose proof (proj2 (K 0)) as K2. clear K.
  unfold setPlaybackRate in H. cbv zeta in H.
  destruct (negb _).
  - destruct (dlt x d0).
    + destruct (_ <=? _); [apply bind_ok in H; destruct H as (n & _ & H)|]; apply Ok_inj in H; subst s; first [exact K2|apply K1].
    + destruct (_ && _); apply Ok_inj in H; subst s; first [exact K2|apply K1].
  - destruct (deq _ _); [|apply Ok_inj in H; subst s; exact K2].
    destruct (dlt x d0).
    + destruct (_ <=? _); [apply bind_ok in H; destruct H as (n & _ & H)|]; apply Ok_inj in H; subst s; first [exact K2|apply K1].
    + destruct (_ && _); apply Ok_inj in H; subst s; first [exact K2|apply K1].
Qed.
Theorem fades_gain : forall fuel r s, ready_to_fade r -> fades fuel r s -> gain_ok (r_cf s).
Proof.
  intros fuel r s R H. assert (I : fade_inv s); [|apply I]. apply ready_inv in R.
  induction H as [r|r s n l t H IH E|r s x t H IH X E]; auto; [eapply read_inv; [|exact E]|eapply rate_inv; [|exact X|exact E]]; auto.
Qed.

(* ---- what is delivered during a fade ---- *)

Theorem fade_blend : forall r m off ch v s, r_src r = SArr m off -> r_dual r = true -> r_interp r = INone ->
  r_cfst r = 1 -> gain_ok (r_cf r) -> readNextValue r ch = Ok (Some v, s) ->
  let a := src_sample m off (r_pos1 r + ch) in let b := src_sample m off (r_pos2 r + ch) in
  Z.min a b - 1 <= v <= Z.max a b + 1 /\ Z.min 0 (Z.min a b) <= v <= Z.max 0 (Z.max a b).
Proof.
  intros r m off ch v s S D N ST G H a b. unfold readNextValue, at_end in H. rewrite D in H.
  apply bind_ok in H. destruct H as ([w r1] & E & H). rewrite N in H. cbn [bind] in H. injection H as <- <-.
  unfold fetch_value in E. rewrite D, ST in E. cbn [negb orb Z.eqb] in E.
  assert (AT : forall p x t, getAt r p 0 ch = Ok (x, t) -> x = src_sample m off (p + ch) /\ t = r).
  { intros p x t Q. unfold getAt in Q. apply bind_ok in Q. destruct Q as (i1 & Q1 & Q). apply chk32_inv in Q1.
    apply bind_ok in Q. destruct Q as (i & Q2 & Q). apply chk32_inv in Q2. unfold getSourceBufferValue in Q. rewrite S in Q.
    destruct (_ && _); [|discriminate]. apply Ok_inj in Q. apply pair_equal_spec in Q. destruct Q as [<- <-]. split; [|reflexivity]. unfold src_sample. f_equal. subst i i1. ring. }
  assert (RG : forall i, s16_val (src_sample m off i)).
  { intro i. unfold s16_val, src_sample. pose proof (le16_range (mbyte m) (off + 2 * i)) as R. unfold in_s16 in R. lia. }
  destruct (deq (r_cf r) d0) eqn:Z.
  - destruct (AT _ _ _ E) as [-> _]. fold b. pose proof (RG (r_pos2 r + ch)). lia.
  - apply bind_ok in E. destruct E as ([v1 r2] & E1 & E). destruct (AT _ _ _ E1) as [-> ->].
    apply bind_ok in E. destruct E as ([v2 r3] & E2 & E). destruct (AT _ _ _ E2) as [-> ->].
    apply bind_ok in E. destruct E as (u & E3 & E). injection E as -> _. fold a b in E3.
    destruct (mix_value (r_cf r) a b G (RG _) (RG _)) as (y & M & Y & _). rewrite M in E3. apply Ok_inj in E3. rewrite <- E3.
    apply Rabs_le_inv in Y. pose proof (convex_between (R64 (r_cf r)) a b (proj2 G)) as C. apply trunc_between. lra.
Qed.

(* ---- two heads never end ---- *)

Lemma dual_frame : forall f r o s, r_dual r = true -> read_frame f r = Ok (o, s) -> o <> None.
Proof.
  intros f r o s D H. unfold read_frame in H. apply bind_ok in H. destruct H as (r1 & E & H).
  rewrite D in E. apply updateCrossfade_statics in E. apply statics_dual in E.
  apply bind_ok in H. destruct H as ([x r2] & E2 & H). destruct (channels_quiet _ _ _ _ _ _ (eq_trans (eq_sym E) D) E2) as [Q M].
  destruct x as [vs|]; [|congruence]. apply bind_ok in H. destruct H as (r3 & E3 & H). now injection H as <- _.
Qed.
Lemma dual_loop : forall f g r n l s, r_dual r = true -> 1 <= r_nch r -> read_loop f g r n = Ok (l, s) -> Z.of_nat (length l) = Z.max 0 n.
Proof.
  intros f. induction g as [|g IH]; intros r n l s D N H; cbn [read_loop] in H.
  - destruct (Z.leb_spec n 0); [injection H as <- <-; cbn; lia|discriminate].
  - destruct (Z.leb_spec n 0); [injection H as <- <-; cbn; lia|].
    apply bind_ok in H. destruct H as ([o r1] & E & H). pose proof (dual_frame _ _ _ _ D E) as M. destruct o as [vs|]; [|congruence].
    apply read_frame_statics in E. pose proof (statics_dual _ _ E). pose proof (statics_nch _ _ E).
    replace (r_nch r =? 0) with false in H by (symmetry; apply Z.eqb_neq; lia).
    apply bind_ok in H. destruct H as ([l2 r2] & E2 & H). injection H as <- <-. apply IH in E2; [cbn [length]; lia|congruence|lia].
Qed.
Theorem dual_endless : forall fuel r n l s, r_dual r = true -> r_playing r = true -> 1 <= r_nch r -> 0 <= n ->
  r_read fuel r n = Ok (l, s) -> Z.of_nat (length l) = n /\ r_playing s = true /\ r_dual s = true.
Proof.
  intros fuel r n l s D P N Z H. pose proof (r_read_statics _ _ _ _ _ H) as ST.
  rewrite <- (statics_playing _ _ ST), <- (statics_dual _ _ ST). split; [|auto].
  unfold r_read in H. rewrite P in H. cbn [negb] in H. destruct (_ <? 0); [discriminate|]. apply dual_loop in H; auto. lia.
Qed.
