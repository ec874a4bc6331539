(* Forward playback of a file with one head, without looping, with any interpolator
   and at any constant rate: as long as the buffers keep up it does what playback of
   an array with the file's bytes does (C82). *)

From Coq Require Import ZArith Lia List Bool Reals Lra.
From RecordUpdate Require Import RecordUpdate.
From Flocq Require Import Core.Core IEEE754.BinarySingleNaN.
From Verif Require Import Machine Floats FloatFacts WavModel InterpModel CacheModel ReaderModel ReaderFacts ReaderSpec Sessions StreamFacts Walk
  CacheFacts CacheSpec CacheProofs FileSpec WindowProofs FileProofs FilePlay FileForward FadeProofs QuadProofs InterpSafe MirrorSpec MirrorProofs MirrorFinal PartProofs.
Import ListNotations.
Local Open Scope Z_scope.

(* A left-over fraction counts as a frame *)
Definition nz (x : b64) : Z := if dlt d0 x then 1 else 0.
Lemma nz_range : forall x, 0 <= nz x <= 1. Proof. intros. unfold nz. destruct (dlt d0 x); lia. Qed.

Section Track.
Variables (h len : Z) (nch : nat) (x : b64) (s : Z).
Local Notation N := (Z.of_nat nch).
Hypothesis (FIT : fits h len nch) (FX : fin64 x = true) (X0 : (0 <= R64 x)%R) (XS : (R64 x <= IZR s)%R) (S1 : 1 <= s) (SN : (s + 1) * N <= 2 ^ 30).

Record trk (r : reader) : Prop := mkTrk {
  t_dual : r_dual r = false; t_nch : r_nch r = N; t_hdr : r_hdr r = h; t_play : r_playing r = true; t_cfst : r_cfst r = 0;
  t_len : r_fsamples r = len; t_loop : r_loop r = LNone; t_rate : r_rate r = x;
  t_remf : fin64 (r_rem r) = true; t_rem : (0 <= R64 (r_rem r) <= 1)%R;
  t_pos : exists q, 0 <= q /\ r_pos1 r = h + q * N }.

Lemma trk_src : forall r k sr, trk r -> trk (src_set r k sr). Proof. intros r k sr []. constructor; assumption. Qed.
Lemma trk_wp : forall r P n, trk r -> trk (wp r P n). Proof. intros r P n []. constructor; assumption. Qed.

Lemma trk_end : forall r, trk r -> at_end r = (h + len * N <=? r_pos1 r).
Proof.
  intros r T. destruct FIT as (H1 & H2 & H3 & H4 & H5). unfold at_end. rewrite (t_dual _ T), (t_rate _ T), (dge0_true x FX X0), (t_loop _ T), (t_len _ T).
  unfold spos, sts. rewrite (t_hdr _ T), (t_nch _ T). rewrite s32_u32, s32_id by (unfold in_s32; lia). reflexivity.
Qed.

Lemma rate_neg : dlt x d0 = false.
Proof. rewrite dlt_R by (auto using fin_d0). rewrite R64_d0. now apply Rlt_bool_false. Qed.

Lemma trk_reach : forall r, trk r -> reach r <= s - 1.
Proof.
  intros r T. unfold reach. rewrite (t_rate _ T). destruct (r_interp r); [lia| |].
  - destruct (dlt d1 x) eqn:D; [|cbn; lia]. rewrite dlt_R in D by (auto using fin_d1). rewrite R64_d1 in D. revert D. case Rlt_bool_spec; [intros D _|discriminate].
    assert (1 < s) by (apply lt_IZR; lra). destruct (_ && _); lia.
  - destruct (dlt _ d0) eqn:D; [|lia]. pose proof (t_rem _ T) as RB. assert (P30 : IZR (2 ^ 30) = 1073741824%R) by reflexivity.
    assert (SB : s < 2 ^ 30) by (destruct FIT as (_ & _ & _ & F4 & _); nia). pose proof (IZR_lt _ _ SB) as SB'. rewrite P30 in SB'.
    destruct (count_fwd (r_rem r) x s) as (n & E & NB); auto; [apply T|apply Rabs_le; lra|apply Rabs_le; lra|lia|lra|]. rewrite E. lia.
Qed.

Lemma trk_step : forall r r1, trk r -> at_end r = false -> advance r = Ok r1 ->
  exists a, trk r1 /\ 0 <= a /\ r_pos1 r1 = r_pos1 r + a * N /\ reach r1 <= a /\ a + nz (r_rem r1) <= nz (r_rem r) + s /\ r_src r1 = r_src r.
Proof.
  intros r r1 T AE AD. rewrite (trk_end r T) in AE. apply Z.leb_gt in AE. destruct FIT as (H1 & H2 & H3 & H4 & H5).
  pose proof (t_rem _ T) as RB. destruct (t_pos _ T) as (q & Q0 & PQ).
  assert (P30 : IZR (2 ^ 30) = 1073741824%R) by reflexivity.
  assert (SB : s + 1 <= 2 ^ 30) by nia. pose proof (IZR_le _ _ SB) as SB'. rewrite P30, plus_IZR in SB'.
  remember (step_sum r) as u eqn:UE. assert (U : u = rnd64 (R64 (r_rem r) + R64 x)) by (rewrite UE; unfold step_sum; now rewrite (t_rate _ T)).
  pose proof (rnd64_id _ (FloatFacts.fmt64_R64 x)) as XX. pose proof (rnd64_le (R64 x) (R64 (r_rem r) + R64 x) ltac:(lra)) as UX. rewrite <- U, XX in UX.
  assert (U2 : (u <= IZR (s + 1))%R).
  { rewrite U, <- (rnd64_id (IZR (s + 1))) by (apply fmt64_Z; lia). apply rnd64_le. rewrite plus_IZR. lra. }
  assert (TB : 0 <= Ztrunc u <= s + 1).
  { split; [rewrite <- (Ztrunc_IZR 0); apply Ztrunc_le; lra|]. rewrite <- (Ztrunc_IZR (s + 1)). apply Ztrunc_le. exact U2. }
  destruct (advance_plain r) as (y & Y1 & Y2 & Y3 & AD2); rewrite <- ?UE in *.
  - apply T.
  - now rewrite (t_rate _ T).
  - apply Rabs_le. lra.
  - rewrite (t_rate _ T), Rabs_pos_eq by auto. rewrite bpow_IZR by lia. apply Rle_trans with (IZR (2 ^ 30)); [lra|]. apply IZR_le. lia.
  - apply T.
  - unfold in_s32. lia.
  - rewrite (t_nch _ T). unfold in_s32. nia.
  - rewrite (t_nch _ T). unfold in_s32. nia.
  - rewrite AD2 in AD. apply Ok_inj in AD. rewrite (t_nch _ T) in AD.
    destruct (Ztrunc_bounds_pos u ltac:(lra)) as [T1 T2]. set (a := Ztrunc u) in *.
    assert (YB : (0 <= R64 y < 1)%R) by lra.
    assert (R1 : r_rem r1 = y /\ r_rate r1 = x /\ r_pos1 r1 = r_pos1 r + a * N /\ r_interp r1 = r_interp r /\ r_src r1 = r_src r).
    { rewrite <- AD. split; [reflexivity|]. split; [exact (t_rate _ T)|]. repeat split. }
    destruct R1 as (R1 & R2 & R3 & R4 & R5). exists a. split; [|split; [lia|split; [exact R3|split; [|split; [|exact R5]]]]].
    + rewrite <- AD. destruct T. constructor; try assumption; [change (0 <= R64 y <= 1)%R; lra|]. exists (q + a). split; [lia|]. change (r_pos1 r + a * N = h + (q + a) * N). rewrite PQ. ring.
    + unfold reach. rewrite R1, R2, R4. destruct (r_interp r); [lia| |].
      * destruct (dlt d1 x) eqn:D; [|cbn; lia]. rewrite dlt_R in D by (auto using fin_d1). rewrite R64_d1 in D. revert D. case Rlt_bool_spec; [intros D _|discriminate].
        assert (1 <= a); [|destruct (_ && _); lia]. rewrite <- (Ztrunc_IZR 1). apply Ztrunc_le. lra.
      * destruct (dlt _ d0) eqn:D; [|lia]. destruct (count_fwd y x a) as (n & E & NB); auto; [apply Rabs_le; lra|apply Rabs_le; lra|lia|lra|]. rewrite E. lia.
    + rewrite R1. unfold nz. rewrite !dlt_R by (auto using fin_d0; apply T). rewrite R64_d0.
      assert (CS : a <= s \/ a = s + 1) by lia. destruct CS as [CS|CS].
      * case (Rlt_bool_spec 0 (R64 (r_rem r))); intros B1; [destruct (Rlt_bool 0 (R64 y)); lia|].
        assert (Z0 : R64 (r_rem r) = 0%R) by lra. rewrite Z0, Rplus_0_l, XX in U.
        case (Rlt_bool_spec 0 (R64 y)); intros B2; [|lia]. assert (a < s); [|lia]. apply lt_IZR. lra.
      * assert (IZR a = IZR (s + 1)) by now f_equal. case (Rlt_bool_spec 0 (R64 y)); intros B2; [lra|].
        case (Rlt_bool_spec 0 (R64 (r_rem r))); intros B1; [lia|]. exfalso.
        assert (Z0 : R64 (r_rem r) = 0%R) by lra. rewrite Z0, Rplus_0_l, XX in U. rewrite plus_IZR in *. lra.
Qed.

(* ---- a read, on whole and on part of the memory ------------------------------- *)

Section Mem.
Variables (m m' : mem) (off off' lo hi : Z).
Hypothesis SAME : forall i v, lo <= i < hi -> mem_sample m off i = Some v -> mem_sample m' off' i = Some v.
Local Notation re := (re m' off').

Lemma self_cfst : forall r, r_cfst r = 0 -> r <| r_cfst := 0 |> = r. Proof. intros [] E. cbn in *. now subst. Qed.

Lemma trk_loop : forall n F F2 r l r1, trk r -> r_src r = SArr m off -> lo <= r_pos1 r - reach r * N ->
  Z.min (h + len * N) (r_pos1 r + (nz (r_rem r) + (Z.of_nat n - 1) * s + 1) * N) <= hi ->
  read_loop F F2 r (Z.of_nat n) = Ok (l, r1) ->
  read_loop F F2 (re r) (Z.of_nat n) = Ok (l, re r1) /\ trk r1 /\ r_src r1 = r_src r /\
  r_pos1 r1 + nz (r_rem r1) * N <= r_pos1 r + (nz (r_rem r) + Z.of_nat n * s) * N /\
  (n = O \/ at_end r = true \/ r_pos1 r <= r_pos1 r1 - reach r1 * N).
Proof.
  destruct FIT as (H1 & H2 & H3 & H4 & H5).
  induction n as [|n IH]; intros F F2 r l r1 T SR L H E.
  - change (Z.of_nat 0) with 0 in *. assert (E0 : l = [] /\ r1 = r) by (destruct F2; cbn in E; apply Ok_inj, pair_equal_spec in E; destruct E; split; congruence).
    destruct E0 as [-> ->]. split; [destruct F2; reflexivity|]. split; [exact T|]. split; [reflexivity|]. split; [lia|]. now left.
  - destruct F2 as [|F2]; cbn [read_loop] in *; destruct (Z.leb_spec (Z.of_nat (S n)) 0); try lia; [discriminate|].
    apply bind_ok in E. destruct E as ([o r2] & EF & E). destruct (at_end r) eqn:AE.
    + destruct F as [|F].
      { exfalso. unfold read_frame in EF. rewrite (t_dual _ T) in EF. cbn [bind] in EF. rewrite (t_nch _ T), Nat2Z.id in EF. destruct nch; [lia|discriminate]. }
      assert (FE : forall z, trk z -> at_end z = true -> read_frame (S F) z = Ok (None, z)).
      { intros z TZ AZ. rewrite frame_end; auto; [|apply TZ|rewrite (t_nch _ TZ); lia|apply TZ]. now rewrite self_cfst by apply TZ. }
      rewrite (FE r T AE) in EF. apply Ok_inj, pair_equal_spec in EF. destruct EF as [<- <-]. apply Ok_inj, pair_equal_spec in E. destruct E as [<- <-].
      rewrite (FE (re r)); [|destruct T; constructor; assumption|exact AE]. cbn [bind]. split; [reflexivity|]. split; [exact T|]. split; [reflexivity|].
      split; [nia|]. right. now left.
    + assert (AE2 := AE). rewrite (trk_end r T) in AE2. apply Z.leb_gt in AE2. destruct (t_pos _ T) as (q & Q0 & PQ).
      pose proof (nz_range (r_rem r)) as NZ.
      assert (QL : q < len) by nia.
      assert (INS : inside lo hi r).
      { split; rewrite (t_nch _ T); [exact L|]. apply Z.le_trans with (2 := H). apply Z.min_glb; nia. }
      destruct (re_frame m m' off off' lo hi SAME F r o r2 SR (t_dual _ T)) with (5 := EF) as (RF & NN & P & n2 & AD); auto; [rewrite (t_rate _ T); apply rate_neg|rewrite (t_nch _ T); lia|].
      destruct (trk_step _ _ (trk_wp r P n2 T) AE AD) as (a & T2 & A0 & P2 & RC & PH & SR2).
      change (r_pos1 (wp r P n2)) with (r_pos1 r) in P2. change (r_rem (wp r P n2)) with (r_rem r) in PH. change (r_src (wp r P n2)) with (r_src r) in SR2.
      destruct o as [vs|]; [|congruence]. rewrite RF. cbn [bind]. change (r_nch (re r)) with (r_nch r).
      destruct (Z.eqb_spec (r_nch r) 0); [rewrite (t_nch _ T) in *; lia|]. apply bind_ok in E. destruct E as ([l2 r3] & E2 & E).
      replace (Z.of_nat (S n) - 1) with (Z.of_nat n) in * by lia.
      pose proof (reach_nonneg r) as RG. pose proof (reach_nonneg r2) as RG2.
      destruct (IH F F2 r2 l2 r3 T2) as (E3 & T3 & SR3 & B3 & C3); auto; [congruence|nia| |].
      { apply Z.le_trans with (2 := H). apply Z.min_glb; [lia|]. apply Z.le_trans with (1 := Z.le_min_r _ _). rewrite P2. nia. }
      rewrite E3. cbn [bind]. apply Ok_inj, pair_equal_spec in E. destruct E as [<- <-]. split; [reflexivity|]. split; [exact T3|]. split; [congruence|].
      split; [nia|]. right. right. destruct C3 as [ -> |[AE3|C3]].
      * change (Z.of_nat 0) with 0 in E2. assert (r3 = r2) by (destruct F2; cbn in E2; apply Ok_inj, pair_equal_spec in E2; destruct E2; congruence). subst r3. nia.
      * assert (r3 = r2); [|subst r3; nia]. destruct F2 as [|F2]; cbn [read_loop] in E2; destruct (Z.leb_spec (Z.of_nat n) 0); try discriminate; try (apply Ok_inj, pair_equal_spec in E2; destruct E2; congruence).
        apply bind_ok in E2. destruct E2 as ([o4 r4] & E4 & E2). destruct F as [|F].
        { exfalso. unfold read_frame in E4. rewrite (t_dual _ T2) in E4. cbn [bind] in E4. rewrite (t_nch _ T2), Nat2Z.id in E4. destruct nch; [lia|discriminate]. }
        rewrite frame_end in E4; auto; [|apply T2|rewrite (t_nch _ T2); lia|apply T2]. rewrite self_cfst in E4 by apply T2.
        apply Ok_inj, pair_equal_spec in E4. destruct E4 as [<- <-]. apply Ok_inj, pair_equal_spec in E2. destruct E2; congruence.
      * nia.
Qed.
End Mem.
End Track.

(* ---- the buffers --------------------------------------------------------------- *)

Lemma get_read_kept : forall f i t b, nth_error (i_bufs f) t = Some b -> b_status b = StRead ->
  exists b', nth_error (i_bufs (snd (if_get f i))) t = Some b' /\ b_status b' = StRead.
Proof.
  assert (FR : forall q l n l1, find_with_index q l = (n, l1) -> forall t b, nth_error l t = Some b -> b_status b = StRead ->
    exists b', nth_error l1 t = Some b' /\ b_status b' = StRead).
  { intros q. induction l as [|y l IH]; intros n l1 E t b NT ST; [destruct t; discriminate|]. cbn [find_with_index] in E.
    destruct (_ && _); [inversion E; subst; eauto|]. destruct (find_with_index q l) as [o l2] eqn:E2. inversion E; subst.
    destruct t as [|t]; [|cbn in *; eauto]. cbn in NT |- *. inversion NT; subst. eexists. split; [reflexivity|]. rewrite ST. cbn. exact ST. }
  intros f i t b NT ST. unfold if_get. destruct (find_with_index _ _) as [[n|] l1] eqn:E.
  - destruct (FR _ _ _ _ E t b NT ST) as (b' & N' & S'). cbn. rewrite nth_upd, N'. cbn [option_map]. eexists. split; [reflexivity|].
    destruct (Nat.eqb t n); [reflexivity|exact S'].
  - cbn. eauto.
Qed.
Lemma gets_read_kept : forall f g, gets f g -> forall t b, nth_error (i_bufs f) t = Some b -> b_status b = StRead ->
  exists b', nth_error (i_bufs g) t = Some b' /\ b_status b' = StRead.
Proof.
  induction 1 as [f|f i g G IH]; intros t b N S; [eauto|]. destruct (get_read_kept f i t b N S) as (b' & N' & S'). eauto.
Qed.

(* The first sample fetched by a read is the one at the play position *)
Lemma first_access : forall F n r f l r', r_src r = SFile f -> r_dual r = false -> at_end r = false -> 1 <= r_nch r -> 0 < n -> r_playing r = true ->
  in_s32 (r_pos1 r) -> r_read F r n = Ok (l, r') -> exists f', r_src r' = SFile f' /\ gets (snd (if_get f (r_pos1 r))) f'.
Proof.
  intros F n r f l r' SR D AE N1 NP PL P32 E. unfold r_read in E. rewrite PL in E. cbn [negb] in E. destruct (Z.ltb_spec (r_nch r) 0); [lia|].
  enough (G : src_gets (SFile (snd (if_get f (r_pos1 r)))) (r_src r')) by (inversion G; subst; eauto).
  destruct F as [|F]; cbn [read_loop] in E; destruct (Z.leb_spec n 0); try lia; [discriminate|].
  apply bind_ok in E. destruct E as ([o r1] & EF & E).
  assert (G1 : src_gets (SFile (snd (if_get f (r_pos1 r)))) (r_src r1)).
  { unfold read_frame in EF. rewrite D in EF. cbn [bind] in EF. destruct (Z.to_nat (r_nch r)) as [|k] eqn:K; [lia|]. cbn [read_channels read_one] in EF.
    unfold readNextValue at 1 in EF. rewrite AE in EF. unfold fetch_value, getAt in EF. rewrite D in EF. cbn [negb orb] in EF.
    rewrite Z.mul_0_l, Z.add_0_r in EF. rewrite chk32_ok in EF by exact P32. cbn [bind] in EF. rewrite Z.add_0_r, chk32_ok in EF by exact P32. cbn [bind] in EF.
    unfold getSourceBufferValue in EF. rewrite SR in EF. destruct (if_get f (r_pos1 r)) as [v f1] eqn:G. cbn [bind snd] in *.
    change (SFile f1) with (r_src (r <| r_src := SFile f1 |>)). set (r0 := r <| r_src := SFile f1 |>) in *. clearbody r0.
    apply bind_ok in EF. destruct EF as ([o2 r2] & X & EF). apply bind_ok in X. destruct X as ([o3 r3] & X & X2).
    apply bind_ok in X. destruct X as ([o4 r4] & X & X3). apply bind_ok in X. destruct X as ([w r5] & X & X4).
    apply Ok_inj, pair_equal_spec in X4. destruct X4 as [<- <-]. apply Ok_inj, pair_equal_spec in X3. destruct X3 as [<- <-].
    apply bind_ok in X2. destruct X2 as ([o5 r6] & X5 & X2). apply Ok_inj, pair_equal_spec in X2. destruct X2 as [<- <-].
    assert (G5 : src_gets (r_src r0) (r_src r5)).
    { destruct (r_interp r); [apply Ok_inj, pair_equal_spec in X; destruct X as [_ <-]; apply src_gets_refl|now apply linear_gets in X|now apply quadratic_gets in X]. }
    apply channels_gets in X5. refine (src_gets_trans _ _ _ G5 _). refine (src_gets_trans _ _ _ X5 _).
    destruct (option_map _ o5) as [vs|].
    - apply bind_ok in EF. destruct EF as (r7 & A & EF). apply Ok_inj, pair_equal_spec in EF. destruct EF as [_ <-]. now apply advance_gets in A.
    - apply Ok_inj, pair_equal_spec in EF. destruct EF as [_ <-]. apply src_gets_refl. }
  refine (src_gets_trans _ _ _ G1 _). destruct o as [vs|].
  - destruct (_ =? 0); [now apply loop_gets in E|]. apply bind_ok in E. destruct E as ([l2 r2] & E2 & E). apply Ok_inj, pair_equal_spec in E. destruct E as [_ <-]. now apply loop_gets in E2.
  - apply Ok_inj, pair_equal_spec in E. destruct E as [_ <-]. apply src_gets_refl.
Qed.

