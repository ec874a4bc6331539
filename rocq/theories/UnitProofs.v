(* The reading tests of the repository pass for every length that the buffers hold (C136). *)

From Coq Require Import ZArith Lia List Bool Reals Lra.
From RecordUpdate Require Import RecordUpdate.
From Flocq Require Import Core.Core IEEE754.BinarySingleNaN.
From Verif Require Import Machine Floats FloatFacts WavModel CacheModel ReaderModel ReaderFacts ReaderSpec Sessions StreamFacts CacheFacts CacheSpec WavSpec
  FileSpec PlayProofs FilePlay FileForward MirrorSpec HeldSpec HeldProofs HeldPlay UnitModel.
Import ListNotations.
Local Open Scope Z_scope.

(* ---- the reads of a test ---------------------------------------------------------- *)

Lemma forallb_seq : forall n (p : nat -> bool), (forall i, (i < n)%nat -> p i = true) -> forallb p (seq 0 n) = true.
Proof. intros n p H. apply forallb_forall. intros i I. apply in_seq in I. apply H. lia. Qed.

Lemma nth_skipped : forall (l : list (list Z)) k i, nth i (skipn k l) [] = nth (k + i) l [].
Proof. induction l as [|a l IH]; intros k i; [rewrite skipn_nil; rewrite !nth_overflow by (cbn; lia); reflexivity|]. destruct k; [reflexivity|]. apply IH. Qed.

Lemma blocks_pass : forall F e size K l j r r', read_seq F r (repeat 256%nat K) = Ok (cut (repeat 256%nat K) l, r') -> (length l + 256 <= 256 * K)%nat ->
  (forall i, (i < length l)%nat -> nth i l [] = [e (j * 256 + Z.of_nat i)]) -> (l = [] \/ j * 256 + Z.of_nat (length l) <= size) ->
  exists bs r2, read_blocks F K r = Ok (bs, r2) /\ check_blocks e size j bs = Ok true /\ count_samples bs = Z.of_nat (length l).
Proof.
  intros F e size. induction K as [|K IH]; intros l j r r' E L V B; [lia|].
  cbn [repeat read_seq cut] in E. apply bind_ok in E. destruct E as ([b r1] & E1 & E). apply bind_ok in E. destruct E as ([bs0 r3] & E2 & E).
  apply Ok_inj, pair_equal_spec in E. destruct E as [E3 <-]. apply (f_equal (fun x => (hd [] x, tl x))), pair_equal_spec in E3. cbn [hd tl] in E3. destruct E3 as [-> ->].
  cbn [read_blocks]. change 256 with (Z.of_nat 256) at 1. rewrite E1. cbn [bind].
  destruct (firstn 256 l) as [|v b] eqn:FN.
  - assert (l = []) as -> by (destruct l; [reflexivity|discriminate]). exists [], r1. repeat split.
  - assert (LN : l <> []) by (intros ->; discriminate). destruct B as [B|B]; [contradiction|].
    assert (LP : (0 < length l)%nat) by (destruct l; [contradiction|cbn; lia]).
    assert (LF : length (firstn 256 l) = Nat.min 256 (length l)) by apply firstn_length. rewrite FN in LF.
    destruct (IH (skipn 256 l) (j + 1) r1 r3 E2) as (bs & r2 & Q1 & Q2 & Q3).
    + rewrite skipn_length. lia.
    + intros i I. rewrite skipn_length in I. rewrite nth_skipped. rewrite V by lia. f_equal. f_equal. lia.
    + rewrite skipn_length. destruct (Nat.le_gt_cases (length l) 256) as [LL|LL]; [left; apply skipn_all2; lia|right; lia].
    + rewrite Q1. cbn [bind]. exists ((v :: b) :: bs), r2. split; [reflexivity|]. cbn [check_blocks count_samples fold_right].
      fold (count_samples bs). rewrite Q2, Q3. unfold check_block. destruct (Z.ltb_spec size (j * 256 + Z.of_nat (length (v :: b)) - 1)); [lia|]. cbn [bind].
      rewrite forallb_seq; [split; [reflexivity|]|].
      * rewrite skipn_length. lia.
      * intros i I. assert (N : nth i (v :: b) [] = nth i l []).
        { rewrite <- FN. rewrite <- (firstn_skipn 256 l) at 2. rewrite app_nth1; [reflexivity|]. rewrite FN. lia. }
        rewrite N, V by lia. cbn [hd]. apply Z.eqb_refl.
Qed.

(* ---- the ramps ---------------------------------------------------------------------- *)

Lemma ramp_sample : forall a i, 0 <= i < 2 ^ 15 -> Z.even a = true -> le16 (fun b => ramp_byte (b - a)) (a + 2 * i) = i.
Proof.
  intros a i H EV. unfold le16, le16u, ramp_byte. replace (a + 2 * i - a) with (2 * i) by lia. replace (a + 2 * i + 1 - a) with (2 * i + 1) by lia.
  assert (E1 : Z.even (2 * i) = true) by (rewrite Z.even_mul; reflexivity).
  assert (E2 : Z.even (2 * i + 1) = false) by (rewrite Z.even_add, E1; reflexivity). rewrite E1, E2.
  replace (2 * i / 2) with i by (rewrite Z.mul_comm, Z.div_mul; lia).
  replace ((2 * i + 1) / 2) with i by (rewrite Z.mul_comm, Z.div_add_l by lia; cbn; lia).
  rewrite (Z.mod_small (i / 256)) by (split; [apply Z.div_pos; lia|apply Z.div_lt_upper_bound; lia]).
  pose proof (Z.div_mod i 256 ltac:(lia)). rewrite s16_id; [lia|unfold in_s16; lia].
Qed.

Lemma raw_sample : forall n i, 0 <= i < 2 ^ 15 -> file_sample (ramp_raw n) i = i.
Proof.
  intros n i H. unfold file_sample. cbn [ramp_raw fbyte]. rewrite <- (ramp_sample 0 i H eq_refl) at 2.
  unfold le16, le16u. now rewrite !Z.sub_0_r.
Qed.
Lemma wav_sample : forall n i, 0 <= i < 2 ^ 15 -> file_sample (ramp_wav n) (22 + i) = i.
Proof.
  intros n i H. unfold file_sample. cbn [ramp_wav fbyte]. rewrite <- (ramp_sample 44 i H eq_refl) at 2.
  unfold le16, le16u. replace (2 * (22 + i)) with (44 + 2 * i) by lia.
  destruct (Z.ltb_spec (44 + 2 * i) 44); [lia|]. destruct (Z.ltb_spec (44 + 2 * i + 1) 44); [lia|]. rewrite !andb_false_r. reflexivity.
Qed.

Lemma ramp_byte_ok : forall a, byte_ok (ramp_byte a).
Proof. intro a. unfold ramp_byte, byte_ok. destruct (Z.even a); apply Z.mod_pos_bound; lia. Qed.

Lemma wav_ok : forall n, 1 <= n < 2 ^ 15 -> wav_file (ramp_wav n) 1 0 (2 * n).
Proof.
  intros n H. assert (U : u16 (n * 2) = 2 * n) by (unfold u16; rewrite Z.mod_small; lia).
  assert (HB : forall a, 0 <= a < 44 -> fbyte (ramp_wav n) a = head_byte n a).
  { intros a A. cbn [ramp_wav fbyte]. destruct (Z.leb_spec 0 a), (Z.ltb_spec a 44); cbn [andb]; lia || reflexivity. }
  assert (D1 : 0 <= 2 * n / 256 < 256) by (split; [apply Z.div_pos; lia|apply Z.div_lt_upper_bound; lia]).
  assert (OK : bytes_ok (fbyte (ramp_wav n))).
  { intro a. cbn [ramp_wav fbyte]. destruct (Z.leb_spec 0 a), (Z.ltb_spec a 44); cbn [andb]; try apply ramp_byte_ok.
    unfold head_byte. cbv zeta. set (v := nth _ _ _). assert (V : 0 <= v < 65536).
    { unfold v, test_header. rewrite U. destruct (Z.to_nat (a / 2)) as [|k]; [cbn [nth]; lia|].
      do 22 (destruct k as [|k]; [cbn [nth]; lia|]). cbn [nth]. lia. }
    clearbody v. unfold byte_ok. destruct (Z.even a); [apply Z.mod_pos_bound; lia|].
    split; [apply Z.div_pos; lia|apply Z.div_lt_upper_bound; lia]. }
  unfold wav_file. split; [exact OK|].
  split; [unfold header_valid, slice; repeat split; cbn; rewrite ?HB by lia; reflexivity|].
  split; [reflexivity|]. split; [reflexivity|]. split; [lia|].
  split.
  { unfold data_chunk. split; [left; reflexivity|]. split; [reflexivity|].
    assert (B0 : head_byte n (40 + 0) = (2 * n) mod 256) by (rewrite <- U; reflexivity).
    assert (B1 : head_byte n (40 + 0 + 1) = 2 * n / 256) by (rewrite <- U; reflexivity).
    assert (B2 : head_byte n (40 + 0 + 2) = 0) by reflexivity. assert (B3 : head_byte n (40 + 0 + 3) = 0) by reflexivity.
    unfold le32u. rewrite !HB by lia. rewrite B0, B1, B2, B3. pose proof (Z.div_mod (2 * n) 256 ltac:(lia)). lia. }
  split; [reflexivity|]. split; [lia|]. cbn [ramp_wav fsize]. lia.
Qed.

(* ---- the three rates ------------------------------------------------------------------ *)

Lemma rate_2 : grid_rate (d_of_Z 2) /\ R64 (d_of_Z 2) = 2%R.
Proof.
  destruct (d_of_Z_ok 2 ltac:(lia)) as [V F]. split; [|exact V]. split; [exact F|]. exists 2, 0. split; [|lia].
  cbn [Z.opp bpow]. rewrite Rmult_1_r. exact V.
Qed.

Lemma rate_half : grid_rate (ddiv d1 (d_of_Z 2)) /\ R64 (ddiv d1 (d_of_Z 2)) = (/ 2)%R.
Proof.
  assert (V : R64 (ddiv d1 (d_of_Z 2)) = (/ 2)%R).
  { rewrite <- SF2R_B2SF. assert (E : B2SF (ddiv d1 (d_of_Z 2)) = SpecFloat.S754_finite false (2 ^ 52) (-53)) by (vm_compute; reflexivity).
    rewrite E. unfold SF2R, F2R. cbn [Fnum Fexp cond_Zopp bpow].
    change (Z.pow_pos radix2 53) with (2 * 2 ^ 52). change (Z.pos (2 ^ 52)) with (2 ^ 52). rewrite mult_IZR. assert (IZR (2 ^ 52) <> 0)%R by (apply IZR_neq; lia). field. assumption. }
  split; [|exact V]. split; [vm_compute; reflexivity|]. exists 1, 1. split; [|lia].
  change (B2R (ddiv d1 (d_of_Z 2))) with (R64 (ddiv d1 (d_of_Z 2))). rewrite V. cbn [Z.opp bpow]. change (Z.pow_pos radix2 1) with 2. lra.
Qed.

Lemma blocks_spec_eq : forall o1 o2, (forall k, o1 k = o2 k) -> forall ns k, blocks_spec o1 k ns = blocks_spec o2 k ns.
Proof.
  intros o1 o2 E. assert (P : forall n k, pulls o1 k n = pulls o2 k n).
  { induction n as [|n IH]; intro k; [reflexivity|]. cbn [pulls]. rewrite E. destruct (o2 k); [|reflexivity]. now rewrite IH. }
  induction ns as [|n ns IH]; intro k; [reflexivity|]. cbn [blocks_spec]. now rewrite P, IH.
Qed.

Lemma reading_of : forall r1 r2 x wave fl st g h len e size, setPlaybackRate pc_reader x = Ok r1 ->
  r_play_file r1 (Some fl) wave 1 st g = Ok (true, r2) -> r_playing r2 = true ->
  (forall ns, exists fuel r3, session fuel r2 ([SLoopType LNone] ++ reads ns) =
     Ok (map (fun _ => []) [SLoopType LNone] ++ blocks_spec (file_pitch fl h len 1 0 (R64 x)) 0 ns, r3) /\ misses r3 = 0) ->
  (0 < R64 x)%R -> 0 <= len -> (forall k, Zfloor (INR k * R64 x) < len -> file_frame fl h 1 (Zfloor (INR k * R64 x)) = [e (Z.of_nat k)]) ->
  Zceil (IZR len / R64 x) <= size ->
  exists fuel blocks, reading_test fuel blocks x wave fl st g e size = Ok (true, true, Zceil (IZR len / R64 x)).
Proof.
  intros r1 r2 x wave fl st g h len e size E1 E2 PL S X L V SZ.
  destruct (file_count_stream fl h len 1 (R64 x) X L) as (frames & FE & FL).
  set (K := (2 + length frames)%nat). destruct (S (repeat 256%nat K)) as (F & r3 & Q & _).
  cbn [app map session sop_run bind] in Q. rewrite reads_session in Q. apply bind_ok in Q. destruct Q as ([bs q] & Q & Q').
  apply Ok_inj, pair_equal_spec in Q'. destruct Q' as [Q1 <-]. apply (f_equal (@tl _)) in Q1. cbn [tl] in Q1. subst bs.
  rewrite (blocks_spec_eq _ _ FE), blocks_list in Q. cbn [skipn] in Q.
  destruct (blocks_pass F e size K frames 0 _ _ Q) as (bs & r4 & B1 & B2 & B3).
  - unfold K. lia.
  - intros i I. pose proof (FE i) as N. unfold file_pitch in N. rewrite Z.add_0_l in N.
    destruct (Z.ltb_spec (Zfloor (INR i * R64 x)) len) as [Y|Y].
    + rewrite (nth_error_nth frames i [] (eq_sym N)). rewrite V by exact Y. f_equal.
    + symmetry in N. apply nth_error_None in N. lia.
  - right. lia.
  - exists F, K. unfold reading_test. rewrite E1. cbn [bind]. rewrite E2. cbn [bind]. rewrite B1. cbn [bind]. rewrite B2. cbn [bind].
    rewrite PL, B3, FL. reflexivity.
Qed.

Lemma pc_settings : forall x r1 p, r1 = pc_reader <| r_rate := x |> <| r_pos1 := p |> ->
  basic_settings r1 LNone PSample 0 /\ r_cfg r1 = mkCfg 11 7 true false /\ r_kind r1 <> KArray /\ r_hdr r1 = 0 /\ r_rate r1 = x.
Proof. intros x r1 p ->. repeat split. discriminate. Qed.

Lemma pc_cfg : cfg_ok (mkCfg 11 7 true false).
Proof. unfold cfg_ok. cbn. lia. Qed.

Lemma reading_raw : forall x n st g e size, grid_rate x -> (0 < R64 x <= 2)%R -> 1 <= n <= 14336 ->
  (forall k, Zfloor (INR k * R64 x) < n -> Zfloor (INR k * R64 x) = e (Z.of_nat k)) -> Zceil (IZR n / R64 x) <= size ->
  exists fuel blocks, reading_test fuel blocks x false (ramp_raw n) st g e size = Ok (true, true, Zceil (IZR n / R64 x)).
Proof.
  intros x n st g e size G X N V SZ. destruct (setRate_fwd pc_reader x (proj1 G) ltac:(lra)) as (r1 & E1 & p & R1).
  destruct (pc_settings x r1 p R1) as (BSET & CC & K & HH & RR).
  assert (LEN : fsize (ramp_raw n) / 2 / Z.of_nat 1 = n) by (cbn [ramp_raw fsize]; rewrite Z.div_1_r, Z.mul_comm, Z.div_mul; lia).
  destruct (raw_held r1 (ramp_raw n) 1 st g PSample 0) as (r2 & E2 & PL & S); rewrite ?CC, ?RR; auto using pc_cfg; try discriminate.
  - lia.
  - cbn [ramp_raw fsize]. lia.
  - unfold small_file. cbn [ramp_raw fsize c_nbuf]. change (BS (mkCfg 11 7 true false)) with 2048. lia.
  - cbn. lia.
  - lra.
  - cbn [INR]. apply Rle_trans with 3%R; [lra|]. apply IZR_le. lia.
  - rewrite LEN, RR in S. apply (reading_of r1 r2 x false (ramp_raw n) st g 0 n e size E1 E2 PL); auto; try lra; try lia.
    intros k KL. rewrite <- (V k KL). assert (0 <= Zfloor (INR k * R64 x)) by (apply Zfloor_lub; apply Rmult_le_pos; [apply pos_INR|lra]).
      unfold file_frame. cbn [seq map]. rewrite Z.add_0_l, Z.mul_1_r, Z.add_0_r. rewrite raw_sample by lia. reflexivity.
Qed.

Lemma reading_wav : forall x n st g e size, bytes_ok st -> grid_rate x -> (0 < R64 x <= 2)%R -> 1 <= n <= 14314 ->
  (forall k, Zfloor (INR k * R64 x) < n -> Zfloor (INR k * R64 x) = e (Z.of_nat k)) -> Zceil (IZR n / R64 x) <= size ->
  exists fuel blocks, reading_test fuel blocks x true (ramp_wav n) st g e size = Ok (true, true, Zceil (IZR n / R64 x)).
Proof.
  intros x n st g e size BO G X N V SZ. destruct (setRate_fwd pc_reader x (proj1 G) ltac:(lra)) as (r1 & E1 & p & R1).
  destruct (pc_settings x r1 p R1) as (BSET & CC & K & HH & RR).
  assert (LEN : 2 * n / 2 / Z.of_nat 1 = n) by (rewrite Z.div_1_r, Z.mul_comm, Z.div_mul; lia).
  destruct (wav_held r1 (ramp_wav n) 1 0 (2 * n) 1 st g PSample 0) as (r2 & E2 & PL & S); rewrite ?CC, ?RR; auto using pc_cfg; try discriminate.
  - apply wav_ok. lia.
  - lia.
  - unfold small_file. cbn [ramp_wav fsize c_nbuf]. change (BS (mkCfg 11 7 true false)) with 2048. lia.
  - cbn. lia.
  - lra.
  - cbn [INR]. apply Rle_trans with 3%R; [lra|]. apply IZR_le. lia.
  - rewrite LEN, RR in S. apply (reading_of r1 r2 x true (ramp_wav n) st g 22 n e size E1 E2 PL); auto; try lra; try lia.
    intros k KL. rewrite <- (V k KL). assert (0 <= Zfloor (INR k * R64 x)) by (apply Zfloor_lub; apply Rmult_le_pos; [apply pos_INR|lra]).
      unfold file_frame. cbn [seq map]. rewrite Z.mul_1_r, Z.add_0_r. rewrite wav_sample by lia. reflexivity.
Qed.

(* ---- the tests -------------------------------------------------------------------------- *)

Lemma floor_half : forall k, Zfloor (INR k * / 2) = Z.quot (Z.of_nat k) 2.
Proof. intro k. rewrite Z.quot_div_nonneg by lia. rewrite INR_IZR_INZ. change (/ 2)%R with (/ IZR 2)%R. apply Zfloor_div. lia. Qed.
Lemma floor_double : forall k, Zfloor (INR k * 2) = Z.of_nat k * 2.
Proof. intro k. rewrite INR_IZR_INZ, <- mult_IZR. apply Zfloor_IZR. Qed.
Lemma floor_same : forall k, Zfloor (INR k * 1) = Z.of_nat k.
Proof. intro k. rewrite Rmult_1_r, INR_IZR_INZ. apply Zfloor_IZR. Qed.
Lemma ceil_half : forall n, Zceil (IZR n / 2) = (n + 1) / 2.
Proof.
  intro n. unfold Zceil. replace (- (IZR n / 2))%R with (IZR (- n) / IZR 2)%R by (rewrite opp_IZR; lra). rewrite Zfloor_div by lia.
  pose proof (Z.div_mod (- n) 2 ltac:(lia)). pose proof (Z.mod_pos_bound (- n) 2 ltac:(lia)).
  apply (Z.div_unique (n + 1) 2 (- (- n / 2)) (1 - (- n) mod 2)); lia.
Qed.

Theorem double_passes : forall n stack garbage, 0 <= n <= 14336 -> exists fuel blocks, double_rate_test fuel blocks n stack garbage = Ok true.
Proof.
  intros n st g N. destruct rate_2 as [G V].
  assert (U : 0 <= (n + 1) / 2 <= 14336) by (split; [apply Z.div_pos|apply Z.div_le_upper_bound]; lia).
  assert (US : s16 ((n + 1) / 2) = (n + 1) / 2) by (apply s16_id; unfold in_s16; lia).
  assert (n = 0 \/ 1 <= n) as [-> | N1] by lia.
  - exists 1%nat, 1%nat. vm_compute. reflexivity.
  - destruct (reading_raw (d_of_Z 2) n st g (fun i => i * 2) ((n + 1) / 2) G ltac:(rewrite V; lra) ltac:(lia)) as (F & B & E).
    + intros k _. rewrite V. apply floor_double.
    + rewrite V, ceil_half. lia.
    + exists F, B. unfold double_rate_test. cbv zeta. rewrite US, E. cbn [bind]. rewrite V, ceil_half, Z.eqb_refl.
      destruct (Z.eqb_spec n 0); [lia|]. reflexivity.
Qed.

Theorem half_passes_raw : forall n stack garbage, 1 <= n <= 14336 -> exists fuel blocks, half_rate_test fuel blocks false n stack garbage = Ok true.
Proof.
  intros n st g N. destruct rate_half as [G V].
  assert (US : s16 (n * 2) = n * 2) by (apply s16_id; unfold in_s16; lia).
  destruct (reading_raw (ddiv d1 (d_of_Z 2)) n st g (fun i => Z.quot i 2) (n * 2) G ltac:(rewrite V; lra) N) as (F & B & E).
  - intros k _. rewrite V. apply floor_half.
  - rewrite V. replace (IZR n / / 2)%R with (IZR (n * 2)) by (rewrite mult_IZR; field). rewrite Zceil_IZR. lia.
  - exists F, B. unfold half_rate_test. rewrite US, E. reflexivity.
Qed.

Theorem half_passes_wav : forall n stack garbage, bytes_ok stack -> 1 <= n <= 14314 -> exists fuel blocks, half_rate_test fuel blocks true n stack garbage = Ok true.
Proof.
  intros n st g BO N. destruct rate_half as [G V].
  assert (US : s16 (n * 2) = n * 2) by (apply s16_id; unfold in_s16; lia).
  destruct (reading_wav (ddiv d1 (d_of_Z 2)) n st g (fun i => Z.quot i 2) (n * 2) BO G ltac:(rewrite V; lra) N) as (F & B & E).
  - intros k _. rewrite V. apply floor_half.
  - rewrite V. replace (IZR n / / 2)%R with (IZR (n * 2)) by (rewrite mult_IZR; field). rewrite Zceil_IZR. lia.
  - exists F, B. unfold half_rate_test. rewrite US, E. reflexivity.
Qed.

Theorem regular_passes : forall n stack garbage, bytes_ok stack -> 1 <= n <= 14314 -> exists fuel blocks, regular_rate_test fuel blocks n stack garbage = Ok true.
Proof.
  intros n st g BO N.
  destruct (reading_wav d1 n st g (fun i => i) n BO grid_d1 ltac:(rewrite R64_d1; lra) N) as (F & B & E).
  - intros k _. rewrite R64_d1. apply floor_same.
  - rewrite R64_d1. replace (IZR n / 1)%R with (IZR n) by field. rewrite Zceil_IZR. lia.
  - exists F, B. unfold regular_rate_test. rewrite E. reflexivity.
Qed.
