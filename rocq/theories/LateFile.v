(* Forward playback from files that has run ahead of the buffers catches up *)

From Coq Require Import ZArith Lia List Bool Reals Lra.
From RecordUpdate Require Import RecordUpdate.
From Flocq Require Import Core.Core IEEE754.BinarySingleNaN.
From Verif Require Import Machine Floats FloatFacts WavModel InterpModel CacheModel ReaderModel
  ReaderFacts ReaderSpec Sessions Walk CacheFacts CacheSpec CacheProofs FileSpec WindowProofs FileProofs FileForward
  RaceModel RaceProofs RaceSpec RaceCache RacePlay RaceFile BumpProofs LateCache MirrorProofs.
Import ListNotations.
Local Open Scope Z_scope.

Lemma pulls_shift : forall out n k j, pulls out (k + j) n = pulls (fun t => out (k + t)%nat) j n.
Proof.
  intros out. induction n as [|n IH]; intros k j; [reflexivity|]. cbn [pulls]. destruct (out (k + j)%nat); [|reflexivity].
  f_equal. rewrite <- IH. f_equal. lia.
Qed.
Lemma blocks_shift : forall out ns k j, blocks_spec out (k + j) ns = blocks_spec (fun t => out (k + t)%nat) j ns.
Proof.
  intros out. induction ns as [|n ns IH]; intros k j; [reflexivity|]. cbn [blocks_spec]. rewrite pulls_shift. f_equal.
  rewrite <- IH. f_equal. lia.
Qed.

Lemma serviced_src : forall ns F r bs r' f, r_src r = SFile f -> serviced F r ns = Ok (bs, r') -> exists f', r_src r' = SFile f'.
Proof.
  induction ns as [|n ns IH]; intros F r bs r' f SF H; cbn [serviced] in H.
  - apply Ok_inj in H. injection H as <- <-. eauto.
  - destruct (r_read F r (Z.of_nat n)) as [[b r1]| |] eqn:E1; try discriminate. cbn [bind] in H.
    destruct (r_triggerReload F r1) as [r2| |] eqn:E2; try discriminate. cbn [bind] in H.
    destruct (serviced F r2 ns) as [[bs' r3]| |] eqn:E3; try discriminate. cbn [bind] in H.
    apply Ok_inj in H. injection H as <- <-.
    assert (X : exists f1, r_src r1 = SFile f1).
    { unfold r_read in E1. destruct (negb (r_playing r)); [apply Ok_inj in E1; assert (r1 = r) by congruence; subst; eauto|].
      destruct (r_nch r <? 0); [discriminate|]. apply loop_gets in E1. rewrite SF in E1. inversion E1; eauto. }
    destruct X as (f1 & S1). unfold r_triggerReload in E2. rewrite S1 in E2.
    destruct (triggerReload F f1 (f_of_d (r_rate r1))) as [f2| |]; try discriminate. cbn [bind] in E2.
    apply Ok_inj in E2. subst r2. eapply IH; [|exact E3]. reflexivity.
Qed.

Section S.
Variables (c : ccfg) (fl : file) (h : Z) (nch : nat).
Hypothesis C : cfg_ok c.
Hypothesis FS : fsize fl <= 2 ^ 31.

Let N := Z.of_nat (c_nbuf c).
Let first i := h + i * Z.of_nat nch.
Let fblk i := blk c (first i).

Variables (I : nat -> reader -> Prop) (idx : nat -> option Z).
Hypothesis WK : walk h nch I idx.
Hypothesis FWD : forall k r, I k r -> fle f0 (f_of_d (r_rate r)) = true.
Hypothesis INF : forall k i, idx k = Some i -> frame_file fl nch (first i).
Hypothesis MONO : forall k k' i i', (k <= k')%nat -> idx k = Some i -> idx k' = Some i' -> i <= i'.
Hypothesis DONE : forall k k', (k <= k')%nat -> idx k = None -> idx k' = None.

Let out : stream := fun k => option_map (file_frame fl h nch) (idx k).

(* ---- a property of the cache that fetches from block q on preserve ----------------- *)

Definition closed (P : ifile -> Prop) (q : Z) : Prop :=
  forall f i, P f -> in_file fl i -> q <= blk c i -> P (snd (if_get f i)).
Definition held (P : ifile -> Prop) (r : reader) : Prop := exists f, r_src r = SFile f /\ P f.

Lemma hold_rest : forall P q, closed P q -> forall todo r s ch, held P r -> frame_file fl nch s -> q <= blk c s ->
  (ch + todo <= nch)%nat ->
  exists vs f', fetch_frame todo s (Z.of_nat ch) r = Ok (vs, r <| r_src := SFile f' |>) /\ P f'.
Proof.
  intros P q CL. induction todo as [|todo IH]; intros r s ch (f & SF & HP) [F0 F1] B0 T.
  - exists [], f. rewrite <- SF, set_src_id. auto.
  - cbn [fetch_frame]. unfold getAt. rewrite Z.mul_0_l, Z.add_0_r.
    rewrite chk32_ok by (unfold in_s32; lia). cbn [bind]. rewrite chk32_ok by (unfold in_s32; lia). cbn [bind].
    unfold getSourceBufferValue. rewrite SF.
    assert (IN : in_file fl (s + Z.of_nat ch)) by (split; lia).
    assert (QI : q <= blk c (s + Z.of_nat ch)) by (pose proof (blk_mono c C s (s + Z.of_nat ch) ltac:(lia)); lia).
    pose proof (CL f _ HP IN QI) as HP1. destruct (if_get f (s + Z.of_nat ch)) as [v f1]. cbn [snd bind] in *.
    destruct (IH (r <| r_src := SFile f1 |>) s (S ch)) as (vs & f2 & E2 & HP2); [exists f1; auto|split; auto|auto|lia|].
    replace (Z.of_nat ch + 1) with (Z.of_nat (S ch)) by lia. rewrite E2. cbn [bind]. rewrite set_src_src. eauto.
Qed.

Lemma hold_frame : forall (P0 P : ifile -> Prop) r s, closed P (blk c s) -> (forall f, P0 f -> P (snd (if_get f s))) ->
  held P0 r -> (1 <= nch)%nat -> frame_file fl nch s ->
  exists vs f', fetch_frame nch s 0 r = Ok (vs, r <| r_src := SFile f' |>) /\ P f'.
Proof.
  intros P0 P r s CL H0 (f & SF & HP) N1 [F0 F1].
  enough (X : forall t, t = nch -> exists vs f', fetch_frame t s 0 r = Ok (vs, r <| r_src := SFile f' |>) /\ P f') by (apply X; reflexivity).
  intros [|n'] NE; [lia|]. cbn [fetch_frame].
  unfold getAt. rewrite Z.mul_0_l, Z.add_0_r.
  rewrite chk32_ok by (unfold in_s32; lia). cbn [bind]. rewrite chk32_ok by (unfold in_s32; lia). cbn [bind].
  unfold getSourceBufferValue. rewrite SF. rewrite Z.add_0_r.
  pose proof (H0 f HP) as HP1. destruct (if_get f s) as [v f1]. cbn [snd bind] in *.
  destruct (hold_rest P (blk c s) CL n' (r <| r_src := SFile f1 |>) s 1%nat) as (vs & f2 & E2 & HP2);
    [exists f1; auto|split; auto|lia|lia|].
  change (Z.of_nat 1) with (0 + 1) in E2. rewrite E2. cbn [bind]. rewrite set_src_src. eauto.
Qed.

Lemma hold_step : forall (P0 P : ifile -> Prop) k r i, closed P (fblk i) -> (forall f, P0 f -> P (snd (if_get f (first i)))) ->
  I k r -> held P0 r -> idx k = Some i ->
  exists F fr r', read_frame F r = Ok (Some fr, r') /\ I (S k) r' /\ held P r'.
Proof.
  intros P0 P k r i CL H0 HI (f & SF & HP) E. destruct WK as (N1 & IS & HW).
  destruct (HW k r HI) as [PL W']. rewrite E in W'. destruct W' as (n & r2 & r3 & SS & P2 & HP2 & AD & HI3).
  destruct (hold_frame P0 P r2 (first i) CL H0) as (vs & f' & EF & HF); auto.
  { exists f. split; [|exact HP]. rewrite (settles_keeps _ _ _ SS). exact SF. }
  { eapply INF; eauto. }
  exists (S n), vs, (r3 <| r_src := SFile f' |>). split; [|split].
  - rewrite (plain_frame h nch r r2 n) by (auto; apply PL).
    rewrite HP2. fold (first i). rewrite EF. cbn [bind]. rewrite advance_src, AD. cbn [bind]. reflexivity.
  - apply IS, HI3.
  - exists f'. auto.
Qed.

Lemma closed_later : forall P q q', closed P q -> q <= q' -> closed P q'.
Proof. intros P q q' CL L f i HP IN B. apply CL; auto. lia. Qed.

Lemma hold_update : forall P q, closed P q -> forall n k r, I k r -> held P r -> behind c h nch idx q k ->
  exists F fs r', read_loop F F r (Z.of_nat n) = Ok (fs, r') /\ I (k + length (pulls out k n))%nat r' /\ held P r'.
Proof.
  intros P q CL. induction n as [|n IH]; intros k r HI HP BH.
  - exists O, [], r. cbn. rewrite Nat.add_0_r. auto.
  - destruct (idx k) as [i|] eqn:E.
    + pose proof (BH k i (le_n k) E) as QI. fold (first i) in QI. fold (fblk i) in QI.
      destruct (hold_step P P k r i) as (F & fr & r1 & EF & HI1 & HP1); auto.
      { eapply closed_later; eauto. }
      { intros f HPf. apply CL; auto. pose proof (INF k i E) as [X1 X2]. destruct WK as (N1 & _). split; lia. }
      destruct (IH (S k) r1 HI1 HP1) as (F2 & fs & r2 & E2 & HI2 & HP2).
      { intros k' i' K. apply BH. lia. }
      assert (OK : out k = Some (file_frame fl h nch i)) by (unfold out; now rewrite E).
      exists (S (F + F2)), (fr :: fs), r2. cbn [read_loop pulls]. rewrite OK.
      destruct (Z.leb_spec (Z.of_nat (S n)) 0); [lia|].
      rewrite (read_frame_fuel F (S (F + F2)) r _ ltac:(lia) EF). cbn [bind].
      destruct WK as (N1 & _ & HW). destruct (HW k r HI) as [PL _].
      destruct (Z.eqb_spec (r_nch r) 0) as [Z0|]; [rewrite (pl_nch _ _ _ PL) in Z0; lia|].
      replace (Z.of_nat (S n) - 1) with (Z.of_nat n) by lia.
      rewrite (read_loop_fuel F2 (S (F + F2)) F2 (F + F2) r1 _ _ ltac:(lia) ltac:(lia) E2).
      cbn [bind length]. split; [reflexivity|].
      replace (k + S (length (pulls out (S k) n)))%nat with (S k + length (pulls out (S k) n))%nat by lia. auto.
    + destruct WK as (N1 & IS & HW). destruct (HW k r HI) as [PL W']. rewrite E in W'. destruct W' as (EN & L & HI2).
      assert (OK : out k = None) by (unfold out; now rewrite E).
      exists 1%nat, [], (r <| r_cfst := 0 |>). cbn [read_loop pulls]. rewrite OK.
      destruct (Z.leb_spec (Z.of_nat (S n)) 0); [lia|].
      rewrite (frame_end r 0); auto; try apply PL; [|rewrite (pl_nch _ _ _ PL); lia].
      cbn [bind length]. rewrite Nat.add_0_r. split; [reflexivity|]. split; [exact HI2|].
      destruct HP as (f & SF & HP). exists f. auto.
Qed.

Lemma hold_first : forall (P0 P : ifile -> Prop) n k r i, closed P (fblk i) -> (forall f, P0 f -> P (snd (if_get f (first i)))) ->
  I k r -> held P0 r -> idx k = Some i ->
  exists F fs r', read_loop F F r (Z.of_nat (S n)) = Ok (fs, r') /\ I (k + length (pulls out k (S n)))%nat r' /\ held P r'.
Proof.
  intros P0 P n k r i CL H0 HI HP E.
  destruct (hold_step P0 P k r i CL H0 HI HP E) as (F & fr & r1 & EF & HI1 & HP1).
  destruct (hold_update P (fblk i) CL n (S k) r1 HI1 HP1) as (F2 & fs & r2 & E2 & HI2 & HP2).
  { intros k' i' K E'. apply blk_mono; [exact C|]. pose proof (MONO k k' i i' ltac:(lia) E E'). unfold first. nia. }
  assert (OK : out k = Some (file_frame fl h nch i)) by (unfold out; now rewrite E).
  exists (S (F + F2)), (fr :: fs), r2. cbn [read_loop pulls]. rewrite OK.
  destruct (Z.leb_spec (Z.of_nat (S n)) 0); [lia|].
  rewrite (read_frame_fuel F (S (F + F2)) r _ ltac:(lia) EF). cbn [bind].
  destruct WK as (N1 & _ & HW). destruct (HW k r HI) as [PL _].
  destruct (Z.eqb_spec (r_nch r) 0) as [Z0|]; [rewrite (pl_nch _ _ _ PL) in Z0; lia|].
  replace (Z.of_nat (S n) - 1) with (Z.of_nat n) by lia.
  rewrite (read_loop_fuel F2 (S (F + F2)) F2 (F + F2) r1 _ _ ltac:(lia) ltac:(lia) E2).
  cbn [bind length]. split; [reflexivity|].
  replace (k + S (length (pulls out (S k) n)))%nat with (S k + length (pulls out (S k) n))%nat by lia. auto.
Qed.

(* ---- one serviced update ---------------------------------------------------------- *)

(* The buffers hold m blocks from J on and have no marks; any number of misses so far *)
Definition late (J : Z) (m : nat) (r : reader) : Prop :=
  exists v f, r_src r = SFile (bump_file v f) /\ win c fl J m f /\ win_ok c fl J m /\ marks None f.

Lemma late_quiet : forall J m r k, late J m r -> behind c h nch idx J k -> quiet c fl h nch idx AtEnd k r.
Proof.
  intros J m r k (v & f & SF & W & (M & J0 & J1 & CV) & MK) BH. exists J. split; [|exact BH].
  exists (bump_file v f). split; [exact SF|]. destruct W as [W1 W2 W3 W4 W5 W6 W7].
  split; [repeat split; auto|]. split; [exact W3|]. split; [cbn; lia|]. split; [exact J1|]. exists J. split; [lia|].
  split; [exact W7|]. apply Forall_forall. intros b IB _. apply In_nth_error in IB. destruct IB as (t & NB).
  pose proof (MK t b NB) as S. cbn in S. rewrite S. discriminate.
Qed.

Lemma late_reload : forall k r v f J m l1 l2, I k r -> r_src r = SFile (bump_file v f) -> win c fl J m f -> win_ok c fl J m ->
  i_bufs f = l1 ++ l2 -> Forall (fun b => b_status b = StUnused) l1 -> fresh l2 -> (J + Z.of_nat (length l1)) * BS c < 2 ^ 30 ->
  exists F r', (forall extra, r_triggerReload (F + extra) r = Ok r') /\ I k r' /\ late (J + Z.of_nat (length l1)) m r' /\ misses r' = misses r.
Proof.
  intros k r v f J m l1 l2 HI SF W WO E U FR B.
  destruct (win_reload_any c fl C FS (f_of_d (r_rate r)) l1 l2 J m f (FWD k r HI) W WO E U FR B) as (F & f' & ER & W' & WO' & MK').
  assert (RB : r = bump v (r <| r_src := SFile f |>)).
  { change (bump v (r <| r_src := SFile f |>)) with (r <| r_src := SFile (bump_file v f) |>). rewrite <- SF. symmetry. apply set_src_id. }
  exists F, (bump v (r <| r_src := SFile f' |>)). split; [|split; [|split]].
  - intros extra. rewrite RB at 1. rewrite bump_reload. unfold r_triggerReload.
    change (r_src (r <| r_src := SFile f |>)) with (SFile f). cbn [lift1].
    change (r_rate (r <| r_src := SFile f |>)) with (r_rate r). rewrite ER. reflexivity.
  - destruct WK as (_ & IS & _). exact (IS k r (SFile (bump_file v f')) HI).
  - exists v, f'. auto.
  - unfold misses. rewrite SF. cbn. rewrite (wi_fails _ _ _ _ _ W), (wi_fails _ _ _ _ _ W'). reflexivity.
Qed.

Lemma late_update : forall n J m k r i, I k r -> late J m r -> idx k = Some i -> J <= fblk i ->
  exists F fs r1 F2 r2, read_loop F F r (Z.of_nat (S n)) = Ok (fs, r1) /\ (forall extra, r_triggerReload (F2 + extra) r1 = Ok r2) /\
    misses r2 = misses r1 /\ I (k + length (pulls out k (S n)))%nat r2 /\ late (Z.min (fblk i) (J + Z.of_nat m)) m r2.
Proof.
  intros n J m k r i HI (v & f & SF & W & WO & MK) E JI.
  assert (IN : in_file fl (first i)).
  { pose proof (INF k i E) as [X1 X2]. destruct WK as (N1 & _). split; lia. }
  destruct (file_blk c fl C FS _ IN) as (_ & _ & BB). fold (fblk i) in BB.
  pose proof (BS_pos _ C) as HB.
  destruct (Z.lt_ge_cases (fblk i) (J + Z.of_nat m)) as [L|L].
  - set (a := Z.to_nat (fblk i - J)). assert (AZ : J + Z.of_nat a = fblk i) by (unfold a; lia).
    set (P := fun g => exists w f1, g = bump_file w f1 /\ win c fl J m f1 /\ marks (Some a) f1).
    assert (CL : closed P (fblk i)).
    { intros g j (w & f1 & -> & W1 & M1) INj Bj. destruct (get_after c fl C FS J m a f1 j W1 WO M1 INj ltac:(lia)) as (x & w' & f2 & EG & W2 & M2).
      rewrite bump_get, EG. cbn [snd]. exists (w' + w), f2. rewrite bump_file_bump. auto. }
    assert (H0 : forall g, g = bump_file v f -> P (snd (if_get g (first i)))).
    { intros g ->. destruct (win_get c fl J m f (first i) None C FS W WO MK IN) as (f2 & EG & W2 & M2); auto.
      { destruct WO as (M & _). unfold fblk in *. lia. }
      rewrite bump_get, EG. cbn [snd]. exists v, f2. auto. }
    destruct (hold_first (fun g => g = bump_file v f) P n k r i CL H0 HI ltac:(exists (bump_file v f); auto) E)
      as (F & fs & r1 & ER & HI1 & (g & SG & w & f1 & -> & W1 & M1)).
    assert (SPL : exists l1 l2, i_bufs f1 = l1 ++ l2 /\ Forall (fun b => b_status b = StUnused) l1 /\ fresh l2 /\ length l1 = a).
    { exists (firstn a (i_bufs f1)), (skipn a (i_bufs f1)). split; [symmetry; apply firstn_skipn|].
      assert (AM : (a < length (i_bufs f1))%nat) by (rewrite (wi_len _ _ _ _ _ W1); lia).
      split; [|split; [|apply firstn_length_le; lia]].
      - apply Forall_forall. intros b IB. apply In_nth_error in IB. destruct IB as (t & NB).
        assert (T : (t < a)%nat).
        { assert (t < length (firstn a (i_bufs f1)))%nat by (apply nth_error_Some; congruence). rewrite firstn_length in H. lia. }
        assert (NB' : nth_error (i_bufs f1) t = Some b).
        { rewrite <- (firstn_skipn a (i_bufs f1)). rewrite nth_error_app1; auto. rewrite firstn_length. lia. }
        apply (M1 t b NB'). exact T.
      - destruct (skipn a (i_bufs f1)) as [|b l] eqn:SK; [exact Logic.I|]. cbn.
        assert (NB : nth_error (i_bufs f1) a = Some b).
        { rewrite <- (firstn_skipn a (i_bufs f1)), SK. rewrite nth_error_app2 by (rewrite firstn_length; lia).
          rewrite firstn_length. replace (a - Nat.min a (length (i_bufs f1)))%nat with O by lia. reflexivity. }
        rewrite (proj2 (M1 a b NB) eq_refl). discriminate. }
    destruct SPL as (l1 & l2 & EL & U & FR & LL).
    destruct (late_reload _ r1 w f1 J m l1 l2 HI1 SG W1 WO EL U FR ltac:(rewrite LL, AZ; exact BB)) as (F2 & r2 & ER2 & HI2 & LT & MS).
    exists F, fs, r1, F2, r2. split; [exact ER|]. split; [exact ER2|]. split; [exact MS|]. split; [exact HI2|].
    rewrite LL, AZ in LT. rewrite Z.min_l by lia. exact LT.
  - set (P := fun g => exists w f1, g = bump_file w f1 /\ win c fl J m f1 /\ gone f1).
    assert (ST : forall g1 w j, (marks None g1 \/ gone g1) -> win c fl J m g1 -> in_file fl j -> fblk i <= blk c j -> P (snd (if_get (bump_file w g1) j))).
    { intros g1 w j MG W1 INj Bj. destruct (get_gone c fl C FS J m g1 j W1 INj ltac:(lia) MG) as (x & f2 & EG & W2 & M2).
      rewrite bump_get, EG. cbn [snd]. exists (1 + w), f2. rewrite bump_file_bump. auto. }
    assert (CL : closed P (fblk i)) by (intros g j (w & f1 & -> & W1 & M1) INj Bj; apply ST; auto).
    assert (H0 : forall g, g = bump_file v f -> P (snd (if_get g (first i)))) by (intros g ->; apply ST; auto; unfold fblk; lia).
    destruct (hold_first (fun g => g = bump_file v f) P n k r i CL H0 HI ltac:(exists (bump_file v f); auto) E)
      as (F & fs & r1 & ER & HI1 & (g & SG & w & f1 & -> & W1 & M1)).
    assert (LL : length (i_bufs f1) = m) by apply W1.
    destruct (late_reload _ r1 w f1 J m (i_bufs f1) [] HI1 SG W1 WO (eq_sym (app_nil_r _)) M1 Logic.I) as (F2 & r2 & ER2 & HI2 & LT & MS).
    { rewrite LL. nia. }
    exists F, fs, r1, F2, r2. split; [exact ER|]. split; [exact ER2|]. split; [exact MS|]. split; [exact HI2|].
    rewrite LL in LT. rewrite Z.min_r by lia. exact LT.
Qed.

(* ---- catching up -------------------------------------------------------------------- *)

Variable B : nat.
Hypothesis ADV : forall k n i i', (n <= B)%nat -> idx k = Some i -> idx (k + n)%nat = Some i' -> fblk i' <= fblk i + N - 1.

(* The next frame is at most L blocks beyond the window *)
Definition lags (L : nat) (J : Z) (m k : nat) : Prop := forall i, idx k = Some i -> fblk i <= J + Z.of_nat m - 1 + Z.of_nat L.

Lemma late_one : forall L n J m k r, I k r -> late J m r -> behind c h nch idx J k -> lags L J m k -> (1 <= n <= B)%nat ->
  exists F fs r1 F2 r2 J', let k' := (k + length (pulls out k n))%nat in
    r_read F r (Z.of_nat n) = Ok (fs, r1) /\ (forall extra, r_triggerReload (F2 + extra) r1 = Ok r2) /\
    block_gaps (misses r2 - misses r) (pulls out k n) fs /\ I k' r2 /\ late J' m r2 /\ behind c h nch idx J' k' /\ lags (Nat.pred L) J' m k' /\
    (L = O -> idx k' = None \/ exists i0, idx k = Some i0 /\ J' = fblk i0).
Proof.
  intros L n J m k r HI LT BH LG NB.
  destruct (race_update c fl h nch C FS I idx WK INF MONO n AtEnd k r HI (late_quiet J m r k LT BH)) as (F0 & fs & r1 & E & HI1 & Q1 & G).
  assert (RD : forall F fs' r', read_loop F F r (Z.of_nat n) = Ok (fs', r') -> r_read F r (Z.of_nat n) = Ok (fs', r')).
  { intros F fs' r' X. destruct WK as (N1 & _ & HW). destruct (HW k r HI) as [PL _].
    unfold r_read. rewrite (pl_playing _ _ _ PL). cbn [negb]. rewrite (pl_nch _ _ _ PL).
    destruct (Z.ltb_spec (Z.of_nat nch) 0); [lia|]. exact X. }
  destruct n as [|n]; [lia|].
  destruct (idx k) as [i|] eqn:EI.
  - pose proof (BH k i (le_n k) EI) as JI. fold (first i) in JI. fold (fblk i) in JI.
    destruct (late_update n J m k r i HI LT EI JI) as (F & fs' & r1' & F2 & r2 & ER & ER2 & MS & HI2 & LT2).
    assert (EQ : (fs', r1') = (fs, r1)).
    { apply Ok_inj. rewrite <- (read_loop_fuel F (F + F0) F (F + F0) _ _ _ ltac:(lia) ltac:(lia) ER).
      apply (read_loop_fuel F0 (F + F0) F0 (F + F0)); [lia|lia|exact E]. }
    injection EQ as -> ->.
    exists F, fs, r1, F2, r2, (Z.min (fblk i) (J + Z.of_nat m)). cbv zeta.
    split; [apply RD; exact ER|]. split; [exact ER2|]. split; [rewrite MS; exact G|]. split; [exact HI2|]. split; [exact LT2|].
    assert (PL : (length (pulls out k (S n)) <= S n)%nat) by apply pulls_length.
    split; [|split].
    + intros k' i' K E'. fold (first i'). fold (fblk i'). pose proof (MONO k k' i i' ltac:(lia) EI E') as MI.
      assert (fblk i <= fblk i') by (apply blk_mono; [exact C|unfold first; nia]). lia.
    + intros i' E'. pose proof (ADV k _ i i' (Nat.le_trans _ _ _ PL (proj2 NB)) EI E') as AD. pose proof (LG i EI) as LI.
      assert (IN : in_file fl (first i)).
      { pose proof (INF k i EI) as [X1 X2]. destruct WK as (N1 & _). split; lia. }
      assert (IN' : in_file fl (first i')).
      { pose proof (INF _ i' E') as [X1 X2]. destruct WK as (N1 & _). split; lia. }
      destruct LT2 as (_ & _ & _ & _ & WO2 & _).
      destruct LT as (_ & _ & _ & _ & WO & _).
      destruct (Z.lt_ge_cases (fblk i) (J + Z.of_nat m)) as [LL|LL].
      * rewrite Z.min_l in WO2 |- * by lia.
        assert (fblk i <= fblk i').
        { pose proof (MONO k _ i i' (Nat.le_add_r _ _) EI E'). apply blk_mono; [exact C|unfold first; nia]. }
        pose proof (cover c fl C FS (fblk i) m (first i') WO2 IN') as CV. unfold fblk in *. unfold N in AD. lia.
      * rewrite Z.min_r in * by lia.
        assert (MN : Z.of_nat m = N).
        { destruct WO as (MM & _ & _ & CV). destruct CV as [->|CV]; [reflexivity|]. exfalso.
          destruct (file_blk c fl C FS _ IN) as (_ & X & _). fold (fblk i) in X. pose proof (BS_pos _ C). nia. }
        destruct L as [|L]; [lia|]. cbn [Nat.pred]. unfold fblk in *. lia.
    + intros ->. right. exists i. split; [reflexivity|]. pose proof (LG i EI). cbn [Z.of_nat] in *. rewrite Z.min_l; lia.
  - assert (OK : out k = None) by (unfold out; now rewrite EI).
    assert (PU : pulls out k (S n) = []) by (cbn [pulls]; now rewrite OK).
    change (block_gaps (misses r1 - misses r) (pulls out k (S n)) fs) in G.
    rewrite PU in *. cbn [length] in *. rewrite Nat.add_0_r in *.
    destruct WK as (N1 & IS & HW). destruct (HW k r HI) as [PL W']. rewrite EI in W'. destruct W' as (EN & LE & HI2).
    assert (ER : read_loop 1 1 r (Z.of_nat (S n)) = Ok ([], r <| r_cfst := 0 |>)).
    { cbn [read_loop]. destruct (Z.leb_spec (Z.of_nat (S n)) 0); [lia|].
      rewrite (frame_end r 0); auto; try apply PL. rewrite (pl_nch _ _ _ PL); lia. }
    assert (EQ : ([], r <| r_cfst := 0 |>) = (fs, r1)).
    { apply Ok_inj. rewrite <- (read_loop_fuel 1 (1 + F0) 1 (1 + F0) _ _ _ ltac:(lia) ltac:(lia) ER).
      apply (read_loop_fuel F0 (1 + F0) F0 (1 + F0)); [lia|lia|exact E]. }
    injection EQ as <- <-.
    destruct LT as (v & f & SF & W & WO & MK).
    assert (FR : fresh (i_bufs f)).
    { destruct (i_bufs f) as [|b l] eqn:EB; [exact Logic.I|]. cbn. pose proof (MK O b) as X. rewrite EB in X. rewrite (X eq_refl). discriminate. }
    destruct (late_reload k (r <| r_cfst := 0 |>) v f J m [] (i_bufs f) HI2 SF W WO eq_refl (Forall_nil _) FR) as (F2 & r2 & ER2 & HI3 & LT & MS).
    { cbn. rewrite Z.add_0_r. apply WO. }
    cbn [length Z.of_nat] in LT. rewrite Z.add_0_r in LT.
    exists 1%nat, [], (r <| r_cfst := 0 |>), F2, r2, J.
    split; [apply RD; exact ER|]. split; [exact ER2|]. split; [rewrite MS; exact G|]. split; [exact HI3|]. split; [exact LT|]. split; [exact BH|].
    split; [intros i X; congruence|]. intros _. left. exact EI.
Qed.

Lemma catch_up : forall L J m k r ns, I k r -> late J m r -> behind c h nch idx J k -> lags L J m k -> length ns = S L ->
  Forall (fun n => (1 <= n <= B)%nat) ns ->
  exists F bs r' J' k0, let k' := (k + length (concat (blocks_spec out k ns)))%nat in
    serviced F r ns = Ok (bs, r') /\ session_gaps (misses r' - misses r) (blocks_spec out k ns) bs /\ I k' r' /\ late J' m r' /\
    (idx k' = None \/ exists i0, idx k0 = Some i0 /\ J' = fblk i0 /\ (k0 <= k' <= k0 + B)%nat).
Proof.
  assert (MRG : forall F fs r1 F2 r2 F3 ns bs r3 r n, r_read F r (Z.of_nat n) = Ok (fs, r1) -> (forall extra, r_triggerReload (F2 + extra) r1 = Ok r2) ->
    serviced F3 r2 ns = Ok (bs, r3) -> serviced (F + (F2 + F3)) r (n :: ns) = Ok (fs :: bs, r3)).
  { intros F fs r1 F2 r2 F3 ns bs r3 r n E1 E2 E3. cbn [serviced]. rewrite (r_read_fuel F (F + (F2 + F3)) _ _ _ ltac:(lia) E1). cbn [bind].
    replace (F + (F2 + F3))%nat with (F2 + (F + F3))%nat by lia. rewrite E2. cbn [bind].
    rewrite (serviced_fuel ns F3 (F2 + (F + F3))%nat r2 (bs, r3)); [reflexivity|lia|exact E3|].
    intros a b X. eapply (r_reload_fuel c); [|exact X]. lia. }
  induction L as [|L IH]; intros J m k r ns HI LT BH LG LN FN; destruct ns as [|n ns]; try discriminate.
  - destruct ns; [|discriminate]. apply Forall_cons_iff in FN. destruct FN as [NB _].
    destruct (late_one 0 n J m k r HI LT BH LG NB) as (F & fs & r1 & F2 & r2 & J' & E1 & E2 & G & HI2 & LT2 & _ & _ & T).
    exists (F + (F2 + 0))%nat, [fs], r2, J', k. cbn [blocks_spec concat]. rewrite app_nil_r.
    split; [eapply MRG; eauto; reflexivity|]. split; [rewrite <- (Z.add_0_r (misses r2 - misses r)); constructor; [exact G|constructor]|].
    split; [exact HI2|]. split; [exact LT2|].
    destruct (T eq_refl) as [T1|(i0 & T1 & T2)]; [left; exact T1|right; exists i0]. split; [exact T1|]. split; [exact T2|].
    pose proof (pulls_length out n k). lia.
  - apply Forall_cons_iff in FN. destruct FN as [NB FN].
    destruct (late_one (S L) n J m k r HI LT BH LG NB) as (F & fs & r1 & F2 & r2 & J1 & E1 & E2 & G & HI2 & LT2 & BH2 & LG2 & _).
    destruct (IH J1 m _ r2 ns HI2 LT2 BH2 LG2 ltac:(cbn [length] in LN; lia) FN) as (F3 & bs & r3 & J' & k0 & E3 & G3 & HI3 & LT3 & T).
    exists (F + (F2 + F3))%nat, (fs :: bs), r3, J', k0. cbn [blocks_spec concat]. rewrite app_length, (Nat.add_assoc k).
    split; [eapply MRG; eauto|]. split; [|auto].
    replace (misses r3 - misses r) with (misses r2 - misses r + (misses r3 - misses r2)) by lia. constructor; auto.
Qed.

Lemma done_sched : forall ns J k, idx k = None -> sched c fl h nch idx J k ns.
Proof.
  induction ns as [|n ns IH]; intros J k E; cbn [sched]; [exact Logic.I|]. split.
  - intros k' i K E'. rewrite (DONE k k' ltac:(lia) E) in E'. discriminate.
  - assert (PE : pulls (fun k => option_map (file_frame fl h nch) (idx k)) k n = []) by (destruct n; cbn [pulls]; [|rewrite E]; reflexivity).
    rewrite PE. cbn [length]. rewrite Nat.add_0_r. now apply IH.
Qed.

(* From a state that has caught up nothing more is missed *)
Lemma caught_up : forall J m k r, I k r -> late J m r ->
  (forall ns, Forall (fun n => (n <= B)%nat) ns -> sched c fl h nch idx J k ns) -> file_delivers B r (fun t => out (k + t)%nat).
Proof.
  intros J m k r HI (v & f & SF & W & WO & MK) SC ns FN.
  assert (RB : r = bump v (r <| r_src := SFile f |>)).
  { change (bump v (r <| r_src := SFile f |>)) with (r <| r_src := SFile (bump_file v f) |>). rewrite <- SF. symmetry. apply set_src_id. }
  destruct (file_session c fl h nch C FS I idx WK FWD ns J m k (r <| r_src := SFile f |>)) as (F & r' & E & M & _); auto.
  { destruct WK as (_ & IS & _). auto. }
  { exists f. split; [reflexivity|]. auto. }
  exists F, (bump v r'). rewrite RB at 1. rewrite bump_serviced, E. cbn [lift]. split.
  - rewrite <- blocks_shift, Nat.add_0_r. reflexivity.
  - assert (SX : r_src (r <| r_src := SFile f |>) = SFile f) by reflexivity.
    destruct (serviced_src ns F (r <| r_src := SFile f |>) _ r' f SX E) as (f' & SF').
    rewrite (bump_misses v r' f' SF'), M. unfold misses. rewrite SF. cbn. rewrite (wi_fails _ _ _ _ _ W). lia.
Qed.
End S.
