(* The window of buffered blocks during reverse playback without loop. *)

From Coq Require Import ZArith Lia List Bool.
From RecordUpdate Require Import RecordUpdate.
From Flocq Require Import Core.Core IEEE754.BinarySingleNaN.
From Verif Require Import Machine Floats WavModel CacheModel CacheFacts CacheSpec CacheProofs WindowProofs LoopWindow PongWindow.
Import ListNotations.
Local Open Scope Z_scope.

(* The first s buffers hold the blocks e, e-1, ... in this order; what follows, if
   anything, are blocks above e (or numbers of no block), and then the s blocks
   reach the start of the file *)
Record rwin (c : ccfg) (fl : file) (e : Z) (s : nat) (f : ifile) : Prop := mkRwin {
  rw_cfg : i_cfg f = c;
  rw_file : i_file f = fl;
  rw_loop : i_loop f = LNone;
  rw_fails : i_fails f = 0;
  rw_len : (s <= length (i_bufs f) <= c_nbuf c)%nat;
  rw_holds : Forall (holds c fl) (i_bufs f);
  rw_run : forall t b, nth_error (i_bufs f) t = Some b -> (t < s)%nat -> b_index b = e - Z.of_nat t /\ 0 < b_size b;
  rw_rest : forall t b, nth_error (i_bufs f) t = Some b -> (s <= t)%nat -> e < b_index b;
  rw_low : 0 <= e - Z.of_nat s + 1;
  rw_all : s = length (i_bufs f) \/ e - Z.of_nat s + 1 = 0;
  rw_top : 2 * (e * BS c) < fsize fl }.

(* All blocks down to the start of the file, or all buffers *)
Definition rfull (c : ccfg) (e : Z) (s : nat) : Prop := (1 <= s)%nat /\ (s = c_nbuf c \/ e - Z.of_nat s + 1 = 0).

Lemma rwin_get : forall c fl e s f i o p, cfg_ok c -> fsize fl <= 2 ^ 31 -> rwin c fl e s f ->
  marks o f -> in_file fl i -> (p < s)%nat -> e - Z.of_nat p = blk c i ->
  exists f', if_get f i = (file_sample fl i, f') /\ rwin c fl e s f' /\ marks (Some (first_use o p)) f'.
Proof.
  intros c fl e s f i o A C FS W MK IN AM AQ.
  pose proof W as [W1 W2 W3 W4 W5 W6 W7 W8 W9 W10 W11].
  pose proof (BS_pos _ C) as HB. pose proof (blk_mod c i C) as BM. pose proof (mod_BS c i C) as MB.
  destruct IN as [I0 I1].
  destruct (nth_at (i_bufs f) A ltac:(lia)) as (b & N).
  destruct (W7 A b N AM) as [IX SP].
  assert (U : u32 (blk c i) = blk c i).
  { apply u32_id. unfold in_u32. pose proof (blk_nonneg c i C I0). nia. }
  assert (BI2 : b_index b = blk c i) by lia.
  destruct (find_at (u32 (blk c i)) (i_bufs f) A b N) as (l1 & EF & HT); [congruence|auto| |].
  { intros t b' T NT. destruct (W7 t b' NT ltac:(lia)) as [Y _]. rewrite U, Y. lia. }
  unfold if_get. rewrite W1, EF, HT, N. cbn [option_map]. rewrite Nat.ltb_irrefl.
  eexists. split.
  { f_equal. rewrite Forall_forall in W6. apply nth_error_In in N. apply (W6 b N); [split; auto|congruence]. }
  assert (NT : forall t, nth_error (list_upd A (fun b => b <| b_status := StRead |>) l1) t =
     option_map (fun b => if Nat.eqb t A then b <| b_status := StRead |> else if Nat.ltb t A then mark b else b) (nth_error (i_bufs f) t)).
  { intros t. rewrite nth_upd, HT. destruct (nth_error (i_bufs f) t) as [x|]; cbn [option_map]; [|reflexivity].
    destruct (Nat.eqb_spec t A); [subst; rewrite Nat.ltb_irrefl; reflexivity|reflexivity]. }
  assert (LL : length (list_upd A (fun b => b <| b_status := StRead |>) l1) = length (i_bufs f)).
  { rewrite list_upd_length. pose proof (find_stored _ _ _ _ EF) as ST. now rewrite (stored_length _ _ ST). }
  assert (ST : forall t x, nth_error (list_upd A (fun b => b <| b_status := StRead |>) l1) t = Some x ->
     exists y, nth_error (i_bufs f) t = Some y /\ b_index x = b_index y /\ b_size x = b_size y).
  { intros t x NX. rewrite NT in NX. destruct (nth_error (i_bufs f) t) as [y|] eqn:NY; [|discriminate].
    cbn [option_map] in NX. apply Some_inj in NX. subst x. exists y. split; [auto|].
    destruct (Nat.eqb t A); [cbn; auto|]. destruct (Nat.ltb t A); [|auto]. apply mark_stored. }
  split.
  - constructor; try assumption.
    + cbn. now rewrite LL.
    + cbn. eapply Forall_stored; [|exact W6]. rewrite list_upd_stored. eapply find_stored; eauto.
    + cbn. intros t x NX T. destruct (ST t x NX) as (y & NY & Y1 & Y2). rewrite Y1, Y2. now apply W7.
    + cbn. intros t x NX T. destruct (ST t x NX) as (y & NY & Y1 & Y2). rewrite Y1. now apply (W8 t).
    + cbn. now rewrite LL.
  - intros t x NX. cbn in NX. rewrite NT in NX. destruct (nth_error (i_bufs f) t) as [y|] eqn:NY; [|discriminate].
    cbn [option_map] in NX. apply Some_inj in NX. subst x. pose proof (MK t y NY) as MY.
    unfold first_use. destruct o as [u|].
    + destruct MY as [M1 M2]. split; intro T.
      * destruct (Nat.eqb_spec t A); [lia|]. destruct (Nat.ltb_spec t A); [|lia].
        unfold mark. rewrite (M1 ltac:(lia)). reflexivity.
      * destruct (Nat.eqb_spec t A); [reflexivity|]. assert (TA : t = u) by lia. destruct (Nat.ltb_spec t A); [|lia].
        unfold mark. rewrite (M2 TA). cbn. auto.
    + split; intro T.
      * destruct (Nat.eqb_spec t A); [lia|]. destruct (Nat.ltb_spec t A); [|lia].
        unfold mark. rewrite MY. reflexivity.
      * destruct (Nat.eqb_spec t A); [reflexivity|lia].
Qed.

Lemma rwin_min : forall c fl e s f b0 rest, (1 <= s)%nat -> rwin c fl e s f -> i_bufs f = b0 :: rest ->
  min_index (b_index b0) (i_bufs f) = e - Z.of_nat s + 1.
Proof.
  intros c fl e s f b0 rest S1 W EB. pose proof W as [_ _ _ _ W5 _ W7 W8 _ _ _].
  destruct (min_index_le (i_bufs f) (b_index b0)) as [_ L]. set (mn := min_index (b_index b0) (i_bufs f)) in *.
  destruct (nth_at (i_bufs f) (s - 1) ltac:(lia)) as (bl & NL). destruct (W7 _ _ NL ltac:(lia)) as [YL _].
  pose proof (L _ (nth_error_In _ _ NL)) as LL.
  assert (R : forall b, In b (i_bufs f) -> e - Z.of_nat s + 1 <= b_index b).
  { intros b IN. apply In_nth_error in IN. destruct IN as (t & NT).
    destruct (Nat.lt_ge_cases t s); [destruct (W7 t b NT); auto; lia|pose proof (W8 t b NT); lia]. }
  assert (e - Z.of_nat s + 1 <= mn).
  { destruct (min_index_in (i_bufs f) (b_index b0)) as [H|(b & IN & H)]; fold mn in H; rewrite H; apply R; auto.
    rewrite EB. now left. }
  lia.
Qed.

Lemma rwin_step : forall c fl e s f x b0 rest, cfg_ok c -> fsize fl <= 2 ^ 31 -> rwin c fl e s f -> rfull c e s ->
  fle f0 x = false -> i_bufs f = b0 :: rest -> b_status b0 = StUnused -> (2 <= s)%nat ->
  exists f' s', reload_step f x = Ok (Some (true, f')) /\ rwin c fl (e - 1) s' f' /\ rfull c (e - 1) s' /\ (s <= S s')%nat /\
    (forall a, (S a < s)%nat -> marks (Some (S a)) f -> marks (Some a) f').
Proof.
  intros c fl e s f x b0 rest C FS W [RF1 RF2] X BF U S2.
  pose proof W as [W1 W2 W3 W4 W5 W6 W7 W8 W9 W10 W11].
  pose proof (BS_pos _ C) as HB. assert (MN : (c_nbuf c <= 64)%nat) by apply C.
  assert (E0 : 1 <= e) by lia. assert (EB : e * BS c < 2 ^ 30) by lia. assert (EU : e < 2 ^ 30) by nia.
  assert (TOP : 2 * ((e - 1) * BS c) < fsize fl) by nia.
  unfold reload_step. rewrite BF, U. cbn [is_unused negb]. unfold reload_decide. rewrite X, W3.
  rewrite (rwin_min c fl e s f b0 rest ltac:(lia) W BF). cbn [bind].
  rewrite s32_u32. replace (e - Z.of_nat s + 1 - 1) with (e - Z.of_nat s) by lia.
  rewrite (s32_id (e - Z.of_nat s)) by (unfold in_s32; lia). rewrite W1.
  assert (LR : length rest = (length (i_bufs f) - 1)%nat) by (rewrite BF; cbn; lia).
  assert (L1 : (1 <= length (i_bufs f))%nat) by lia.
  assert (NT : forall b' t b, nth_error (rest ++ [b']) t = Some b ->
     (t < length rest)%nat /\ nth_error (i_bufs f) (S t) = Some b \/ t = length rest /\ b = b').
  { intros b' t b N. rewrite BF. cbn [nth_error]. destruct (Nat.lt_ge_cases t (length rest)).
    - rewrite nth_error_app1 in N by auto. left. split; [lia|auto].
    - rewrite nth_error_app2 in N by auto. right. destruct (t - length rest)%nat eqn:D; [|destruct n; discriminate].
      cbn in N. inversion N. split; [lia|auto]. }
  destruct (Z.ltb_spec (e - Z.of_nat s) 0) as [NEG|POS]; cbn [negb].
  - (* nothing left to load *)
    exists (f <| i_bufs := rest ++ [b0] |>), (s - 1)%nat. split; [f_equal; f_equal; f_equal; destruct f; reflexivity|].
    assert (I0 : b_index b0 = e) by (destruct (W7 O b0) as [Y _]; [now rewrite BF|lia|lia]).
    split; [|split; [|split]].
    + constructor; try assumption; cbn.
      * rewrite app_length. cbn. lia.
      * apply Forall_app. rewrite BF in W6. inversion W6; subst. auto.
      * intros t b N T. destruct (NT b0 t b N) as [[T2 N2]|[-> ->]].
        -- destruct (W7 _ _ N2 ltac:(lia)) as [Y1 Y2]. split; [lia|auto].
        -- lia.
      * intros t b N T. destruct (NT b0 t b N) as [[T2 N2]|[-> ->]]; [|lia].
        pose proof (W8 _ _ N2 ltac:(lia)). lia.
      * lia.
      * right. lia.
    + unfold rfull. lia.
    + lia.
    + intros a AM MK t b N. cbn in N. destruct (NT b0 t b N) as [[T N2]|[-> ->]].
      * destruct (MK _ _ N2) as [M1 M2]. split; intro Q; [apply M1; lia|apply M2; lia].
      * split; intro Q; lia.
  - (* the next block below *)
    destruct RF2 as [RF2|RF2]; [|lia].
    assert (QB : 0 <= (e - Z.of_nat s) * BS c < 2 ^ 30) by nia.
    rewrite (s32_id ((e - Z.of_nat s) * BS c)) by (unfold in_s32; lia).
    destruct (loadBuffer f b0 ((e - Z.of_nat s) * BS c)) as [[b' p] n] eqn:LD.
    exists (f <| i_bufs := rest ++ [b'] |> <| i_pos := p |>), s. split; [f_equal; f_equal; f_equal; destruct f; reflexivity|].
    rewrite <- W1 in LD.
    assert (CF : cfg_ok (i_cfg f)) by (rewrite W1; auto).
    assert (FF : fsize (i_file f) <= 2 ^ 31) by (rewrite W2; auto).
    assert (JF : (e - Z.of_nat s) * BS (i_cfg f) < 2 ^ 31) by (rewrite W1; lia).
    destruct (load_block f b0 (e - Z.of_nat s) b' p n CF FF ltac:(lia) JF LD) as (K1 & K2 & K3 & K4).
    rewrite W1, W2 in K3.
    assert (LH : holds c fl b').
    { rewrite <- W1, <- W2. apply (load_holds f b0 ((e - Z.of_nat s) * BS (i_cfg f)) b' p n CF FF); [|exact LD].
      rewrite W1. unfold in_s32. lia. }
    assert (LS : length (i_bufs f) = s) by lia.
    split; [|split; [|split]].
    + constructor; try assumption; cbn.
      * rewrite app_length. cbn. lia.
      * apply Forall_app. rewrite BF in W6. inversion W6; subst. auto.
      * intros t b N T. destruct (NT b' t b N) as [[T2 N2]|[-> ->]].
        -- destruct (W7 _ _ N2 ltac:(lia)) as [Y1 Y2]. split; [lia|auto].
        -- rewrite K1. split; [lia|]. apply K3. nia.
      * intros t b N T. destruct (NT b' t b N) as [[T2 N2]|[-> ->]]; lia.
      * lia.
      * left. rewrite app_length. cbn. lia.
    + unfold rfull. lia.
    + lia.
    + intros a AM MK t b N. cbn in N. destruct (NT b' t b N) as [[T N2]|[-> ->]].
      * destruct (MK _ _ N2) as [M1 M2]. split; intro Q; [apply M1; lia|apply M2; lia].
      * split; intro Q; lia.
Qed.

Lemma rwin_loop : forall c fl x, cfg_ok c -> fsize fl <= 2 ^ 31 -> fle f0 x = false ->
  forall a e s f, rwin c fl e s f -> rfull c e s -> marks (Some a) f -> (a < s)%nat ->
  exists f' s', reload_loop (S a) f x = Ok f' /\ rwin c fl (e - Z.of_nat a) s' f' /\ rfull c (e - Z.of_nat a) s'.
Proof.
  intros c fl x C FS X.
  induction a as [|a IH]; intros e s f W RF MK L; cbn [reload_loop].
  - rewrite Z.sub_0_r. exists f, s. split; auto. unfold reload_step.
    destruct (i_bufs f) as [|b0 rest] eqn:E; [reflexivity|].
    destruct (MK O b0) as [_ M]; [now rewrite E|]. rewrite (M eq_refl). reflexivity.
  - destruct (i_bufs f) as [|b0 rest] eqn:E; [pose proof (rw_len _ _ _ _ _ W) as W5; rewrite E in W5; cbn in W5; lia|].
    destruct (MK O b0) as [M _]; [now rewrite E|].
    destruct (rwin_step c fl e s f x b0 rest C FS W RF X E (M ltac:(lia)) ltac:(lia)) as (f1 & s1 & E1 & W1 & RF1 & S1 & MK1).
    rewrite E1. cbn [bind].
    destruct (IH (e - 1) s1 f1 W1 RF1 (MK1 a L MK) ltac:(lia)) as (f2 & s2 & E2 & W2 & RF2).
    cbn [reload_loop] in E2. exists f2, s2. split; [exact E2|].
    replace (e - Z.of_nat (S a)) with (e - 1 - Z.of_nat a) by lia. auto.
Qed.

Lemma reset_rwin : forall c fl e s f, rwin c fl e s f -> rwin c fl e s (if_resetStatus f) /\ marks None (if_resetStatus f).
Proof.
  intros c fl e s f [W1 W2 W3 W4 W5 W6 W7 W8 W9 W10 W11]. split.
  - constructor; try assumption; cbn.
    + now rewrite map_length.
    + eapply Forall_stored; [|exact W6]. apply resetStatus_stored.
    + intros t b N T. rewrite nth_error_map in N. destruct (nth_error (i_bufs f) t) as [y|] eqn:NY; [|discriminate].
      cbn [option_map] in N. apply Some_inj in N. subst b. exact (W7 t y NY T).
    + intros t b N T. rewrite nth_error_map in N. destruct (nth_error (i_bufs f) t) as [y|] eqn:NY; [|discriminate].
      cbn [option_map] in N. apply Some_inj in N. subst b. exact (W8 t y NY T).
    + now rewrite map_length.
  - intros t b N. cbn in N. rewrite nth_error_map in N. destruct (nth_error (i_bufs f) t) as [y|] eqn:NY; [|discriminate].
    cbn [option_map] in N. apply Some_inj in N. subst b. reflexivity.
Qed.

Lemma rwin_reload : forall c fl x e s f o, cfg_ok c -> fsize fl <= 2 ^ 31 -> fle f0 x = false ->
  rwin c fl e s f -> rfull c e s -> marks o f ->
  let a := match o with Some a => a | None => O end in (a < s)%nat ->
  exists F f' s', (forall extra, triggerReload (F + extra) f x = Ok f') /\ rwin c fl (e - Z.of_nat a) s' f' /\
    rfull c (e - Z.of_nat a) s' /\ marks None f'.
Proof.
  intros c fl x e s f o C FS X W RF MK a A.
  assert (H : exists F f1 s1, reload_loop F f x = Ok f1 /\ rwin c fl (e - Z.of_nat a) s1 f1 /\ rfull c (e - Z.of_nat a) s1).
  { destruct o as [a'|]; [exists (S a); now apply (rwin_loop c fl x C FS X a e s f)|].
    unfold a in *. cbn [Z.of_nat]. rewrite Z.sub_0_r. exists 1%nat, f, s. split; [|auto]. cbn [reload_loop]. unfold reload_step.
    destruct (i_bufs f) as [|b0 rest] eqn:E; [reflexivity|]. pose proof (MK O b0) as M. rewrite E in M.
    rewrite (M eq_refl). reflexivity. }
  destruct H as (F & f1 & s1 & E & W1 & RF1).
  assert (RR : reload_rate f x = x) by (unfold reload_rate; now rewrite (rw_loop _ _ _ _ _ W)).
  destruct (reset_rwin _ _ _ _ _ W1) as [W2 M2].
  exists F. exists (let f2 := if_resetStatus f1 in if feq f0 (i_prev f2) then f2 <| i_prev := x |> else f2), s1.
  split; [|split; [|split]]; auto.
  - intros extra. unfold triggerReload. rewrite RR, (reload_loop_fuel _ _ _ _ _ E). reflexivity.
  - cbv zeta. destruct (feq _ _); auto. destruct W2; constructor; assumption.
  - cbv zeta. destruct (feq _ _); auto.
Qed.

(* ---- preload -------------------------------------------------------------- *)

Lemma load_len : forall f b q b' p n, cfg_ok (i_cfg f) -> fsize (i_file f) <= 2 ^ 31 ->
  0 <= q -> q * BS (i_cfg f) < 2 ^ 31 -> forall i, blk (i_cfg f) i = q -> 0 <= i < 2 ^ 31 ->
  loadBuffer f b i = (b', p, n) -> 2 * (q * BS (i_cfg f)) + BS (i_cfg f) <= fsize (i_file f) -> BS (i_cfg f) <= n.
Proof.
  intros f b q b' p n C FS Q0 Q1 i BI I E H. pose proof (BS_pos _ C) as HB.
  pose proof (blk_mod _ i C) as BM. pose proof (mod_BS _ i C) as MB. rewrite BI in BM.
  assert (BA : u32 i - u32 i mod BS (i_cfg f) = q * BS (i_cfg f)) by (rewrite u32_id by (unfold in_u32; lia); lia).
  unfold loadBuffer in E. rewrite BA in E. injection E as _ _ <-.
  rewrite (u32_id (q * BS (i_cfg f) * 2)) by (unfold in_u32; nia). unfold fseek.
  destruct (Z.leb_spec (q * BS (i_cfg f) * 2) (fsize (i_file f))) as [L|L]; [|lia].
  unfold fread_len. lia.
Qed.

Lemma load_index : forall f b i b' p n, loadBuffer f b i = (b', p, n) -> b_index b' = u32 (blk (i_cfg f) i) /\ b_status b' = StLoaded.
Proof. intros f b i b' p n E. unfold loadBuffer in E. injection E as <- _ _. split; reflexivity. Qed.

Lemma preload_rwin : forall c fl e, cfg_ok c -> fsize fl < 2 ^ 31 -> 0 <= e -> 2 * (e * BS c) + BS c <= fsize fl ->
  forall todo m s f i total n f', rwin c fl e s f -> length (i_bufs f) = m -> marks None f -> (m + todo = c_nbuf c)%nat ->
  blk c i = e - Z.of_nat m -> (1 <= todo \/ 1 <= s)%nat -> (m = O -> s = O) -> (1 <= m -> 1 <= s)%nat ->
  preload_loop todo m false f i total = Ok (n, f') ->
  exists s', rwin c fl e s' f' /\ marks None f' /\ rfull c e s'.
Proof.
  intros c fl e C FS E0 E1. pose proof (BS_pos _ C) as HB. assert (MN : (c_nbuf c <= 64)%nat) by apply C.
  induction todo as [|todo IH]; intros m s f i total n f' W LM MK T BI TS SZ SZ1 E.
  - cbn in E. apply Ok_inj in E. assert (f' = f) by congruence. subst f'. exists s. split; [exact W|]. split; [exact MK|].
    unfold rfull. pose proof (rw_all _ _ _ _ _ W). lia.
  - pose proof W as [W1 W2 W3 W4 W5 W6 W7 W8 W9 W10 W11]. rewrite <- LM in E at 1. rewrite preload_step in E.
    destruct (loadBuffer f _ i) as [[b' p] n1] eqn:LD. cbv zeta in E.
    set (f2 := f <| i_bufs := i_bufs f ++ [b'] |> <| i_pos := p |>) in *.
    pose proof (blk_mod c i C) as BM. pose proof (mod_BS c i C) as MB.
    assert (CF : cfg_ok (i_cfg f)) by (rewrite W1; auto).
    assert (FF : fsize (i_file f) <= 2 ^ 31) by (rewrite W2; lia).
    assert (BB : BS c <= 2 ^ 14) by (unfold BS; apply Z.pow_le_mono_r; [lia|]; destruct C; lia).
    assert (IS : - 2 ^ 30 <= i < 2 ^ 31) by nia.
    destruct (load_index f _ i b' p n1 LD) as [L1 L2]. rewrite W1, BI in L1.
    assert (LH : holds c fl b').
    { rewrite <- W1, <- W2. refine (load_holds f _ i b' p n1 _ _ _ LD); rewrite ?W1, ?W2; auto; [lia|]. unfold in_s32. lia. }
    assert (NT : forall t b, nth_error (i_bufs f2) t = Some b -> nth_error (i_bufs f) t = Some b /\ (t < m)%nat \/ t = m /\ b = b').
    { intros t b N. cbn in N. destruct (Nat.lt_ge_cases t (length (i_bufs f))).
      - rewrite nth_error_app1 in N by auto. left. split; [auto|lia].
      - rewrite nth_error_app2 in N by auto. destruct (t - length (i_bufs f))%nat eqn:D; [|destruct n0; discriminate].
        cbn [nth_error] in N. apply Some_inj in N. right. split; [lia|auto]. }
    assert (LF : length (i_bufs f2) = S m) by (cbn; rewrite app_length; cbn; lia).
    assert (M' : marks None f2).
    { intros t b N. destruct (NT t b N) as [[N2 _]|[_ ->]]; [exact (MK t b N2)|exact L2]. }
    assert (HF : Forall (holds c fl) (i_bufs f2)) by (cbn; apply Forall_app; auto).
    destruct (Z.lt_ge_cases (e - Z.of_nat m) 0) as [NEG|POS].
    + (* below the start of the file *)
      assert (SE : e - Z.of_nat s + 1 = 0) by lia.
      assert (W' : rwin c fl e s f2).
      { constructor; try assumption.
        - rewrite LF. lia.
        - intros t b N TT. destruct (NT t b N) as [[N2 _]|[-> ->]]; [exact (W7 t b N2 TT)|lia].
        - intros t b N TT. destruct (NT t b N) as [[N2 _]|[-> ->]]; [exact (W8 t b N2 TT)|].
          rewrite L1. unfold u32.
          replace (e - Z.of_nat m) with (e - Z.of_nat m + 2 ^ 32 + (-1) * 2 ^ 32) by ring. rewrite Z.mod_add by lia.
          rewrite Z.mod_small by lia. nia.
        - auto. }
      destruct (Z.ltb_spec n1 (BS (i_cfg f))) as [LT|GE].
      * apply Ok_inj in E. assert (f' = f2) by congruence. subst f'. exists s. split; [exact W'|]. split; [exact M'|].
        unfold rfull. lia.
      * destruct (chk32 _) as [i'| |] eqn:CI in E; try discriminate. cbn [bind] in E.
        rewrite LF in E.
        assert (IE : i' = i - BS c) by (rewrite W1 in CI; now apply chk32_inv in CI).
        apply (IH (S m) s f2 i' (total + n1) n f' W' LF M'); auto; try lia.
        subst i'. unfold blk in *. replace (i - BS c) with (i + (-1) * BS c) by ring. rewrite Z.div_add by lia. lia.
    + assert (SM : s = m) by lia. subst s.
      assert (I0 : 0 <= i) by nia.
      assert (IB : i < 2 ^ 31) by lia.
      assert (QB : (e - Z.of_nat m) * BS c <= e * BS c) by nia.
      rewrite u32_id in L1 by (unfold in_u32; nia).
      assert (W' : rwin c fl e (S m) f2).
      { constructor; try assumption.
        - rewrite LF. lia.
        - intros t b N TT. destruct (NT t b N) as [[N2 T2]|[-> ->]]; [exact (W7 t b N2 T2)|].
          split; [lia|].
          destruct (load_block_at f _ i b' p n1 CF FF ltac:(lia) LD) as (_ & _ & K3 & _). apply K3. rewrite W1, W2, BI. lia.
        - intros t b N TT. assert (t < S m)%nat by (rewrite <- LF; apply nth_error_Some; congruence). lia.
        - lia.
        - left. lia. }
      assert (GE : BS c <= n1).
      { rewrite <- W1. refine (load_len f _ (e - Z.of_nat m) b' p n1 CF FF POS _ i _ _ LD _); rewrite ?W1, ?W2; auto; try lia; nia. }
      rewrite W1 in E. destruct (Z.ltb_spec n1 (BS c)) as [LT|_]; [lia|].
      rewrite chk32_ok in E by (unfold in_s32; lia). cbn [bind] in E. rewrite LF in E.
      apply (IH (S m) (S m) f2 (i - BS c) (total + n1) n f' W' LF M'); auto; try lia.
      unfold blk in *. replace (i - BS c) with (i + (-1) * BS c) by ring. rewrite Z.div_add by lia. lia.
Qed.
