(* The sliding window of buffered blocks during forward playback. *)

From Coq Require Import ZArith Lia List Bool.
From RecordUpdate Require Import RecordUpdate.
From Flocq Require Import Core.Core IEEE754.BinarySingleNaN.
From Verif Require Import Machine Floats WavModel CacheModel CacheFacts CacheSpec CacheProofs.
Import ListNotations.
Local Open Scope Z_scope.

(* m buffers hold the blocks j, j+1, ... in this order; when there are fewer than
   the maximum they reach the end of the file *)
Record win (c : ccfg) (fl : file) (j : Z) (m : nat) (f : ifile) : Prop := mkWin {
  wi_cfg : i_cfg f = c;
  wi_file : i_file f = fl;
  wi_loop : i_loop f = LNone;
  wi_fails : i_fails f = 0;
  wi_len : length (i_bufs f) = m;
  wi_holds : Forall (holds c fl) (i_bufs f);
  wi_idx : forall t b, nth_error (i_bufs f) t = Some b ->
    b_index b = j + Z.of_nat t /\ (2 * (b_index b * BS c) < fsize fl -> 0 < b_size b) }.

(* The window is large enough, and its blocks are addressable *)
Definition win_ok (c : ccfg) (fl : file) (j : Z) (m : nat) : Prop :=
  (1 <= m <= c_nbuf c)%nat /\ 0 <= j /\ j * BS c < 2 ^ 30 /\
  (m = c_nbuf c \/ fsize fl <= 2 * ((j + Z.of_nat m) * BS c)).

(* Usage marks: none yet, or the first access was to the buffer number a *)
Definition marks (o : option nat) (f : ifile) : Prop :=
  forall t b, nth_error (i_bufs f) t = Some b ->
    match o with
    | None => b_status b = StLoaded
    | Some a => ((t < a)%nat -> b_status b = StUnused) /\ (t = a -> b_status b = StRead)
    end.

Lemma Some_inj : forall {A} (x y : A), Some x = Some y -> x = y.
Proof. congruence. Qed.

Definition mark (b : ibuf) : ibuf := if is_read (b_status b) then b else b <| b_status := StUnused |>.

Lemma find_at : forall q l A b, nth_error l A = Some b -> b_index b = q -> 0 < b_size b ->
  (forall t b', (t < A)%nat -> nth_error l t = Some b' -> b_index b' <> q) ->
  exists l1, find_with_index q l = (Some A, l1) /\
    forall t, nth_error l1 t = option_map (fun b => if Nat.ltb t A then mark b else b) (nth_error l t).
Proof.
  intros q. induction l as [|x l IH]; intros A b N I P H; [destruct A; discriminate|].
  cbn [find_with_index]. destruct A as [|A].
  - cbn in N. inversion N; subst. rewrite Z.eqb_refl. destruct (Z.ltb_spec 0 (b_size b)); [|lia]. cbn [andb].
    eexists. split; [reflexivity|]. intros t. cbn [Nat.ltb Nat.leb]. destruct (nth_error (b :: l) t); reflexivity.
  - pose proof (H O x ltac:(lia) eq_refl) as NX. destruct (Z.eqb_spec (b_index x) q); [congruence|]. cbn [andb].
    destruct (IH A b N I P) as (l1 & E & HT).
    { intros t b' L T. apply (H (S t)); [lia|exact T]. }
    rewrite E. eexists. split; [reflexivity|].
    intros [|t]; [reflexivity|]. cbn [nth_error]. rewrite HT.
    destruct (nth_error l t); cbn [option_map]; [|reflexivity].
    replace (Nat.ltb (S t) (S A)) with (Nat.ltb t A) by (destruct (Nat.ltb_spec t A), (Nat.ltb_spec (S t) (S A)); auto; lia).
    reflexivity.
Qed.

Lemma nth_upd : forall {A} n (g : A -> A) l t, nth_error (list_upd n g l) t =
  option_map (fun b => if Nat.eqb t n then g b else b) (nth_error l t).
Proof.
  intros A. induction n as [|n IH]; intros g [|x l] [|t]; cbn; auto; try (destruct (nth_error l t); reflexivity).
Qed.

Lemma mark_stored : forall b, b_index (mark b) = b_index b /\ b_size (mark b) = b_size b.
Proof. intros b. unfold mark. destruct (is_read _); auto. Qed.

Lemma win_get_any : forall c fl j m f i o, cfg_ok c -> fsize fl <= 2 ^ 31 -> win c fl j m f -> win_ok c fl j m ->
  marks o f -> in_file fl i -> j <= blk c i < j + Z.of_nat (c_nbuf c) ->
  exists f', if_get f i = (file_sample fl i, f') /\ win c fl j m f' /\ (Z.to_nat (blk c i - j) < m)%nat /\
    marks (Some (match o with Some a => Nat.min a (Z.to_nat (blk c i - j)) | None => Z.to_nat (blk c i - j) end)) f' /\
    (exists b, nth_error (i_bufs f') (Z.to_nat (blk c i - j)) = Some b /\ b_status b = StRead).
Proof.
  intros c fl j m f i o C FS W WO MK IN BI.
  pose proof W as [W1 W2 W3 W4 W5 W6 W7]. destruct WO as (M & J0 & J1 & CV).
  pose proof (BS_pos _ C) as HB. pose proof (blk_mod c i C) as BM. pose proof (mod_BS c i C) as MB.
  destruct IN as [I0 I1].
  assert (L : blk c i < j + Z.of_nat m).
  { destruct CV as [ -> |CV]; [lia|]. destruct (Z.lt_ge_cases (blk c i) (j + Z.of_nat m)); [auto|]. nia. }
  set (A := Z.to_nat (blk c i - j)) in *.
  assert (AZ : Z.of_nat A = blk c i - j) by (unfold A; lia).
  destruct (nth_error (i_bufs f) A) as [b|] eqn:N; [|apply nth_error_None in N; lia].
  destruct (W7 A b N) as [IX SZ].
  assert (U : u32 (blk c i) = blk c i).
  { apply u32_id. unfold in_u32. pose proof (blk_nonneg c i C I0). lia. }
  assert (BI2 : b_index b = blk c i) by lia.
  assert (SP : 0 < b_size b) by (apply SZ; rewrite BI2; lia).
  destruct (find_at (u32 (blk c i)) (i_bufs f) A b N) as (l1 & E & HT); [congruence|auto| |].
  { intros t b' T NT. destruct (W7 t b' NT) as [X _]. rewrite U. lia. }
  unfold if_get. rewrite W1, E, HT, N. cbn [option_map]. rewrite Nat.ltb_irrefl.
  eexists. split.
  { f_equal. rewrite Forall_forall in W6. apply nth_error_In in N. apply (W6 b N); [split; auto|congruence]. }
  assert (NT : forall t, nth_error (list_upd A (fun b => b <| b_status := StRead |>) l1) t =
     option_map (fun b => if Nat.eqb t A then b <| b_status := StRead |> else if Nat.ltb t A then mark b else b) (nth_error (i_bufs f) t)).
  { intros t. rewrite nth_upd, HT. destruct (nth_error (i_bufs f) t) as [x|]; cbn [option_map]; [|reflexivity].
    destruct (Nat.eqb_spec t A); [subst; rewrite Nat.ltb_irrefl; reflexivity|reflexivity]. }
  split.
  - constructor; try assumption.
    + cbn. rewrite list_upd_length. pose proof (find_stored _ _ _ _ E) as ST. now rewrite (stored_length _ _ ST).
    + cbn. eapply Forall_stored; [|exact W6]. rewrite list_upd_stored. eapply find_stored; eauto.
    + cbn. intros t x NX. rewrite NT in NX. destruct (nth_error (i_bufs f) t) as [y|] eqn:NY; [|discriminate].
      cbn [option_map] in NX. apply Some_inj in NX. subst x. destruct (W7 t y NY) as [X1 X2].
      destruct (Nat.eqb t A); [cbn; auto|]. destruct (Nat.ltb t A); [|auto].
      unfold mark. destruct (is_read (b_status y)); cbn; auto.
  - split; [lia|]. split; [|cbn; rewrite NT, N; cbn [option_map]; rewrite Nat.eqb_refl; eexists; split; reflexivity].
    intros t x NX. cbn in NX. rewrite NT in NX. destruct (nth_error (i_bufs f) t) as [y|] eqn:NY; [|discriminate].
    cbn [option_map] in NX. apply Some_inj in NX. subst x. pose proof (MK t y NY) as MY.
    destruct o as [a|].
    + destruct MY as [M1 M2]. split; intro T.
      * destruct (Nat.eqb_spec t A); [lia|]. destruct (Nat.ltb_spec t A); [|lia].
        unfold mark. rewrite (M1 ltac:(lia)). reflexivity.
      * destruct (Nat.eqb_spec t A); [reflexivity|]. assert (TA : t = a) by lia. destruct (Nat.ltb_spec t A); [|lia].
        unfold mark. rewrite (M2 TA). cbn. auto.
    + split; intro T.
      * destruct (Nat.eqb_spec t A); [lia|]. destruct (Nat.ltb_spec t A); [|lia].
        unfold mark. rewrite MY. reflexivity.
      * destruct (Nat.eqb_spec t A); [reflexivity|lia].
Qed.

Lemma win_get : forall c fl j m f i o, cfg_ok c -> fsize fl <= 2 ^ 31 -> win c fl j m f -> win_ok c fl j m ->
  marks o f -> in_file fl i -> j <= blk c i < j + Z.of_nat (c_nbuf c) ->
  (match o with Some a => j + Z.of_nat a <= blk c i | None => True end) ->
  exists f', if_get f i = (file_sample fl i, f') /\ win c fl j m f' /\
    marks (match o with Some a => Some a | None => Some (Z.to_nat (blk c i - j)) end) f'.
Proof.
  intros c fl j m f i o C FS W WO MK IN BI BO.
  destruct (win_get_any c fl j m f i o C FS W WO MK IN BI) as (f' & E & W' & _ & MK' & _). exists f'. split; [exact E|]. split; [exact W'|].
  destruct o as [a|]; [|exact MK']. rewrite Nat.min_l in MK' by lia. exact MK'.
Qed.

(* ---- reload ------------------------------------------------------------- *)

Lemma max_index_ge : forall l acc, acc <= max_index acc l /\ forall b, In b l -> b_index b <= max_index acc l.
Proof.
  induction l as [|x l IH]; intros acc; cbn; [split; [lia|tauto]|].
  destruct (IH (if acc <? b_index x then b_index x else acc)) as [H1 H2].
  destruct (Z.ltb_spec acc (b_index x)); split; try lia; intros b [ <- |IN]; auto; lia.
Qed.

Lemma max_index_in : forall l acc, max_index acc l = acc \/ exists b, In b l /\ max_index acc l = b_index b.
Proof.
  induction l as [|x l IH]; intros acc; cbn; [auto|].
  destruct (IH (if acc <? b_index x then b_index x else acc)) as [H|(b & H1 & H2)].
  - destruct (acc <? b_index x); [right; exists x; auto|auto].
  - right. exists b. auto.
Qed.

Lemma win_max : forall c fl j m f b0 rest, win c fl j m f -> i_bufs f = b0 :: rest ->
  max_index (b_index b0) (i_bufs f) = j + Z.of_nat m - 1.
Proof.
  intros c fl j m f b0 rest W E. pose proof W as [_ _ _ _ W5 _ W7].
  destruct (W7 O b0) as [I0 _]; [now rewrite E|].
  destruct (max_index_ge (i_bufs f) (b_index b0)) as [_ G].
  assert (LE : exists b, nth_error (i_bufs f) (m - 1) = Some b).
  { destruct (nth_error (i_bufs f) (m - 1)) eqn:X; [eauto|]. apply nth_error_None in X. rewrite W5, E in *. cbn in *. lia. }
  destruct LE as (bl & NL). destruct (W7 _ _ NL) as [IL _].
  assert (M1 : (1 <= m)%nat) by (rewrite E in W5; cbn in W5; lia).
  pose proof (G bl ltac:(eapply nth_error_In; eauto)) as GL.
  destruct (max_index_in (i_bufs f) (b_index b0)) as [H|(b & IN & H)]; [lia|].
  apply In_nth_error in IN. destruct IN as (t & NT). destruct (W7 _ _ NT) as [IT _].
  assert (t < m)%nat by (rewrite <- W5; apply nth_error_Some; congruence). lia.
Qed.

Lemma load_block_at : forall f b i b' p n, cfg_ok (i_cfg f) -> fsize (i_file f) <= 2 ^ 31 ->
  0 <= i < 2 ^ 31 -> loadBuffer f b i = (b', p, n) ->
  let q := blk (i_cfg f) i in
  b_index b' = q /\ b_status b' = StLoaded /\
  (2 * (q * BS (i_cfg f)) < fsize (i_file f) -> 0 < b_size b') /\
  (n < BS (i_cfg f) -> fsize (i_file f) <= 2 * ((q + 1) * BS (i_cfg f))).
Proof.
  intros f b i b' p n C FS I E q. pose proof (BS_pos _ C) as HB.
  pose proof (blk_mod _ i C) as BM. pose proof (mod_BS _ i C) as MB. fold q in BM.
  pose proof (blk_nonneg _ i C ltac:(lia)) as Q0. fold q in Q0.
  assert (Q1 : q * BS (i_cfg f) < 2 ^ 31) by lia.
  assert (BA : u32 i - u32 i mod BS (i_cfg f) = q * BS (i_cfg f)) by (rewrite u32_id by (unfold in_u32; lia); lia).
  unfold loadBuffer in E. rewrite BA in E. fold q in E. injection E as <- _ <-. cbn [b_index b_status b_size].
  rewrite (u32_id (q * BS (i_cfg f) * 2)) by (unfold in_u32; nia).
  assert (q < 2 ^ 31) by nia.
  split; [apply u32_id; unfold in_u32; lia|]. split; [reflexivity|]. unfold fseek.
  destruct (Z.leb_spec (q * BS (i_cfg f) * 2) (fsize (i_file f))) as [L|L].
  - unfold fread_len. split.
    + intros S. rewrite s16_id by (unfold in_s16; lia). lia.
    + intros S. lia.
  - split; [lia|]. intros _. nia.
Qed.

Lemma load_block : forall f b q b' p n, cfg_ok (i_cfg f) -> fsize (i_file f) <= 2 ^ 31 ->
  0 <= q -> q * BS (i_cfg f) < 2 ^ 31 ->
  loadBuffer f b (q * BS (i_cfg f)) = (b', p, n) ->
  b_index b' = q /\ b_status b' = StLoaded /\
  (2 * (q * BS (i_cfg f)) < fsize (i_file f) -> 0 < b_size b') /\
  (n < BS (i_cfg f) -> fsize (i_file f) <= 2 * ((q + 1) * BS (i_cfg f))).
Proof.
  intros f b q b' p n C FS Q0 Q1 E. pose proof (BS_pos _ C) as HB.
  assert (Q2 : 0 <= q * BS (i_cfg f)) by (apply Z.mul_nonneg_nonneg; lia).
  pose proof (load_block_at f b _ b' p n C FS (conj Q2 Q1) E) as H.
  unfold blk in H. rewrite Z.div_mul in H by lia. exact H.
Qed.


Lemma win_step : forall c fl j m f x b0 rest, cfg_ok c -> fsize fl <= 2 ^ 31 -> win c fl j m f -> win_ok c fl j m ->
  fle f0 x = true -> i_bufs f = b0 :: rest -> b_status b0 = StUnused ->
  (2 * ((j + 1) * BS c)) < 2 ^ 31 ->
  exists f', reload_step f x = Ok (Some (true, f')) /\ win c fl (j + 1) m f' /\ win_ok c fl (j + 1) m /\
    (forall a, (S a < m)%nat -> marks (Some (S a)) f -> marks (Some a) f').
Proof.
  intros c fl j m f x b0 rest C FS W WO X BF U B.
  pose proof W as [W1 W2 W3 W4 W5 W6 W7]. destruct WO as (M & J0 & J1 & CV).
  pose proof (BS_pos _ C) as HB.
  unfold reload_step. rewrite BF, U. cbn [is_unused negb]. unfold reload_decide. rewrite X, W3.
  rewrite (win_max c fl j m f b0 rest W BF). cbn [bind].
  assert (MN : (c_nbuf c <= 64)%nat) by apply C.
  assert (JM : (j + Z.of_nat m) * BS c < 2 ^ 31) by nia.
  rewrite s32_u32. replace (j + Z.of_nat m - 1 + 1) with (j + Z.of_nat m) by lia.
  rewrite (s32_id (j + Z.of_nat m)) by (unfold in_s32; nia). rewrite W1.
  rewrite (s32_id ((j + Z.of_nat m) * BS c)) by (unfold in_s32; nia).
  destruct (loadBuffer f b0 ((j + Z.of_nat m) * BS c)) as [[b' p] n] eqn:LD.
  eexists. split; [reflexivity|].
  assert (LD' := LD). rewrite <- W1 in LD.
  assert (CF : cfg_ok (i_cfg f)) by (rewrite W1; auto).
  assert (FF : fsize (i_file f) <= 2 ^ 31) by (rewrite W2; auto).
  assert (JF : (j + Z.of_nat m) * BS (i_cfg f) < 2 ^ 31) by (rewrite W1; auto).
  destruct (load_block f b0 (j + Z.of_nat m) b' p n CF FF ltac:(lia) JF LD) as (L1 & L2 & L3 & L4).
  rewrite W1, W2 in L3, L4.
  assert (LH : holds c fl b').
  { rewrite <- W1, <- W2. apply (load_holds f b0 ((j + Z.of_nat m) * BS (i_cfg f)) b' p n CF FF); [|exact LD].
    assert (0 <= (j + Z.of_nat m) * BS (i_cfg f)) by (rewrite W1; apply Z.mul_nonneg_nonneg; lia). unfold in_s32. lia. }
  assert (LR : length rest = (m - 1)%nat) by (rewrite BF in W5; cbn in W5; lia).
  assert (NT : forall t b, nth_error (rest ++ [b']) t = Some b ->
     (t < m - 1)%nat /\ nth_error (i_bufs f) (S t) = Some b \/ t = (m - 1)%nat /\ b = b').
  { intros t b N. rewrite BF. cbn [nth_error]. destruct (Nat.lt_ge_cases t (length rest)).
    - rewrite nth_error_app1 in N by auto. left. split; [lia|auto].
    - rewrite nth_error_app2 in N by auto. right. destruct (t - length rest)%nat eqn:D; [|destruct n0; discriminate].
      cbn in N. inversion N. split; [lia|auto]. }
  split; [|split].
  - constructor; try assumption; cbn.
    + rewrite app_length. cbn. lia.
    + apply Forall_app. rewrite BF in W6. inversion W6; subst. auto.
    + intros t b N. destruct (NT t b N) as [[T N2]|[-> ->]].
      * destruct (W7 _ _ N2) as [I1 I2]. split; [lia|auto].
      * split; [lia|]. rewrite L1. auto.
  - unfold win_ok. repeat split; try lia.
  - intros a AM MK t b N. cbn in N. destruct (NT t b N) as [[T N2]|[-> ->]].
    + destruct (MK _ _ N2) as [M1 M2]. split; intro Q; [apply M1; lia|apply M2; lia].
    + split; intro Q; lia.
Qed.

(* Mark a advances the window by a blocks *)
Lemma win_loop : forall c fl x, cfg_ok c -> fsize fl <= 2 ^ 31 -> fle f0 x = true ->
  forall a j m f, win c fl j m f -> win_ok c fl j m -> marks (Some a) f -> (a < m)%nat ->
  2 * ((j + Z.of_nat a) * BS c) < 2 ^ 31 ->
  exists f', reload_loop (S a) f x = Ok f' /\ win c fl (j + Z.of_nat a) m f' /\ win_ok c fl (j + Z.of_nat a) m.
Proof.
  intros c fl x C FS X. pose proof (BS_pos _ C) as HB.
  induction a as [|a IH]; intros j m f W WO MK L B; cbn [reload_loop].
  - rewrite Z.add_0_r. exists f. split; auto. unfold reload_step.
    destruct (i_bufs f) as [|b0 rest] eqn:E; [reflexivity|].
    destruct (MK O b0) as [_ M]; [now rewrite E|]. rewrite (M eq_refl). reflexivity.
  - destruct (i_bufs f) as [|b0 rest] eqn:E; [pose proof (wi_len _ _ _ _ _ W) as W5; rewrite E in W5; cbn in W5; lia|].
    destruct (MK O b0) as [M _]; [now rewrite E|].
    destruct (win_step c fl j m f x b0 rest C FS W WO X E (M ltac:(lia)) ltac:(nia)) as (f1 & E1 & W1 & WO1 & MK1).
    rewrite E1. cbn [bind].
    destruct (IH (j + 1) m f1 W1 WO1 (MK1 a L MK) ltac:(lia) ltac:(nia)) as (f2 & E2 & W2 & WO2).
    cbn [reload_loop] in E2. exists f2. split; [exact E2|].
    replace (j + Z.of_nat (S a)) with (j + 1 + Z.of_nat a) by lia. auto.
Qed.

Lemma reload_loop_fuel : forall x fuel f f' extra, reload_loop fuel f x = Ok f' ->
  reload_loop (fuel + extra) f x = Ok f'.
Proof.
  intros x. induction fuel as [|fuel IH]; intros f f' extra H; [discriminate|].
  cbn [reload_loop Nat.add] in *. destruct (reload_step f x) as [[[[] f1]|]| |]; cbn [bind] in *; auto; discriminate.
Qed.

Lemma reset_win : forall c fl j m f, win c fl j m f -> win c fl j m (if_resetStatus f) /\ marks None (if_resetStatus f).
Proof.
  intros c fl j m f [W1 W2 W3 W4 W5 W6 W7]. split.
  - constructor; try assumption; cbn.
    + now rewrite map_length.
    + eapply Forall_stored; [|exact W6]. apply resetStatus_stored.
    + intros t b N. rewrite nth_error_map in N. destruct (nth_error (i_bufs f) t) as [y|] eqn:NY; [|discriminate].
      cbn [option_map] in N. apply Some_inj in N. subst b. exact (W7 t y NY).
  - intros t b N. cbn in N. rewrite nth_error_map in N. destruct (nth_error (i_bufs f) t) as [y|] eqn:NY; [|discriminate].
    cbn [option_map] in N. apply Some_inj in N. subst b. reflexivity.
Qed.

Lemma prev_win : forall c fl j m f v, win c fl j m f -> win c fl j m (f <| i_prev := v |>).
Proof. intros c fl j m f v []. constructor; assumption. Qed.

Lemma win_reload : forall c fl x j m f o, cfg_ok c -> fsize fl <= 2 ^ 31 -> fle f0 x = true ->
  win c fl j m f -> win_ok c fl j m -> marks o f ->
  let a := match o with Some a => a | None => O end in
  (a < m)%nat -> 2 * ((j + Z.of_nat a) * BS c) < 2 ^ 31 ->
  exists F f', (forall extra, triggerReload (F + extra) f x = Ok f') /\ win c fl (j + Z.of_nat a) m f' /\
    win_ok c fl (j + Z.of_nat a) m /\ marks None f'.
Proof.
  intros c fl x j m f o C FS X W WO MK a A B.
  assert (H : exists F f1, reload_loop F f x = Ok f1 /\ win c fl (j + Z.of_nat a) m f1 /\ win_ok c fl (j + Z.of_nat a) m).
  { destruct o as [a'|]; [exists (S a); apply win_loop; auto|].
    unfold a in *. cbn [Z.of_nat]. rewrite Z.add_0_r. exists 1%nat, f. split; [|auto]. cbn [reload_loop]. unfold reload_step.
    destruct (i_bufs f) as [|b0 rest] eqn:E; [reflexivity|]. pose proof (MK O b0) as M. rewrite E in M.
    rewrite (M eq_refl). reflexivity. }
  destruct H as (F & f1 & E & W1 & WO1).
  assert (RR : reload_rate f x = x) by (unfold reload_rate; now rewrite (wi_loop _ _ _ _ _ W)).
  destruct (reset_win _ _ _ _ _ W1) as [W2 M2].
  exists F. exists (let f2 := if_resetStatus f1 in if feq f0 (i_prev f2) then f2 <| i_prev := x |> else f2).
  split; [|split; [|split]]; auto.
  - intros extra. unfold triggerReload. rewrite RR, (reload_loop_fuel _ _ _ _ _ E). reflexivity.
  - cbv zeta. destruct (feq _ _); auto using prev_win.
  - cbv zeta. destruct (feq _ _); auto.
Qed.

(* ---- preload -------------------------------------------------------------- *)

Lemma preload_win : forall c fl j, cfg_ok c -> fsize fl <= 2 ^ 31 -> 0 <= j -> j * BS c < 2 ^ 30 ->
  forall todo m f i total n f', win c fl j m f -> marks None f -> (m + todo = c_nbuf c)%nat ->
  0 <= i -> blk c i = j + Z.of_nat m -> (1 <= m + todo)%nat ->
  preload_loop todo m true f i total = Ok (n, f') ->
  exists m', win c fl j m' f' /\ marks None f' /\ (todo = O \/ m < m')%nat /\ (m <= m' <= c_nbuf c)%nat /\
    (m' = c_nbuf c \/ fsize fl <= 2 * ((j + Z.of_nat m') * BS c)).
Proof.
  intros c fl j C FS J0 J1. pose proof (BS_pos _ C) as HB. assert (MN : (c_nbuf c <= 64)%nat) by apply C.
  induction todo as [|todo IH]; intros m f i total n f' W MK T I0 BI T1 E.
  - cbn in E. apply Ok_inj in E. inversion E; subst. exists m. split; [exact W|]. split; [exact MK|]. split; [auto|]. split; [lia|left; lia].
  - pose proof W as [W1 W2 W3 W4 W5 W6 W7]. rewrite <- W5 in E at 1. rewrite preload_step in E.
    destruct (loadBuffer f _ i) as [[b' p] n1] eqn:LD. cbv zeta in E.
    set (f2 := f <| i_bufs := i_bufs f ++ [b'] |> <| i_pos := p |>) in *.
    pose proof (blk_mod c i C) as BM. pose proof (mod_BS c i C) as MB.
    assert (CF : cfg_ok (i_cfg f)) by (rewrite W1; auto).
    assert (FF : fsize (i_file f) <= 2 ^ 31) by (rewrite W2; auto).
    assert (I1 : i < 2 ^ 31 - BS c) by nia.
    destruct (load_block_at f _ i b' p n1 CF FF ltac:(lia) LD) as (L1 & L2 & L3 & L4).
    rewrite W1, W2, BI in *.
    assert (LH : holds c fl b').
    { rewrite <- W1, <- W2. refine (load_holds f _ i b' p n1 _ _ _ LD); rewrite ?W1, ?W2; auto. unfold in_s32. lia. }
    assert (W' : win c fl j (S m) f2).
    { constructor; try assumption; cbn.
      - rewrite app_length. cbn. lia.
      - apply Forall_app. auto.
      - intros t b N. destruct (Nat.lt_ge_cases t (length (i_bufs f))).
        + rewrite nth_error_app1 in N by auto. exact (W7 t b N).
        + rewrite nth_error_app2 in N by auto. destruct (t - length (i_bufs f))%nat eqn:D; [|destruct n0; discriminate].
          cbn [nth_error] in N. apply Some_inj in N. subst b. rewrite L1. split; [lia|auto]. }
    assert (M' : marks None f2).
    { intros t b N. cbn in N. destruct (Nat.lt_ge_cases t (length (i_bufs f))).
        + rewrite nth_error_app1 in N by auto. exact (MK t b N).
        + rewrite nth_error_app2 in N by auto. destruct (t - length (i_bufs f))%nat eqn:D; [|destruct n0; discriminate].
          cbn [nth_error] in N. apply Some_inj in N. subst b. auto. }
    destruct (Z.ltb_spec n1 (BS c)) as [LT|GE].
    + apply Ok_inj in E. assert (f' = f2) by congruence. subst f'. exists (S m). split; [exact W'|]. split; [exact M'|].
      split; [lia|]. split; [lia|]. right.
      replace (j + Z.of_nat (S m)) with (j + Z.of_nat m + 1) by lia. apply L4. lia.
    + rewrite chk32_ok in E by (unfold in_s32; lia). cbn [bind] in E.
      assert (LF : length (i_bufs f2) = S m) by apply W'. rewrite LF in E.
      destruct (IH (S m) f2 (i + BS c) (total + n1) n f' W' M' ltac:(lia) ltac:(lia)) as (m' & R1 & R2 & R3 & R4 & R5); auto; try lia.
      { unfold blk in *. rewrite <- (Z.mul_1_l (BS c)) at 1. rewrite Z.div_add by lia. lia. }
      exists m'. split; [exact R1|]. split; [exact R2|]. split; [lia|]. split; [lia|exact R5].
Qed.
