(* Lemmas about the buffered file: coherence, no file access on reads,
   termination of reload. *)

From Coq Require Import ZArith Lia List Bool.
From RecordUpdate Require Import RecordUpdate.
From Flocq Require Import Core.Core IEEE754.BinarySingleNaN.
From Verif Require Import Machine Floats WavModel CacheModel CacheFacts CacheSpec.
Import ListNotations.
Local Open Scope Z_scope.

Lemma blk_nonneg : forall c i, cfg_ok c -> 0 <= i -> 0 <= blk c i <= i.
Proof.
  intros c i C H. pose proof (BS_pos _ C). unfold blk. split; [apply Z.div_pos; lia|].
  apply Z.div_le_upper_bound; nia.
Qed.

Lemma blk_range : forall c i, cfg_ok c -> in_s32 i -> - 2 ^ 30 <= blk c i < 2 ^ 30.
Proof.
  intros c i C [H1 H2]. pose proof (BS_pos _ C). unfold blk. split.
  - apply Z.div_le_lower_bound; lia.
  - apply Z.div_lt_upper_bound; lia.
Qed.

Lemma blk_mod : forall c i, cfg_ok c -> i = blk c i * BS c + i mod BS c.
Proof. intros c i C. pose proof (BS_pos _ C). unfold blk. rewrite Z.mul_comm. apply Z.div_mod. lia. Qed.

Lemma mod_BS : forall c i, cfg_ok c -> 0 <= i mod BS c < BS c.
Proof. intros c i C. pose proof (BS_pos _ C). apply Z.mod_pos_bound. lia. Qed.

Lemma BS_divides : forall c, cfg_ok c -> (BS c | 2 ^ 32).
Proof.
  intros c [H _]. exists (2 ^ (32 - c_shift c)). unfold BS. rewrite <- Z.pow_add_r by lia. f_equal. lia.
Qed.


(* Stored index of the block of a sample of the file *)
Lemma index_inj : forall c i j, cfg_ok c -> in_s32 i -> 0 <= j < 2 ^ 31 ->
  u32 (blk c i) = u32 (blk c j) -> blk c i = blk c j.
Proof.
  intros c i j C Hi Hj E. pose proof (blk_range c i C Hi). pose proof (blk_nonneg c j C ltac:(lia)).
  pose proof (blk_range c j C ltac:(unfold in_s32; lia)).
  assert (S := f_equal s32 E). rewrite !s32_u32, !s32_id in S by (unfold in_s32; lia). exact S.
Qed.

(* A buffer filled from a block of the file holds the samples of that block *)
Definition holds (c : ccfg) (fl : file) (b : ibuf) : Prop :=
  forall i, in_file fl i -> u32 (blk c i) = b_index b ->
    le16 (b_data b) (2 * (i mod BS c)) = file_sample fl i.

Definition load_base (c : ccfg) (i : Z) : Z := u32 i - u32 i mod BS c.

Lemma load_base_nonneg : forall c i, cfg_ok c -> 0 <= i < 2 ^ 31 -> load_base c i = blk c i * BS c.
Proof.
  intros c i C H. unfold load_base. rewrite u32_id by (unfold in_u32; lia).
  pose proof (blk_mod c i C). lia.
Qed.

Lemma load_holds : forall f b i b' p n, cfg_ok (i_cfg f) -> fsize (i_file f) <= 2 ^ 31 -> in_s32 i ->
  loadBuffer f b i = (b', p, n) -> holds (i_cfg f) (i_file f) b'.
Proof.
  intros f b i b' p n C FS Hi E. unfold loadBuffer in E. injection E as <- _ _.
  intros j [J0 J1] IX. cbn [b_index b_data] in *.
  assert (B : blk (i_cfg f) i = blk (i_cfg f) j).
  { symmetry in IX. apply (index_inj _ i j C Hi ltac:(lia)). auto. }
  pose proof (BS_pos _ C) as HB. pose proof (blk_nonneg _ j C J0).
  assert (I0 : 0 <= i).
  { destruct (Z.neg_nonneg_cases i); auto. exfalso. unfold blk in *.
    assert (i / BS (i_cfg f) < 0) by (apply Z.div_lt_upper_bound; lia). lia. }
  assert (SB : u32 i - u32 i mod BS (i_cfg f) = blk (i_cfg f) j * BS (i_cfg f)).
  { rewrite <- B. apply (load_base_nonneg _ i C). destruct Hi. lia. }
  rewrite SB. pose proof (blk_mod _ j C) as JM. pose proof (mod_BS _ j C) as JR.
  set (q := blk (i_cfg f) j) in *. set (s := j mod BS (i_cfg f)) in *.
  assert (SK : u32 (q * BS (i_cfg f) * 2) = 2 * (q * BS (i_cfg f))).
  { rewrite u32_id by (unfold in_u32; nia). lia. }
  rewrite SK. unfold fseek. destruct (Z.leb_spec (2 * (q * BS (i_cfg f))) (fsize (i_file f))) as [L|L]; [|exfalso; nia].
  unfold le16, file_sample, le16, le16u, fread. f_equal.
  assert (FL : 2 * s + 2 <= fread_len (i_file f) (2 * (q * BS (i_cfg f))) (BS (i_cfg f) * 2)) by (unfold fread_len; lia).
  replace ((0 <=? 2 * s) && (2 * s <? fread_len (i_file f) (2 * (q * BS (i_cfg f))) (BS (i_cfg f) * 2)))%bool
    with true by (symmetry; apply andb_true_iff; split; [apply Z.leb_le; lia|apply Z.ltb_lt; lia]).
  replace ((0 <=? 2 * s + 1) && (2 * s + 1 <? fread_len (i_file f) (2 * (q * BS (i_cfg f))) (BS (i_cfg f) * 2)))%bool
    with true by (symmetry; apply andb_true_iff; split; [apply Z.leb_le; lia|apply Z.ltb_lt; lia]).
  replace (2 * (q * BS (i_cfg f)) + 2 * s) with (2 * j) by lia.
  replace (2 * (q * BS (i_cfg f)) + (2 * s + 1)) with (2 * j + 1) by lia. reflexivity.
Qed.

(* ---- lookups ------------------------------------------------------------- *)

Lemma find_stored : forall i l r l', find_with_index i l = (r, l') -> map stored l' = map stored l.
Proof.
  intros i. induction l as [|x l IH]; intros r l' E; cbn [find_with_index] in E; [inversion E; reflexivity|].
  destruct ((b_index x =? i) && (0 <? b_size x)); [inversion E; reflexivity|].
  destruct (find_with_index i l) as [r2 l2] eqn:E2. inversion E; subst. cbn [map].
  rewrite (IH _ _ eq_refl). f_equal. destruct (is_read (b_status x)); reflexivity.
Qed.

Lemma find_some : forall i l n l', find_with_index i l = (Some n, l') ->
  exists b, nth_error l' n = Some b /\ b_index b = i /\ 0 < b_size b.
Proof.
  intros i. induction l as [|x l IH]; intros n l' E; cbn [find_with_index] in E; [discriminate|].
  destruct ((b_index x =? i) && (0 <? b_size x)) eqn:T.
  - inversion E; subst. apply andb_true_iff in T. rewrite Z.eqb_eq, Z.ltb_lt in T. exists x. cbn. tauto.
  - destruct (find_with_index i l) as [[m|] l2] eqn:E2; cbn in E; inversion E; subst.
    destruct (IH _ _ eq_refl) as (b & N & H). exists b. auto.
Qed.

Lemma list_upd_stored : forall n l, map stored (list_upd n (fun b => b <| b_status := StRead |>) l) = map stored l.
Proof. induction n; destruct l; cbn; auto. now rewrite IHn. Qed.

Lemma if_get_store : forall f i, same_store f (snd (if_get f i)).
Proof.
  intros f i. unfold if_get. destruct (find_with_index (u32 (blk (i_cfg f) i)) (i_bufs f)) as [[n|] bufs] eqn:E; cbn [snd];
    unfold same_store; cbn; repeat split; try (eapply find_stored; eauto; fail).
  rewrite list_upd_stored. eapply find_stored; eauto.
Qed.

Lemma same_store_refl : forall f, same_store f f.
Proof. intros f. unfold same_store. repeat split. Qed.
Lemma same_store_trans : forall f g h, same_store f g -> same_store g h -> same_store f h.
Proof. unfold same_store. intuition congruence. Qed.

(* ---- invariants of the buffers ------------------------------------------ *)

Lemma Forall_upd : forall {A} (P : A -> Prop) n g l, Forall P l -> (forall x, P (g x)) -> Forall P (list_upd n g l).
Proof.
  intros A P. induction n; intros g l H G; destruct l; cbn; auto; inversion H; subst; constructor; auto.
Qed.

Lemma upd_nth : forall {A} n (l : list A) g x y, nth_error l n = Some x -> g x = y ->
  list_upd n (fun _ => y) l = list_upd n g l.
Proof.
  intros A. induction n as [|n IH]; intros [|a l] g x y H E; cbn in *; try discriminate.
  - inversion H; subst. reflexivity.
  - f_equal. eapply IH; eauto.
Qed.

Lemma resetStatus_stored : forall f, map stored (i_bufs (if_resetStatus f)) = map stored (i_bufs f).
Proof. intros f. unfold if_resetStatus. cbn. rewrite map_map. reflexivity. Qed.

(* A property of what a buffer stores that every load establishes *)
Section Inv.
Variables (c : ccfg) (fl : file) (P : ibuf -> Prop).
Hypothesis P_stored : forall b b', stored b' = stored b -> P b -> P b'.
Hypothesis P_load : forall f b i, i_cfg f = c -> i_file f = fl -> in_s32 i -> P (fst (fst (loadBuffer f b i))).

Lemma Forall_stored_gen : forall l l', map stored l' = map stored l -> Forall P l -> Forall P l'.
Proof.
  induction l as [|b l IH]; intros [|b' l'] E H; cbn in E; try discriminate; constructor.
  - inversion H; subst. eapply P_stored; [|eauto]. congruence.
  - inversion H; subst. apply IH; auto. congruence.
Qed.

Definition kept (f : ifile) : Prop := i_cfg f = c /\ i_file f = fl /\ Forall P (i_bufs f).

Lemma preload_kept : forall todo bufn fw f i total t f', (length (i_bufs f) >= bufn)%nat ->
  kept f -> in_s32 i -> preload_loop todo bufn fw f i total = Ok (t, f') -> kept f'.
Proof.
  induction todo as [|todo IH]; intros bufn fw f i total t f' LB H Hi E; cbn [preload_loop] in E.
  - inversion E; subst. auto.
  - destruct H as (HC & HF & HB).
    set (f1 := if Nat.leb (length (i_bufs f)) bufn then _ else _) in E.
    assert (F1 : i_cfg f1 = c /\ i_file f1 = fl /\
      Forall P (list_upd bufn (fun b => fst (fst (loadBuffer f1 b i))) (i_bufs f1)) /\
      (length (i_bufs f1) >= S bufn)%nat).
    { unfold f1. destruct (Nat.leb_spec (length (i_bufs f)) bufn) as [LE|LE].
      - assert (bufn = length (i_bufs f)) as -> by lia. cbn [i_bufs i_cfg i_file set].
        split; [auto|]. split; [auto|]. split; [|cbn; rewrite app_length; cbn; lia].
        rewrite list_upd_app. apply Forall_app. split; [auto|]. constructor; [|constructor]. apply P_load; auto.
      - split; [auto|]. split; [auto|]. split; [|lia]. apply Forall_upd; auto. }
    clearbody f1. destruct F1 as (F1 & F2 & F3 & F4).
    destruct (nth_error (i_bufs f1) bufn) as [b|] eqn:NB; [|discriminate].
    destruct (loadBuffer f1 b i) as [[b' p] n] eqn:LD.
    assert (U : list_upd bufn (fun _ => b') (i_bufs f1) =
                list_upd bufn (fun b => fst (fst (loadBuffer f1 b i))) (i_bufs f1)).
    { eapply upd_nth; [exact NB|]. now rewrite LD. }
    rewrite U in E.
    set (f2 := f1 <| i_bufs := _ |> <| i_pos := p |>) in E.
    assert (CO : kept f2) by (unfold kept, f2; cbn; auto).
    assert (L2 : (length (i_bufs f2) >= S bufn)%nat) by (unfold f2; cbn; rewrite list_upd_length; auto).
    clearbody f2.
    destruct (n <? BS (i_cfg f)); [inversion E; subst; auto|].
    apply bind_ok in E. destruct E as (i' & CK & E). apply chk32_inv in CK. destruct CK as [-> CK].
    apply (IH _ _ _ _ _ _ _ L2 CO CK E).
Qed.

Lemma reload_step_kept : forall f x g f', kept f -> reload_step f x = Ok (Some (g, f')) -> kept f'.
Proof.
  intros f x g f' (HC & HF & HB) E. unfold reload_step in E.
  destruct (i_bufs f) as [|b0 rest] eqn:BF; [discriminate|].
  destruct (negb (is_unused (b_status b0))); [discriminate|].
  apply bind_ok in E. destruct E as ([[nx ld] act] & _ & E).
  set (s := s32 (nx * BS (i_cfg f))) in E. apply Forall_cons_iff in HB. destruct HB as [H0 H1].
  assert (R : exists b0' p, (if ld then let '(b', p, _) := loadBuffer f b0 s in (b', p) else (b0, i_pos f)) = (b0', p) /\
                P b0').
  { destruct ld; [|eauto]. pose proof (P_load f b0 s HC HF (s32_range _)) as PL.
    destruct (loadBuffer f b0 s) as [[b' p] n] eqn:LD. exists b', p. split; auto. }
  destruct R as (b0' & p & R & HR). rewrite R in E.
  destruct act; inversion E; subst f'; unfold kept; cbn; repeat split; auto.
  - apply Forall_app. auto.
  - apply Forall_app. split; [|auto]. apply Forall_rev. auto.
Qed.

Lemma reload_loop_kept : forall fuel f x f', kept f -> reload_loop fuel f x = Ok f' -> kept f'.
Proof.
  induction fuel as [|fuel IH]; intros f x f' H E; cbn [reload_loop] in E; [discriminate|].
  apply bind_ok in E. destruct E as ([[go f1]|] & S1 & E).
  - pose proof (reload_step_kept f x go f1 H S1). destruct go; [eapply IH; eauto|inversion E; subst; auto].
  - inversion E; subst. auto.
Qed.

Lemma reload_kept : forall fuel f x f', kept f -> triggerReload fuel f x = Ok f' -> kept f'.
Proof.
  intros fuel f x f' H E. unfold triggerReload in E. apply bind_ok in E. destruct E as (f1 & L & E).
  pose proof (reload_loop_kept _ _ _ _ H L) as (H1 & H2 & H3).
  assert (R : kept (if_resetStatus f1)).
  { split; [exact H1|]. split; [exact H2|]. eapply Forall_stored_gen; [apply resetStatus_stored|auto]. }
  apply Ok_inj in E. subst f'. destruct (feq f0 (i_prev (if_resetStatus f1))); exact R.
Qed.

Lemma creach_kept : forall f, creach c fl f -> kept f.
Proof.
  intros f H. induction H as [pos g|fuel o f f' H IH G E].
  - split; [reflexivity|]. split; [reflexivity|]. constructor.
  - destruct o; cbn [cop_run] in E.
    + apply bind_ok in E. destruct E as ([t f1] & E1 & E2). apply Ok_inj in E2. subst.
      refine (preload_kept _ _ _ _ _ _ _ _ _ IH G E1). lia.
    + eapply reload_kept; eauto.
    + apply Ok_inj in E. subst. destruct IH as (I1 & I2 & I3).
      pose proof (if_get_store f i) as (S1 & S2 & S3 & S4 & S5 & S6 & S7 & S8).
      split; [congruence|]. split; [congruence|]. eapply Forall_stored_gen; eauto.
    + apply Ok_inj in E. subst. exact IH.
    + apply Ok_inj in E. subst. exact IH.
    + apply Ok_inj in E. subst. exact IH.
Qed.
End Inv.

(* ---- buffers hold the file's samples -------------------------------------- *)

Lemma holds_stored : forall c fl b b', stored b' = stored b -> holds c fl b -> holds c fl b'.
Proof. intros c fl b b' E H. unfold stored in E. inversion E as [[E1 E2 E3]]. unfold holds. rewrite E1, E3. exact H. Qed.

Lemma Forall_stored : forall c fl l l', map stored l' = map stored l -> Forall (holds c fl) l -> Forall (holds c fl) l'.
Proof. intros c fl. apply Forall_stored_gen. apply holds_stored. Qed.

Definition coherent (c : ccfg) (fl : file) (f : ifile) : Prop :=
  i_cfg f = c /\ i_file f = fl /\ Forall (holds c fl) (i_bufs f).

Lemma holds_load : forall c fl f b i, cfg_ok c -> fsize fl <= 2 ^ 31 -> i_cfg f = c -> i_file f = fl -> in_s32 i ->
  holds c fl (fst (fst (loadBuffer f b i))).
Proof.
  intros c fl f b i C FS <- <- Hi. destruct (loadBuffer f b i) as [[b' p] n] eqn:X. cbn [fst].
  eapply load_holds; eauto.
Qed.

Lemma reload_coherent : forall fuel c fl f x f', cfg_ok c -> fsize fl <= 2 ^ 31 -> coherent c fl f ->
  triggerReload fuel f x = Ok f' -> coherent c fl f'.
Proof.
  intros fuel c fl f x f' C FS H E. apply (reload_kept c fl (holds c fl) (holds_stored c fl)) in E; auto.
  intros. now apply holds_load.
Qed.

Lemma creach_coherent : forall c fl f, cfg_ok c -> fsize fl <= 2 ^ 31 -> creach c fl f -> coherent c fl f.
Proof.
  intros c fl f C FS H. apply (creach_kept c fl (holds c fl) (holds_stored c fl)) in H; auto.
  intros. now apply holds_load.
Qed.

Lemma coherent_get : forall c fl f i, coherent c fl f -> in_file fl i ->
  fst (if_get f i) = file_sample fl i \/
  (fst (if_get f i) = 0 /\ i_fails (snd (if_get f i)) = i_fails f + 1).
Proof.
  intros c fl f i (HC & HF & HB) IN. unfold if_get.
  destruct (find_with_index (u32 (blk (i_cfg f) i)) (i_bufs f)) as [[n|] bufs] eqn:E; cbn [fst snd].
  - left. destruct (find_some _ _ _ _ E) as (b & N & IX & _). rewrite N. subst c fl.
    assert (Forall (holds (i_cfg f) (i_file f)) bufs) as FB by (eapply Forall_stored; [eapply find_stored; eauto|auto]).
    rewrite Forall_forall in FB. apply (FB b); auto. now apply nth_error_In in N.
  - right. auto.
Qed.

(* C23 *)
Lemma never_wrong : forall c fl f i, cfg_ok c -> fsize fl <= 2 ^ 31 -> creach c fl f -> in_file fl i ->
  fst (if_get f i) = file_sample fl i \/
  (fst (if_get f i) = 0 /\ i_fails (snd (if_get f i)) = i_fails f + 1).
Proof. intros c fl f i C FS H IN. apply (coherent_get c fl); auto using creach_coherent. Qed.

(* ---- reload: termination -------------------------------------------------- *)

Fixpoint lmin (m : Z) (l : list Z) : Z := match l with [] => m | x :: l' => lmin (Z.min m x) l' end.

Lemma min_index_lmin : forall l m, min_index m l = lmin m (map b_index l).
Proof.
  induction l as [|b l IH]; intros m; cbn; [reflexivity|]. rewrite IH. f_equal.
  destruct (Z.ltb_spec (b_index b) m); lia.
Qed.

Lemma lmin_min : forall l m x, lmin (Z.min m x) l = Z.min x (lmin m l).
Proof.
  induction l as [|y l IH]; intros m x; cbn; [lia|].
  rewrite <- IH. f_equal. lia.
Qed.

Lemma lmin_app : forall l x m, lmin m (l ++ [x]) = Z.min x (lmin m l).
Proof. induction l as [|y l IH]; intros x m; cbn; [lia|]. now rewrite IH. Qed.

(* Smallest index of a vector; the rotation keeps it *)
Lemma lowest_rotate : forall b l, lowest (l ++ [b]) = lowest (b :: l).
Proof.
  intros b [|c l]; [reflexivity|]. unfold lowest. cbn [app]. rewrite !min_index_lmin.
  cbn [map lmin]. rewrite map_app. cbn [map]. rewrite lmin_app.
  rewrite !Z.min_id. rewrite (lmin_min (map b_index l) (b_index b) (b_index c)).
  assert (H : forall l x y, Z.min x (lmin y l) = Z.min y (lmin x l)).
  { clear. intros l x y. rewrite <- !lmin_min. f_equal. lia. }
  apply H.
Qed.

Lemma is_unused_true : forall s, is_unused s = true <-> s = StUnused.
Proof. destruct s; cbn; split; congruence. Qed.

Lemma reload_stuck_step : forall f x, reload_stuck f x ->
  exists f', reload_step f x = Ok (Some (true, f')) /\ reload_stuck f' x.
Proof.
  intros f x (LP & FX & NE & AU & LO). unfold reload_step.
  destruct (i_bufs f) as [|b0 rest] eqn:BF; [congruence|].
  inversion AU as [|? ? U0 UR]; subst. rewrite U0. cbn [is_unused negb].
  unfold reload_decide. rewrite FX, BF, LP. cbn [lowest] in LO.
  rewrite s32_u32. change (min_index (b_index b0) (b0 :: rest)) with (lowest (b0 :: rest)).
  destruct (Z.ltb_spec (s32 (lowest (b0 :: rest) - 1)) 0) as [_|C]; [|cbn [lowest] in C; lia].
  cbn [negb bind]. eexists. split; [reflexivity|].
  unfold reload_stuck. cbn. split; [auto|]. split; [auto|]. split; [destruct rest; discriminate|].
  split; [apply Forall_app; split; [exact UR|constructor; auto]|].
  rewrite lowest_rotate. exact LO.
Qed.

Lemma reload_stuck_hangs : forall fuel f x, reload_stuck f x -> reload_loop fuel f x = NoFuel.
Proof.
  induction fuel as [|fuel IH]; intros f x H; [reflexivity|]. cbn [reload_loop].
  destruct (reload_stuck_step f x H) as (f' & E & H'). rewrite E. cbn [bind]. auto.
Qed.

Lemma reload_hangs : forall f x, reload_stuck f x -> forall fuel, triggerReload fuel f x = NoFuel.
Proof.
  intros f x H fuel. unfold triggerReload, reload_rate. pose proof H as (LP & _). rewrite LP. cbn [loop_eqb andb].
  now rewrite reload_stuck_hangs.
Qed.

(* What a step does to the vector *)
Lemma reload_step_move : forall f x go f', reload_step f x = Ok (Some (go, f')) ->
  exists b0 rest, i_bufs f = b0 :: rest /\ b_status b0 = StUnused /\
    i_loop f' = i_loop f /\ i_cfg f' = i_cfg f /\ length (i_bufs f') = length (i_bufs f) /\
    ((go = false) \/
     (go = true /\ exists b0', i_bufs f' = rest ++ [b0'] /\
        (b_status b0' = StLoaded \/
         (b0' = b0 /\ i_loop f = LNone /\ fle f0 x = false /\ s32 (lowest (i_bufs f) - 1) < 0))) \/
     (go = true /\ i_bufs f' = rev (b0 :: rest) /\
        exists lb, nth_error (i_bufs f) (c_nbuf (i_cfg f) - 1) = Some lb /\ b_status lb = StRead)).
Proof.
  intros f x go f' E. unfold reload_step in E.
  destruct (i_bufs f) as [|b0 rest] eqn:BF; [discriminate|].
  destruct (is_unused (b_status b0)) eqn:U; cbn [negb] in E; [|discriminate].
  apply is_unused_true in U. exists b0, rest. split; [auto|]. split; [auto|].
  apply bind_ok in E. destruct E as ([[nx ld] act] & D & E).
  set (s := s32 (nx * BS (i_cfg f))) in E. cbv zeta in E.
  assert (R : exists b0' p, (if ld then let '(b', p, _) := loadBuffer f b0 s in (b', p) else (b0, i_pos f)) = (b0', p) /\
                (ld = true -> b_status b0' = StLoaded) /\ (ld = false -> b0' = b0)).
  { destruct ld.
    - destruct (loadBuffer f b0 s) as [[b' p] n] eqn:LD. exists b', p. split; auto. split; [|discriminate].
      intros _. unfold loadBuffer in LD. inversion LD; subst. reflexivity.
    - exists b0, (i_pos f). split; auto. split; [discriminate|auto]. }
  destruct R as (b0' & p & R & R1 & R2). rewrite R in E.
  assert (AC : act = MoveBuffer -> ld = true \/
            (ld = false /\ i_loop f = LNone /\ fle f0 x = false /\ s32 (lowest (b0 :: rest) - 1) < 0)).
  { intros ->. unfold reload_decide in D. rewrite BF in D. destruct (fle f0 x) eqn:FX; destruct (i_loop f) eqn:LP.
    - apply Ok_inj in D. inversion D; auto.
    - destruct (_ <? _); [apply bind_ok in D; destruct D as (lb & _ & D); apply bind_ok in D; destruct D as (nl & _ & D)|];
        apply Ok_inj in D; inversion D; auto.
    - destruct (_ <? _); [apply bind_ok in D; destruct D as (lb & _ & D)|];
        apply Ok_inj in D; [|inversion D; auto]. destruct (is_read (b_status lb)); discriminate.
    - apply Ok_inj in D. rewrite s32_u32 in D.
      change (min_index (b_index b0) (b0 :: rest)) with (lowest (b0 :: rest)) in D.
      destruct (Z.ltb_spec (s32 (lowest (b0 :: rest) - 1)) 0); inversion D; subst; auto.
    - destruct (_ <? _); [apply bind_ok in D; destruct D as (lb & _ & D); apply bind_ok in D; destruct D as (nl & _ & D)|];
        apply Ok_inj in D; inversion D; auto.
    - destruct (_ <? _); [apply bind_ok in D; destruct D as (lb & _ & D)|];
        apply Ok_inj in D; [|inversion D; auto]. destruct (is_read (b_status lb)); discriminate. }
  assert (AR : act = ReverseBuffer -> ld = false /\
            exists lb, nth_error (b0 :: rest) (c_nbuf (i_cfg f) - 1) = Some lb /\ b_status lb = StRead).
  { intros ->. unfold reload_decide, last_slot in D. rewrite BF in D. destruct (fle f0 x) eqn:FX; destruct (i_loop f) eqn:LP.
    - discriminate.
    - destruct (_ <? _); [apply bind_ok in D; destruct D as (lb & _ & D); apply bind_ok in D; destruct D as (nl & _ & D)|];
        apply Ok_inj in D; inversion D; auto.
    - destruct (_ <? _); [|discriminate]. apply bind_ok in D; destruct D as (lb & Q & D).
      destruct (nth_error (b0 :: rest) (c_nbuf (i_cfg f) - 1)) as [lb'|]; [|discriminate]. apply Ok_inj in Q. subst lb'.
      apply Ok_inj in D. destruct (b_status lb) eqn:SL; cbn in D; inversion D; subst. eauto.
    - discriminate.
    - destruct (_ <? _); [apply bind_ok in D; destruct D as (lb & _ & D); apply bind_ok in D; destruct D as (nl & _ & D)|];
        apply Ok_inj in D; inversion D; auto.
    - destruct (_ <? _); [|discriminate]. apply bind_ok in D; destruct D as (lb & Q & D).
      destruct (nth_error (b0 :: rest) (c_nbuf (i_cfg f) - 1)) as [lb'|]; [|discriminate]. apply Ok_inj in Q. subst lb'.
      apply Ok_inj in D. destruct (b_status lb) eqn:SL; cbn in D; inversion D; subst. eauto. }
  destruct act; apply Ok_inj in E; inversion E; subst go f'; clear E; cbn.
  - repeat split; auto.
  - split; [auto|]. split; [auto|]. split; [rewrite app_length; cbn; lia|]. right. left. split; [auto|].
    exists b0'. split; [auto|]. destruct (AC eq_refl) as [->|(-> & A)]; [left; auto|right]. split; [auto|].
    exact A.
  - destruct (AR eq_refl) as [-> A]. rewrite (R2 eq_refl).
    split; [auto|]. split; [auto|]. split; [rewrite app_length, rev_length; cbn; lia|]. right. right. auto.
Qed.

(* No matter where it stands, a buffer that is not unused stops the loop *)
Lemma reload_reaches : forall k f x b, nth_error (i_bufs f) k = Some b -> b_status b <> StUnused ->
  (length (i_bufs f) <= c_nbuf (i_cfg f))%nat ->
  reload_loop (k + 2) f x <> NoFuel.
Proof.
  induction k as [|k IH]; intros f x b N NU LN.
  - cbn [Nat.add reload_loop]. unfold reload_step. destruct (i_bufs f) as [|b0 rest]; [discriminate|].
    cbn in N. inversion N; subst. destruct (is_unused (b_status b)) eqn:U; [apply is_unused_true in U; congruence|].
    discriminate.
  - cbn [Nat.add reload_loop]. destruct (reload_step f x) as [[[go f']|]| |] eqn:E; cbn [bind]; try discriminate.
    + destruct (reload_step_move f x go f' E) as (b0 & rest & BF & U & LP & CF & LE & [G|[(G & b0' & B' & _)|(G & B' & lb & NL & RL)]]);
        subst go; [discriminate| |].
      * rewrite BF in N. cbn [nth_error] in N. apply (IH f' x b).
        -- rewrite B'. rewrite nth_error_app1; auto. apply nth_error_Some. congruence.
        -- auto.
        -- rewrite LE, CF. auto.
      * (* the vector was reversed: its first element is now read *)
        assert (LL : length (i_bufs f) = c_nbuf (i_cfg f)).
        { assert (nth_error (i_bufs f) (c_nbuf (i_cfg f) - 1) <> None) as X by congruence. apply nth_error_Some in X.
          rewrite BF in *. cbn in *. lia. }
        assert (HD : nth_error (i_bufs f') 0 = Some lb).
        { rewrite B', <- BF. rewrite <- LL in NL. clear - NL BF.
          destruct (exists_last (l := i_bufs f)) as (l & a & EL); [rewrite BF; discriminate|].
          rewrite EL in *. rewrite app_length in NL. cbn [length] in NL.
          replace (length l + 1 - 1)%nat with (length l) in NL by lia. rewrite nth_error_last in NL.
          rewrite rev_app_distr. cbn. exact NL. }
        replace (k + 2)%nat with (S (k + 1)) by lia. cbn [reload_loop]. unfold reload_step.
        destruct (i_bufs f') as [|c rest']; [discriminate|]. cbn in HD. inversion HD; subst. rewrite RL. discriminate.
    + exfalso. unfold reload_step in E. destruct (i_bufs f); [discriminate|].
      destruct (negb _); [discriminate|].
      destruct (reload_decide f x i) as [[[nx ld] act]| |] eqn:D; cbn [bind] in E; [|discriminate|].
      * destruct ld; [destruct (loadBuffer _ _ _) as [[? ?] ?]|]; destruct act; discriminate.
      * clear - D. unfold reload_decide, last_slot, chk32 in D.
        destruct (fle f0 x), (i_loop f), (nth_error (i_bufs f) (c_nbuf (i_cfg f) - 1)); cbn in D;
          repeat match type of D with context [if ?c then _ else _] => destruct c; cbn in D end; discriminate.
Qed.

Lemma reload_step_fuel : forall f x, reload_step f x <> NoFuel.
Proof.
  intros f x E. unfold reload_step in E. destruct (i_bufs f); [discriminate|].
  destruct (negb _); [discriminate|].
  destruct (reload_decide f x i) as [[[nx ld] act]| |] eqn:D; cbn [bind] in E; [|discriminate|].
  - destruct ld; [destruct (loadBuffer _ _ _) as [[? ?] ?]|]; destruct act; discriminate.
  - clear - D. unfold reload_decide, last_slot, chk32 in D.
    destruct (fle f0 x), (i_loop f), (nth_error (i_bufs f) (c_nbuf (i_cfg f) - 1)); cbn in D;
      repeat match type of D with context [if ?c then _ else _] => destruct c; cbn in D end; discriminate.
Qed.

Lemma Forall_or : forall (l : list ibuf), Forall (fun b => b_status b = StUnused) l \/
  exists k b, nth_error l k = Some b /\ b_status b <> StUnused.
Proof.
  induction l as [|b l [IH|(k & c & H & U)]]; [left; constructor| |].
  - destruct (is_unused (b_status b)) eqn:U.
    + left. constructor; auto. now apply is_unused_true.
    + right. exists O, b. split; [reflexivity|]. intro X. apply is_unused_true in X. congruence.
  - right. exists (S k), c. auto.
Qed.

Lemma reload_loop_returns : forall f x, (length (i_bufs f) <= c_nbuf (i_cfg f))%nat ->
  ~ reload_stuck f x -> exists fuel, reload_loop fuel f x <> NoFuel.
Proof.
  intros f x LN NS. destruct (Forall_or (i_bufs f)) as [AU|(k & b & N & U)]; [|exists (k + 2)%nat; eapply reload_reaches; eauto].
  destruct (reload_step f x) as [[[go f']|]| |] eqn:E.
  - destruct (reload_step_move f x go f' E) as (b0 & rest & BF & U & LP & CF & LE & [G|[(G & b0' & B' & H)|(G & B' & lb & NL & RL)]]); subst go.
    + exists 1%nat. cbn [reload_loop]. rewrite E. discriminate.
    + destruct H as [H|(-> & L & FX & LO)].
      * exists (S (length rest + 2)). cbn [reload_loop]. rewrite E. cbn [bind].
        apply (reload_reaches (length rest) f' x b0'); [rewrite B'; apply nth_error_last|congruence|rewrite LE, CF; auto].
      * exfalso. apply NS. unfold reload_stuck. rewrite BF in *. repeat split; auto. discriminate.
    + exfalso. apply nth_error_In in NL. rewrite Forall_forall in AU. apply AU in NL. congruence.
  - exists 1%nat. cbn [reload_loop]. rewrite E. discriminate.
  - exists 1%nat. cbn [reload_loop]. rewrite E. discriminate.
  - now apply reload_step_fuel in E.
Qed.

(* C26: reload returns exactly when it is not stuck *)
Lemma reload_returns : forall f x, (length (i_bufs f) <= c_nbuf (i_cfg f))%nat ->
  ((forall fuel, triggerReload fuel f x = NoFuel) <-> reload_stuck f x).
Proof.
  intros f x LN. split; [|intros H fuel; now apply reload_hangs].
  intros H. destruct (Forall_or (i_bufs f)) as [AU|(k & b & N & U)].
  - destruct (i_loop f) eqn:LP; destruct (fle f0 x) eqn:FX; try
      (exfalso; destruct (reload_loop_returns f (reload_rate f x) LN) as [fuel NF];
       [intros (L & F & _); unfold reload_rate in *; rewrite LP in *; cbn in *; congruence|];
       specialize (H fuel); unfold triggerReload in H; destruct (reload_loop fuel f (reload_rate f x)); cbn in H; congruence).
    assert (RR : reload_rate f x = x) by (unfold reload_rate; rewrite LP; reflexivity).
    destruct (i_bufs f) as [|b0 rest] eqn:BF.
    + exfalso. specialize (H 1%nat). unfold triggerReload in H. cbn [reload_loop] in H. unfold reload_step in H. rewrite BF in H. discriminate.
    + destruct (Z.lt_ge_cases (s32 (lowest (i_bufs f) - 1)) 0) as [LO|LO].
      * unfold reload_stuck. rewrite BF in *. repeat split; auto. discriminate.
      * exfalso. destruct (reload_loop_returns f (reload_rate f x)) as [fuel NF].
        -- rewrite BF. exact LN.
        -- intros (_ & _ & _ & _ & L). lia.
        -- specialize (H fuel). unfold triggerReload in H. destruct (reload_loop fuel f (reload_rate f x)); cbn in H; congruence.
  - exfalso. pose proof (reload_reaches k f (reload_rate f x) b N U LN) as NF.
    specialize (H (k + 2)%nat). unfold triggerReload in H. destruct (reload_loop (k + 2) f (reload_rate f x)); cbn in H; congruence.
Qed.

(* ---- number of buffers, indices ------------------------------------------- *)

Definition idx_ok (b : ibuf) : Prop := - 2 ^ 30 <= s32 (b_index b) < 2 ^ 30.

(* At most N buffers, all with indices of blocks *)
Definition shaped (c : ccfg) (f : ifile) : Prop :=
  i_cfg f = c /\ (length (i_bufs f) <= c_nbuf c)%nat /\ Forall idx_ok (i_bufs f).

Lemma load_idx : forall f b i, cfg_ok (i_cfg f) -> in_s32 i -> idx_ok (fst (fst (loadBuffer f b i))).
Proof.
  intros f b i C H. unfold loadBuffer, idx_ok. cbn [fst b_index]. rewrite s32_u32.
  pose proof (blk_range _ _ C H). rewrite s32_id by (unfold in_s32; lia). lia.
Qed.

Lemma preload_shaped : forall c todo bufn fw f i total t f', cfg_ok c -> (bufn + todo = c_nbuf c)%nat ->
  (bufn <= length (i_bufs f))%nat ->
  shaped c f -> in_s32 i -> preload_loop todo bufn fw f i total = Ok (t, f') -> shaped c f'.
Proof.
  intros c. induction todo as [|todo IH]; intros bufn fw f i total t f' C TB LB H Hi E; cbn [preload_loop] in E.
  - inversion E; subst. auto.
  - destruct H as (HC & HL & HX). subst c.
    set (f1 := if Nat.leb (length (i_bufs f)) bufn then _ else _) in E.
    assert (F1 : i_cfg f1 = i_cfg f /\ (S bufn <= length (i_bufs f1) <= c_nbuf (i_cfg f))%nat /\
      Forall idx_ok (list_upd bufn (fun b => fst (fst (loadBuffer f1 b i))) (i_bufs f1))).
    { assert (L : forall g b, i_cfg g = i_cfg f -> idx_ok (fst (fst (loadBuffer g b i)))).
      { intros g b G. apply load_idx; auto. now rewrite G. }
      unfold f1. destruct (Nat.leb_spec (length (i_bufs f)) bufn) as [LE|LE].
      - assert (bufn = length (i_bufs f)) as -> by lia. cbn [i_bufs i_cfg i_file set].
        split; [reflexivity|]. split; [cbn; rewrite app_length; cbn; lia|].
        rewrite list_upd_app. apply Forall_app. split; [auto|]. constructor; [|constructor]. apply L; reflexivity.
      - split; [reflexivity|]. split; [lia|]. apply Forall_upd; auto. }
    clearbody f1. destruct F1 as (F1 & F2 & F3).
    destruct (nth_error (i_bufs f1) bufn) as [b|] eqn:NB; [|discriminate].
    destruct (loadBuffer f1 b i) as [[b' p] n] eqn:LD.
    assert (U : list_upd bufn (fun _ => b') (i_bufs f1) =
                list_upd bufn (fun b => fst (fst (loadBuffer f1 b i))) (i_bufs f1)).
    { eapply upd_nth; [exact NB|]. now rewrite LD. }
    rewrite U in E.
    set (f2 := f1 <| i_bufs := _ |> <| i_pos := p |>) in E.
    assert (L2 : (S bufn <= length (i_bufs f2) <= c_nbuf (i_cfg f))%nat) by (unfold f2; cbn; rewrite list_upd_length; auto).
    assert (CO : shaped (i_cfg f) f2) by (unfold shaped, f2; cbn; rewrite list_upd_length; intuition).
    clearbody f2.
    destruct (n <? BS (i_cfg f)); [inversion E; subst; auto|].
    apply bind_ok in E. destruct E as (i' & CK & E). apply chk32_inv in CK. destruct CK as [-> CK].
    refine (IH _ _ _ _ _ _ _ C _ _ CO CK E); lia.
Qed.

Lemma reload_step_shaped : forall c f x g f', cfg_ok c -> shaped c f ->
  reload_step f x = Ok (Some (g, f')) -> shaped c f' /\ length (i_bufs f') = length (i_bufs f).
Proof.
  intros c f x g f' C (HC & HL & HX) E.
  pose proof (reload_step_move f x g f' E) as (_ & _ & _ & _ & _ & CF & LE & _).
  split; [|auto]. split; [congruence|]. split; [lia|].
  unfold reload_step in E.
  destruct (i_bufs f) as [|b0 rest] eqn:BF; [discriminate|].
  destruct (negb (is_unused (b_status b0))); [discriminate|].
  apply bind_ok in E. destruct E as ([[nx ld] act] & _ & E).
  set (s := s32 (nx * BS (i_cfg f))) in E. inversion HX as [|? ? H0 H1]; subst.
  assert (R : exists b0' p, (if ld then let '(b', p, _) := loadBuffer f b0 s in (b', p) else (b0, i_pos f)) = (b0', p) /\
                idx_ok b0').
  { destruct ld; [|eauto]. destruct (loadBuffer f b0 s) as [[b' p] n] eqn:LD. exists b', p. split; auto.
    change b' with (fst (fst (b', p, n))). rewrite <- LD. apply load_idx; auto. apply s32_range. }
  destruct R as (b0' & p & R & HR). rewrite R in E.
  destruct act; inversion E; subst; cbn; auto.
  - apply Forall_app. auto.
  - apply Forall_app. split; [|auto]. apply Forall_rev. auto.
Qed.

Lemma reload_loop_shaped : forall fuel c f x f', cfg_ok c -> shaped c f -> reload_loop fuel f x = Ok f' ->
  shaped c f' /\ length (i_bufs f') = length (i_bufs f).
Proof.
  induction fuel as [|fuel IH]; intros c f x f' C H E; cbn [reload_loop] in E; [discriminate|].
  apply bind_ok in E. destruct E as ([[go f1]|] & S1 & E).
  - destruct (reload_step_shaped c f x go f1 C H S1) as [H1 L1].
    destruct go; [|inversion E; subst; auto]. destruct (IH c f1 x f' C H1 E). split; [auto|lia].
  - inversion E; subst. auto.
Qed.

Lemma Forall_idx_stored : forall l l', map stored l' = map stored l -> Forall idx_ok l -> Forall idx_ok l'.
Proof.
  induction l as [|b l IH]; intros [|b' l'] E H; cbn in E; try discriminate; constructor; inversion H; subst.
  - unfold idx_ok in *. unfold stored in E. congruence.
  - apply IH; auto. congruence.
Qed.

Lemma stored_length : forall l l', map stored l' = map stored l -> length l' = length l.
Proof. intros l l' E. apply (f_equal (@length _)) in E. now rewrite !map_length in E. Qed.

Lemma shaped_stored : forall c f f', i_cfg f' = i_cfg f -> map stored (i_bufs f') = map stored (i_bufs f) ->
  shaped c f -> shaped c f'.
Proof.
  intros c f f' EC ES (H1 & H2 & H3). split; [congruence|]. split; [rewrite (stored_length _ _ ES); auto|].
  eapply Forall_idx_stored; eauto.
Qed.

Lemma reload_shaped : forall fuel c f x f', cfg_ok c -> shaped c f -> triggerReload fuel f x = Ok f' ->
  shaped c f' /\ length (i_bufs f') = length (i_bufs f).
Proof.
  intros fuel c f x f' C H E. unfold triggerReload in E. apply bind_ok in E. destruct E as (f1 & L & E).
  destruct (reload_loop_shaped _ _ _ _ _ C H L) as [H1 L1]. apply Ok_inj in E. subst f'.
  pose proof (resetStatus_stored f1) as RS.
  assert (shaped c (if_resetStatus f1)) by (apply (shaped_stored c f1); [reflexivity|exact RS|auto]).
  apply stored_length in RS.
  destruct (feq f0 (i_prev (if_resetStatus f1))); (split; [assumption|cbn in *; congruence]).
Qed.

Lemma creach_shaped : forall c fl f, cfg_ok c -> creach c fl f -> shaped c f.
Proof.
  intros c fl f C H. induction H as [pos g|fuel o f f' H IH G E].
  - split; [reflexivity|]. split; [cbn; lia|constructor].
  - destruct o; cbn [cop_run] in E.
    + apply bind_ok in E. destruct E as ([t f1] & E1 & E2). apply Ok_inj in E2. subst. pose proof IH as (IC & _).
      unfold preLoadBuffers in E1. rewrite IC in E1.
      refine (preload_shaped c _ _ _ _ _ _ _ _ C _ _ IH G E1); lia.
    + eapply reload_shaped; eauto.
    + apply Ok_inj in E. subst. pose proof (if_get_store f i) as (S1 & S2 & S3 & S4 & S5 & S6 & S7 & S8).
      eapply shaped_stored; eauto.
    + apply Ok_inj in E. subst. exact IH.
    + apply Ok_inj in E. subst. exact IH.
    + apply Ok_inj in E. subst. exact IH.
Qed.

(* ---- C27: with all its buffers, reload has no undefined behaviour -------- *)

Lemma reload_step_safe : forall c f x w, cfg_ok c -> shaped c f -> length (i_bufs f) = c_nbuf c ->
  reload_step f x <> UB w.
Proof.
  intros c f x w C (HC & HL & HX) LN E. unfold reload_step in E.
  destruct (i_bufs f) as [|b0 rest] eqn:BF; [discriminate|].
  destruct (negb (is_unused (b_status b0))); [discriminate|].
  destruct (reload_decide f x b0) as [[[nx ld] act]|w'|] eqn:D; cbn [bind] in E; [| |discriminate].
  - destruct ld; [destruct (loadBuffer _ _ _) as [[? ?] ?]|]; destruct act; discriminate.
  - assert (LS : exists lb, last_slot f = Ok lb /\ idx_ok lb).
    { unfold last_slot. rewrite BF, HC, <- LN.
      destruct (nth_error (b0 :: rest) (length (b0 :: rest) - 1)) as [lb|] eqn:N.
      - exists lb. split; [auto|]. apply nth_error_In in N. rewrite Forall_forall in HX. auto.
      - apply nth_error_None in N. cbn in N. lia. }
    destruct LS as (lb & LS & (I1 & I2)). unfold reload_decide in D. rewrite LS in D. cbn [bind] in D.
    rewrite !chk32_ok in D by (unfold in_s32; lia). cbn [bind] in D.
    destruct (fle f0 x), (i_loop f); repeat match type of D with context [if ?c then _ else _] => destruct c end; discriminate.
Qed.

Lemma reload_loop_safe : forall fuel c f x w, cfg_ok c -> shaped c f -> length (i_bufs f) = c_nbuf c ->
  reload_loop fuel f x <> UB w.
Proof.
  induction fuel as [|fuel IH]; intros c f x w C H LN E; cbn [reload_loop] in E; [discriminate|].
  destruct (reload_step f x) as [[[go f1]|]| |] eqn:S1; cbn [bind] in E; try discriminate.
  - destruct (reload_step_shaped c f x go f1 C H S1) as [H1 L1]. destruct go; [|discriminate].
    eapply (IH c f1); eauto. lia.
  - inversion E; subst. eapply (reload_step_safe c); eauto.
Qed.

Lemma reload_safe : forall fuel c fl f x w, cfg_ok c -> creach c fl f -> length (i_bufs f) = c_nbuf c ->
  triggerReload fuel f x <> UB w.
Proof.
  intros fuel c fl f x w C H LN E. unfold triggerReload in E. apply (creach_shaped c fl f C) in H.
  pose proof (reload_loop_safe fuel c f (reload_rate f x)) as S.
  destruct (reload_loop fuel f (reload_rate f x)) as [f1|w1|]; cbn [bind] in E; try discriminate.
  now apply (S w1 C H LN).
Qed.

(* Without looping no buffer count is needed *)
Lemma reload_none_safe : forall fuel f x w, i_loop f = LNone -> triggerReload fuel f x <> UB w.
Proof.
  intros fuel f x w LP E. unfold triggerReload in E.
  assert (S : forall fuel f, i_loop f = LNone -> forall x w, reload_loop fuel f x <> UB w).
  { clear. induction fuel as [|fuel IH]; intros f LP x w E; cbn [reload_loop] in E; [discriminate|].
    destruct (reload_step f x) as [[[go f1]|]| |] eqn:S1; cbn [bind] in E; try discriminate.
    - destruct (reload_step_move f x go f1 S1) as (_ & _ & _ & _ & LE & _). destruct go; [|discriminate].
      eapply (IH f1); eauto. congruence.
    - unfold reload_step in S1. destruct (i_bufs f) as [|b0 rest]; [discriminate|]. destruct (negb _); [discriminate|].
      unfold reload_decide in S1. rewrite LP in S1. destruct (fle f0 x); cbn [bind] in S1.
      + destruct (loadBuffer _ _ _) as [[? ?] ?]. discriminate.
      + destruct (negb _); [destruct (loadBuffer _ _ _) as [[? ?] ?]|]; discriminate. }
  specialize (S fuel f LP (reload_rate f x)).
  destruct (reload_loop fuel f (reload_rate f x)) as [f1|w1|]; cbn [bind] in E; try discriminate. now apply (S w1).
Qed.
