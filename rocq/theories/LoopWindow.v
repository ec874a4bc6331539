(* The window of buffered blocks during forward playback of a repeat loop. *)

From Coq Require Import ZArith Lia List Bool.
From RecordUpdate Require Import RecordUpdate.
From Flocq Require Import Core.Core IEEE754.BinarySingleNaN.
From Verif Require Import Machine Floats WavModel CacheModel CacheFacts CacheSpec CacheProofs WindowProofs.
Import ListNotations.
Local Open Scope Z_scope.

(* The blocks in the order in which they are loaded: up to X, then S .. X over and
   over *)
Definition unroll (S X u : Z) : Z := if u <=? X then u else S + (u - S) mod (X - S + 1).

Lemma unroll_low : forall S X u, u <= X -> unroll S X u = u.
Proof. intros. unfold unroll. destruct (Z.leb_spec u X); lia. Qed.

Lemma unroll_range : forall S X u, S <= X -> X < u -> S <= unroll S X u <= X.
Proof.
  intros S X u H L. unfold unroll. destruct (Z.leb_spec u X); [lia|].
  pose proof (Z.mod_pos_bound (u - S) (X - S + 1)). lia.
Qed.

Lemma unroll_le : forall S X u, S <= X -> unroll S X u <= X.
Proof.
  intros S X u H. destruct (Z.le_gt_cases u X); [rewrite unroll_low; lia|]. pose proof (unroll_range S X u H). lia.
Qed.

Lemma unroll_nonneg : forall S X u, 0 <= S <= X -> 0 <= u -> 0 <= unroll S X u.
Proof.
  intros S X u H U. destruct (Z.le_gt_cases u X); [rewrite unroll_low; lia|]. pose proof (unroll_range S X u). lia.
Qed.

(* block b on turn w *)
Lemma unroll_turn : forall S X b w, S <= X -> 0 <= w -> (w = 0 \/ S <= b) -> b <= X ->
  unroll S X (b + w * (X - S + 1)) = b.
Proof.
  intros S X b w H W B L. destruct (Z.eq_dec w 0) as [ -> |NW]; [rewrite Z.add_0_r; now apply unroll_low|].
  assert (S <= b) by lia. unfold unroll.
  destruct (Z.leb_spec (b + w * (X - S + 1)) X); [nia|].
  replace (b + w * (X - S + 1) - S) with (b - S + w * (X - S + 1)) by ring.
  rewrite Z.mod_add by lia. rewrite Z.mod_small by lia. lia.
Qed.

(* the successor *)
Lemma unroll_succ : forall S X u, S <= X ->
  unroll S X (u + 1) = if unroll S X u =? X then S else unroll S X u + 1.
Proof.
  intros S X u H. destruct (Z.le_gt_cases u X) as [L|L].
  - rewrite (unroll_low S X u L). destruct (Z.eqb_spec u X) as [ -> |E].
    + unfold unroll. destruct (Z.leb_spec (X + 1) X); [lia|].
      replace (X + 1 - S) with (X - S + 1) by ring. rewrite Z.mod_same by lia. lia.
    + apply unroll_low. lia.
  - set (T := X - S + 1). assert (HT : 0 < T) by (unfold T; lia).
    pose proof (Z.mod_pos_bound (u - S) T HT) as MB. pose proof (Z.div_mod (u - S) T ltac:(lia)) as DM.
    unfold unroll at 2 3. fold T. destruct (Z.leb_spec u X); [lia|].
    unfold unroll. fold T. destruct (Z.leb_spec (u + 1) X); [lia|].
    destruct (Z.eqb_spec (S + (u - S) mod T) X) as [E|E].
    + replace (u + 1 - S) with (0 + ((u - S) / T + 1) * T) by (unfold T in *; nia).
      rewrite Z.mod_add by lia. rewrite Z.mod_0_l by lia. lia.
    + replace (u + 1 - S) with ((u - S) mod T + 1 + (u - S) / T * T) by lia.
      rewrite Z.mod_add by lia. rewrite Z.mod_small by (unfold T in *; lia). lia.
Qed.

(* All buffers are present and hold the blocks number a, a+1, ... of this order *)
Record lwin (c : ccfg) (fl : file) (S E X a : Z) (f : ifile) : Prop := mkLwin {
  lw_cfg : i_cfg f = c;
  lw_file : i_file f = fl;
  lw_loop : i_loop f = LRepeat;
  lw_lsb : i_lsb f = S;
  lw_lfb : i_lfb f = E;
  lw_fails : i_fails f = 0;
  lw_len : length (i_bufs f) = c_nbuf c;
  lw_holds : Forall (holds c fl) (i_bufs f);
  lw_idx : forall t b, nth_error (i_bufs f) t = Some b ->
    b_index b = unroll S X (a + Z.of_nat t) /\ (2 * (b_index b * BS c) < fsize fl -> 0 < b_size b) }.

(* The order is the one that reloading follows: X is the loop end, or X lies in
   the window (and a whole turn does too) *)
Definition lwin_ok (c : ccfg) (S E X a : Z) : Prop :=
  0 <= S <= X /\ E <= X /\ 0 <= a /\ (X + 1) * BS c < 2 ^ 31 /\
  (X = E \/ (X < a + Z.of_nat (c_nbuf c) /\ X - S < Z.of_nat (c_nbuf c))).

(* The lookup of block q finds buffer p first *)
Definition slot (c : ccfg) (S X a q : Z) (p : nat) : Prop :=
  (p < c_nbuf c)%nat /\ unroll S X (a + Z.of_nat p) = q /\
  forall t, (t < p)%nat -> unroll S X (a + Z.of_nat t) <> q.

Lemma slot_exists : forall c S X a q u, unroll S X u = q -> a <= u < a + Z.of_nat (c_nbuf c) ->
  exists p, slot c S X a q p /\ a + Z.of_nat p <= u.
Proof.
  intros c S X a q u E.
  assert (G : forall n, a + Z.of_nat n = u -> (n < c_nbuf c)%nat -> exists p, slot c S X a q p /\ a + Z.of_nat p <= u).
  { intros n HN LN.
    assert (W : forall k, (k <= n)%nat -> (exists p, slot c S X a q p /\ (p < k)%nat) \/
       (forall t, (t < k)%nat -> unroll S X (a + Z.of_nat t) <> q)).
    { induction k as [|k IH]; intros K; [right; intros; lia|].
      destruct (IH ltac:(lia)) as [(p & SP & LP)|NO]; [left; exists p; split; [auto|lia]|].
      destruct (Z.eq_dec (unroll S X (a + Z.of_nat k)) q) as [Y|Y].
      - left. exists k. split; [|lia]. split; [lia|]. auto.
      - right. intros t T. destruct (Nat.eq_dec t k); [subst; auto|apply NO; lia]. }
    destruct (W n ltac:(lia)) as [(p & SP & LP)|NO].
    - exists p. split; [auto|lia].
    - exists n. split; [|lia]. split; [auto|]. split; [congruence|auto]. }
  intros B. apply (G (Z.to_nat (u - a))); lia.
Qed.

Lemma slot_unique : forall c S X a q p p', slot c S X a q p -> slot c S X a q p' -> p = p'.
Proof.
  intros c S X a q p p' (A1 & A2 & A3) (B1 & B2 & B3).
  destruct (Nat.lt_trichotomy p p') as [L|[L|L]]; auto; [destruct (B3 p L A2)|destruct (A3 p' L B2)].
Qed.

(* ---- a fetch --------------------------------------------------------------- *)

Definition first_use (o : option nat) (p : nat) : nat := match o with Some d => Nat.min d p | None => p end.

Lemma lwin_get : forall c fl S E X a f i o p, cfg_ok c -> fsize fl <= 2 ^ 31 -> lwin c fl S E X a f ->
  marks o f -> in_file fl i -> slot c S X a (blk c i) p ->
  exists f', if_get f i = (file_sample fl i, f') /\ lwin c fl S E X a f' /\ marks (Some (first_use o p)) f'.
Proof.
  intros c fl S E X a f i o A C FS W MK IN (AM & AQ & AN).
  pose proof W as [W1 W2 W3 W3a W3b W4 W5 W6 W7].
  pose proof (BS_pos _ C) as HB. pose proof (blk_mod c i C) as BM. pose proof (mod_BS c i C) as MB.
  destruct IN as [I0 I1].
  destruct (nth_error (i_bufs f) A) as [b|] eqn:N; [|apply nth_error_None in N; lia].
  destruct (W7 A b N) as [IX SZ].
  assert (U : u32 (blk c i) = blk c i).
  { apply u32_id. unfold in_u32. pose proof (blk_nonneg c i C I0). nia. }
  assert (BI2 : b_index b = blk c i) by lia.
  assert (SP : 0 < b_size b) by (apply SZ; rewrite BI2; lia).
  destruct (find_at (u32 (blk c i)) (i_bufs f) A b N) as (l1 & EF & HT); [congruence|auto| |].
  { intros t b' T NT. destruct (W7 t b' NT) as [Y _]. rewrite U, Y. auto. }
  unfold if_get. rewrite W1, EF, HT, N. cbn [option_map]. rewrite Nat.ltb_irrefl.
  eexists. split.
  { f_equal. rewrite Forall_forall in W6. apply nth_error_In in N. apply (W6 b N); [split; auto|congruence]. }
  assert (NT : forall t, nth_error (list_upd A (fun b => b <| b_status := StRead |>) l1) t =
     option_map (fun b => if Nat.eqb t A then b <| b_status := StRead |> else if Nat.ltb t A then mark b else b) (nth_error (i_bufs f) t)).
  { intros t. rewrite nth_upd, HT. destruct (nth_error (i_bufs f) t) as [x|]; cbn [option_map]; [|reflexivity].
    destruct (Nat.eqb_spec t A); [subst; rewrite Nat.ltb_irrefl; reflexivity|reflexivity]. }
  split.
  - constructor; try assumption.
    + cbn. rewrite list_upd_length. pose proof (find_stored _ _ _ _ EF) as ST. now rewrite (stored_length _ _ ST).
    + cbn. eapply Forall_stored; [|exact W6]. rewrite list_upd_stored. eapply find_stored; eauto.
    + cbn. intros t x NX. rewrite NT in NX. destruct (nth_error (i_bufs f) t) as [y|] eqn:NY; [|discriminate].
      cbn [option_map] in NX. apply Some_inj in NX. subst x. destruct (W7 t y NY) as [X1 X2].
      destruct (Nat.eqb t A); [cbn; auto|]. destruct (Nat.ltb t A); [|auto].
      unfold mark. destruct (is_read (b_status y)); cbn; auto.
  - intros t x NX. cbn in NX. rewrite NT in NX. destruct (nth_error (i_bufs f) t) as [y|] eqn:NY; [|discriminate].
    cbn [option_map] in NX. apply Some_inj in NX. subst x. pose proof (MK t y NY) as MY.
    unfold first_use. destruct o as [d|].
    + destruct MY as [M1 M2]. split; intro T.
      * destruct (Nat.eqb_spec t A); [lia|]. destruct (Nat.ltb_spec t A); [|lia].
        unfold mark. rewrite (M1 ltac:(lia)). reflexivity.
      * destruct (Nat.eqb_spec t A); [reflexivity|]. assert (TA : t = d) by lia. destruct (Nat.ltb_spec t A); [|lia].
        unfold mark. rewrite (M2 TA). cbn. auto.
    + split; intro T.
      * destruct (Nat.eqb_spec t A); [lia|]. destruct (Nat.ltb_spec t A); [|lia].
        unfold mark. rewrite MY. reflexivity.
      * destruct (Nat.eqb_spec t A); [reflexivity|lia].
Qed.

(* ---- reload ------------------------------------------------------------- *)

Lemma nth_at : forall {A} (l : list A) n, (n < length l)%nat -> exists b, nth_error l n = Some b.
Proof.
  intros A l n H. destruct (nth_error l n) eqn:E; [eauto|]. apply nth_error_None in E. lia.
Qed.

(* The largest index: X when the window contains it, otherwise that of the last buffer *)
Lemma lwin_max : forall c fl S E X a f b0 rest, (1 <= c_nbuf c)%nat -> lwin c fl S E X a f -> S <= X -> i_bufs f = b0 :: rest ->
  let mx := max_index (b_index b0) (i_bufs f) in
  (mx = X \/ (mx = unroll S X (a + Z.of_nat (c_nbuf c) - 1) /\ mx < X)) /\
  (X < a + Z.of_nat (c_nbuf c) /\ X - S < Z.of_nat (c_nbuf c) -> mx = X).
Proof.
  intros c fl S E X a f b0 rest NB W SX EB mx. pose proof W as [_ _ _ _ _ _ W5 _ W7].
  destruct (max_index_ge (i_bufs f) (b_index b0)) as [G0 G]. fold mx in G0, G.
  assert (GE : forall t, (t < c_nbuf c)%nat -> unroll S X (a + Z.of_nat t) <= mx).
  { intros t T. destruct (nth_at (i_bufs f) t ltac:(lia)) as (b & N). destruct (W7 _ _ N) as [Y _].
    rewrite <- Y. apply G. eapply nth_error_In; eauto. }
  assert (IN : exists t, (t < c_nbuf c)%nat /\ mx = unroll S X (a + Z.of_nat t)).
  { destruct (max_index_in (i_bufs f) (b_index b0)) as [H|(b & IN & H)]; fold mx in H.
    - exists O. split; [lia|]. rewrite H. apply (W7 O). now rewrite EB.
    - apply In_nth_error in IN. destruct IN as (t & NT). exists t. split.
      + rewrite <- W5. apply nth_error_Some. congruence.
      + rewrite H. now apply W7. }
  destruct IN as (t & T & EM).
  assert (MX : mx <= X) by (rewrite EM; apply unroll_le; auto).
  split.
  - destruct (Z.eq_dec mx X) as [|NX]; [auto|]. right. split; [|lia].
    (* no turn inside the window *)
    assert (R : forall s, (t + s < c_nbuf c)%nat -> s = O).
    { induction s as [|s IH]; intros L; [auto|]. assert (s = O) by (apply IH; lia). subst s.
      pose proof (GE (t + 1)%nat L) as Q. replace (a + Z.of_nat (t + 1)) with (a + Z.of_nat t + 1) in Q by lia.
      rewrite unroll_succ, <- EM in Q by auto. destruct (Z.eqb_spec mx X); [congruence|lia]. }
    assert (TM : t = (c_nbuf c - 1)%nat).
    { destruct (Nat.eq_dec t (c_nbuf c - 1)); auto. pose proof (R 1%nat ltac:(lia)). lia. }
    rewrite EM, TM. f_equal. lia.
  - intros [L1 L2].
    assert (EX : exists u, a <= u < a + Z.of_nat (c_nbuf c) /\ unroll S X u = X).
    { destruct (Z.le_gt_cases a X) as [LA|LA]; [exists X; split; [lia|apply unroll_low; lia]|].
      set (P := X - S + 1) in *. set (w := (a - X + P - 1) / P).
      assert (HP : 0 < P) by (unfold P; lia).
      pose proof (Z.div_mod (a - X + P - 1) P ltac:(lia)) as DM. pose proof (Z.mod_pos_bound (a - X + P - 1) P HP) as MB.
      fold w in DM.
      exists (X + w * P). split; [unfold P in *; lia|]. unfold P. apply unroll_turn; try lia.
      }
    destruct EX as (u & UB & UX).
    pose proof (GE (Z.to_nat (u - a)) ltac:(lia)) as Q. replace (a + Z.of_nat (Z.to_nat (u - a))) with u in Q by lia. lia.
Qed.

Lemma lwin_decide : forall c fl S E X a f b0 rest x, cfg_ok c -> lwin c fl S E X a f -> lwin_ok c S E X a ->
  fle f0 x = true -> i_bufs f = b0 :: rest ->
  reload_decide f x b0 = Ok (unroll S X (a + Z.of_nat (c_nbuf c)), true, MoveBuffer).
Proof.
  intros c fl S E X a f b0 rest x C W (S0 & EX & A0 & XB & CH) F EB. pose proof (BS_pos _ C) as HB.
  assert (NB : (1 <= c_nbuf c)%nat) by apply C.
  destruct (lwin_max c fl S E X a f b0 rest NB W ltac:(lia) EB) as [M1 M2]. cbv zeta in *.
  unfold reload_decide. rewrite F, (lw_loop _ _ _ _ _ _ _ W), (lw_lfb _ _ _ _ _ _ _ W), (lw_lsb _ _ _ _ _ _ _ W).
  set (mx := max_index (b_index b0) (i_bufs f)) in *. clearbody mx.
  assert (XL : X + 1 < 2 ^ 31) by nia.
  set (l := unroll S X (a + Z.of_nat (c_nbuf c) - 1)) in *.
  assert (L0 : 0 <= l <= X) by (split; [apply unroll_nonneg; lia|apply unroll_le; lia]).
  assert (NX : unroll S X (a + Z.of_nat (c_nbuf c)) = if l =? X then S else l + 1).
  { replace (a + Z.of_nat (c_nbuf c)) with (a + Z.of_nat (c_nbuf c) - 1 + 1) by lia. apply unroll_succ. lia. }
  assert (MB : 0 <= mx <= X) by lia.
  rewrite s32_u32, (s32_id (mx + 1)) by (unfold in_s32; lia).
  destruct (Z.ltb_spec E (mx + 1)) as [LT|GE].
  - unfold last_slot. rewrite (lw_cfg _ _ _ _ _ _ _ W).
    destruct (nth_at (i_bufs f) (c_nbuf c - 1)) as (b & N); [rewrite (lw_len _ _ _ _ _ _ _ W); lia|].
    rewrite N. cbn [bind]. destruct (lw_idx _ _ _ _ _ _ _ W _ _ N) as [BI _].
    replace (a + Z.of_nat (c_nbuf c - 1)) with (a + Z.of_nat (c_nbuf c) - 1) in BI by lia. fold l in BI.
    rewrite BI, (s32_id l) by (unfold in_s32; lia). rewrite chk32_ok by (unfold in_s32; lia). cbn [bind].
    do 3 f_equal. rewrite NX.
    assert (MX : mx = X) by lia. subst mx.
    destruct (Z.eqb_spec (l + 1) (X + 1)), (Z.eqb_spec l X); lia.
  - do 3 f_equal. rewrite NX. destruct M1 as [M1|[M1 M3]]; [lia|].
    destruct (Z.eqb_spec l X); lia.
Qed.

Lemma lwin_step : forall c fl S E X a f x b0 rest, cfg_ok c -> fsize fl <= 2 ^ 31 -> lwin c fl S E X a f -> lwin_ok c S E X a ->
  fle f0 x = true -> i_bufs f = b0 :: rest -> b_status b0 = StUnused ->
  exists f', reload_step f x = Ok (Some (true, f')) /\ lwin c fl S E X (a + 1) f' /\ lwin_ok c S E X (a + 1) /\
    (forall d, (Datatypes.S d < c_nbuf c)%nat -> marks (Some (Datatypes.S d)) f -> marks (Some d) f').
Proof.
  intros c fl S E X a f x b0 rest C FS W WO F BF U.
  pose proof (lwin_decide c fl S E X a f b0 rest x C W WO F BF) as DE.
  pose proof W as [W1 W2 W3 W3a W3b W4 W5 W6 W7]. destruct WO as (S0 & EX & A0 & XB & CH).
  pose proof (BS_pos _ C) as HB.
  unfold reload_step. rewrite BF, U. cbn [is_unused negb]. rewrite DE. cbn [bind].
  set (q := unroll S X (a + Z.of_nat (c_nbuf c))) in *.
  assert (Q0 : 0 <= q) by (apply unroll_nonneg; lia).
  assert (QX : q <= X) by (apply unroll_le; lia).
  assert (JM : q * BS c < 2 ^ 31) by nia. rewrite W1.
  rewrite (s32_id (q * BS c)) by (unfold in_s32; nia).
  destruct (loadBuffer f b0 (q * BS c)) as [[b' p] n] eqn:LD.
  eexists. split; [reflexivity|].
  assert (CF : cfg_ok (i_cfg f)) by (rewrite W1; auto).
  assert (FF : fsize (i_file f) <= 2 ^ 31) by (rewrite W2; auto).
  rewrite <- W1 in LD, JM.
  destruct (load_block f b0 q b' p n CF FF Q0 JM LD) as (L1 & L2 & L3 & L4).
  rewrite W1, W2 in L3, L4.
  assert (LH : holds c fl b').
  { rewrite <- W1, <- W2. apply (load_holds f b0 (q * BS (i_cfg f)) b' p n CF FF); [|exact LD].
    assert (0 <= q * BS (i_cfg f)) by (rewrite W1; apply Z.mul_nonneg_nonneg; lia). unfold in_s32. lia. }
  assert (LR : length rest = (c_nbuf c - 1)%nat) by (rewrite BF in W5; cbn in W5; lia).
  assert (NBp : (1 <= c_nbuf c)%nat) by apply C.
  assert (NT : forall t b, nth_error (rest ++ [b']) t = Some b ->
     (t < c_nbuf c - 1)%nat /\ nth_error (i_bufs f) (Datatypes.S t) = Some b \/ t = (c_nbuf c - 1)%nat /\ b = b').
  { intros t b N. rewrite BF. cbn [nth_error]. destruct (Nat.lt_ge_cases t (length rest)).
    - rewrite nth_error_app1 in N by auto. left. split; [lia|auto].
    - rewrite nth_error_app2 in N by auto. right. destruct (t - length rest)%nat eqn:D; [|destruct n0; discriminate].
      cbn in N. inversion N. split; [lia|auto]. }
  split; [|split].
  - constructor; try assumption; cbn.
    + rewrite app_length. cbn. lia.
    + apply Forall_app. rewrite BF in W6. inversion W6; subst. auto.
    + intros t b N. destruct (NT t b N) as [[T N2]|[-> ->]].
      * destruct (W7 _ _ N2) as [I1 I2]. split; [|auto]. rewrite I1. f_equal. lia.
      * split; [|rewrite L1; auto]. rewrite L1. unfold q. f_equal. lia.
  - unfold lwin_ok. repeat split; try lia.
  - intros d AM MK t b N. cbn in N. destruct (NT t b N) as [[T N2]|[-> ->]].
    + destruct (MK _ _ N2) as [M1 M2]. split; intro Q; [apply M1; lia|apply M2; lia].
    + split; intro Q; lia.
Qed.

Lemma lwin_loop : forall c fl S E X x, cfg_ok c -> fsize fl <= 2 ^ 31 -> fle f0 x = true ->
  forall d a f, lwin c fl S E X a f -> lwin_ok c S E X a -> marks (Some d) f -> (d < c_nbuf c)%nat ->
  exists f', reload_loop (Datatypes.S d) f x = Ok f' /\ lwin c fl S E X (a + Z.of_nat d) f' /\ lwin_ok c S E X (a + Z.of_nat d).
Proof.
  intros c fl S E X x C FS F.
  induction d as [|d IH]; intros a f W WO MK L; cbn [reload_loop].
  - rewrite Z.add_0_r. exists f. split; auto. unfold reload_step.
    destruct (i_bufs f) as [|b0 rest] eqn:EB; [reflexivity|].
    destruct (MK O b0) as [_ M]; [now rewrite EB|]. rewrite (M eq_refl). reflexivity.
  - destruct (i_bufs f) as [|b0 rest] eqn:EB; [pose proof (lw_len _ _ _ _ _ _ _ W) as W5; rewrite EB in W5; cbn in W5; lia|].
    destruct (MK O b0) as [M _]; [now rewrite EB|].
    destruct (lwin_step c fl S E X a f x b0 rest C FS W WO F EB (M ltac:(lia))) as (f1 & E1 & W1 & WO1 & MK1).
    rewrite E1. cbn [bind].
    destruct (IH (a + 1) f1 W1 WO1 (MK1 d L MK) ltac:(lia)) as (f2 & E2 & W2 & WO2).
    cbn [reload_loop] in E2. exists f2. split; [exact E2|].
    replace (a + Z.of_nat (Datatypes.S d)) with (a + 1 + Z.of_nat d) by lia. auto.
Qed.

Lemma reset_lwin : forall c fl S E X a f, lwin c fl S E X a f ->
  lwin c fl S E X a (if_resetStatus f) /\ marks None (if_resetStatus f).
Proof.
  intros c fl S E X a f [W1 W2 W3 W3a W3b W4 W5 W6 W7]. split.
  - constructor; try assumption; cbn.
    + now rewrite map_length.
    + eapply Forall_stored; [|exact W6]. apply resetStatus_stored.
    + intros t b N. rewrite nth_error_map in N. destruct (nth_error (i_bufs f) t) as [y|] eqn:NY; [|discriminate].
      cbn [option_map] in N. apply Some_inj in N. subst b. exact (W7 t y NY).
  - intros t b N. cbn in N. rewrite nth_error_map in N. destruct (nth_error (i_bufs f) t) as [y|] eqn:NY; [|discriminate].
    cbn [option_map] in N. apply Some_inj in N. subst b. reflexivity.
Qed.

Lemma lwin_reload : forall c fl S E X x a f o, cfg_ok c -> fsize fl <= 2 ^ 31 -> fle f0 x = true ->
  lwin c fl S E X a f -> lwin_ok c S E X a -> marks o f ->
  let d := match o with Some d => d | None => O end in (d < c_nbuf c)%nat ->
  exists F f', (forall extra, triggerReload (F + extra) f x = Ok f') /\ lwin c fl S E X (a + Z.of_nat d) f' /\
    lwin_ok c S E X (a + Z.of_nat d) /\ marks None f'.
Proof.
  intros c fl S E X x a f o C FS F W WO MK d A.
  assert (H : exists F f1, reload_loop F f x = Ok f1 /\ lwin c fl S E X (a + Z.of_nat d) f1 /\ lwin_ok c S E X (a + Z.of_nat d)).
  { destruct o as [a'|]; [exists (Datatypes.S d); apply lwin_loop; auto|].
    unfold d in *. cbn [Z.of_nat]. rewrite Z.add_0_r. exists 1%nat, f. split; [|auto]. cbn [reload_loop]. unfold reload_step.
    destruct (i_bufs f) as [|b0 rest] eqn:EB; [reflexivity|]. pose proof (MK O b0) as M. rewrite EB in M.
    rewrite (M eq_refl). reflexivity. }
  destruct H as (F1 & f1 & E1 & W1 & WO1).
  assert (RR : reload_rate f x = x) by (unfold reload_rate; now rewrite (lw_loop _ _ _ _ _ _ _ W)).
  destruct (reset_lwin _ _ _ _ _ _ _ W1) as [W2 M2].
  exists F1. exists (let f2 := if_resetStatus f1 in if feq f0 (i_prev f2) then f2 <| i_prev := x |> else f2).
  split; [|split; [|split]]; auto.
  - intros extra. unfold triggerReload. rewrite RR, (reload_loop_fuel _ _ _ _ _ E1). reflexivity.
  - cbv zeta. destruct (feq _ _); auto. destruct W2. constructor; assumption.
  - cbv zeta. destruct (feq _ _); auto.
Qed.

(* The buffers after opening are those of plain playback *)
Lemma lwin_of_win : forall c fl S E X a f g, win c fl a (c_nbuf c) f ->
  i_cfg g = c -> i_file g = fl -> i_loop g = LRepeat -> i_lsb g = S -> i_lfb g = E -> i_fails g = 0 -> i_bufs g = i_bufs f ->
  a + Z.of_nat (c_nbuf c) - 1 <= X -> lwin c fl S E X a g.
Proof.
  intros c fl S E X a f g [W1 W2 W3 W4 W5 W6 W7] G1 G2 G3 G4 G5 G6 G7 L.
  constructor; auto; try (now rewrite G7). rewrite G7. intros t b N. destruct (W7 t b N) as [A1 A2]. split; [|auto].
  assert (t < c_nbuf c)%nat by (rewrite <- W5; apply nth_error_Some; congruence).
  rewrite A1. symmetry. apply unroll_low. lia.
Qed.
