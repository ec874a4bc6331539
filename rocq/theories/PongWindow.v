(* The window of buffered blocks during playback of a ping-pong loop. *)

From Coq Require Import ZArith Lia List Bool.
From RecordUpdate Require Import RecordUpdate.
From Flocq Require Import Core.Core IEEE754.BinarySingleNaN.
From Verif Require Import Machine Floats WavModel CacheModel CacheFacts CacheSpec CacheProofs WindowProofs LoopWindow.
Import ListNotations.
Local Open Scope Z_scope.

Definition direction (d : Z) : Prop := d = 1 \/ d = -1.

(* All buffers are present and hold the blocks e, e+d, e+2d, ... in this order *)
Record pwin (c : ccfg) (fl : file) (S X e d : Z) (f : ifile) : Prop := mkPwin {
  pw_cfg : i_cfg f = c;
  pw_file : i_file f = fl;
  pw_loop : i_loop f = LPingpong;
  pw_lsb : i_lsb f = S;
  pw_lfb : i_lfb f = X;
  pw_fails : i_fails f = 0;
  pw_len : length (i_bufs f) = c_nbuf c;
  pw_holds : Forall (holds c fl) (i_bufs f);
  pw_idx : forall t b, nth_error (i_bufs f) t = Some b ->
    b_index b = e + d * Z.of_nat t /\ (2 * (b_index b * BS c) < fsize fl -> 0 < b_size b) }.

(* The buffered blocks exist as numbers *)
Definition pwin_ok (c : ccfg) (e d : Z) : Prop :=
  direction d /\ forall t, (t < c_nbuf c)%nat -> 0 <= e + d * Z.of_nat t /\ (e + d * Z.of_nat t + 1) * BS c < 2 ^ 31.

(* Whether the last buffer has been read since the last reload *)
Definition last_read (f : ifile) : bool :=
  match nth_error (i_bufs f) (c_nbuf (i_cfg f) - 1) with Some b => is_read (b_status b) | None => false end.

Lemma dir_mul : forall d x y, direction d -> d * x = y -> x = d * y.
Proof. intros d x y [-> | ->]; lia. Qed.

(* ---- a fetch --------------------------------------------------------------- *)

Lemma pwin_get : forall c fl S X e d f i o p, cfg_ok c -> fsize fl <= 2 ^ 31 -> pwin c fl S X e d f -> direction d ->
  marks o f -> in_file fl i -> (p < c_nbuf c)%nat -> e + d * Z.of_nat p = blk c i ->
  exists f', if_get f i = (file_sample fl i, f') /\ pwin c fl S X e d f' /\ marks (Some (first_use o p)) f' /\
    last_read f' = last_read f || (p =? c_nbuf c - 1)%nat /\ i_prev f' = i_prev f.
Proof.
  intros c fl S X e d f i o A C FS W HD MK IN AM AQ.
  pose proof W as [W1 W2 W3 W3a W3b W4 W5 W6 W7].
  pose proof (BS_pos _ C) as HB. pose proof (blk_mod c i C) as BM. pose proof (mod_BS c i C) as MB.
  destruct IN as [I0 I1].
  destruct (nth_at (i_bufs f) A ltac:(lia)) as (b & N).
  destruct (W7 A b N) as [IX SZ].
  assert (U : u32 (blk c i) = blk c i).
  { apply u32_id. unfold in_u32. pose proof (blk_nonneg c i C I0). nia. }
  assert (BI2 : b_index b = blk c i) by lia.
  assert (SP : 0 < b_size b) by (apply SZ; rewrite BI2; lia).
  destruct (find_at (u32 (blk c i)) (i_bufs f) A b N) as (l1 & EF & HT); [congruence|auto| |].
  { intros t b' T NT. destruct (W7 t b' NT) as [Y _]. rewrite U, Y. destruct HD as [-> | ->]; lia. }
  unfold if_get. rewrite W1, EF, HT, N. cbn [option_map]. rewrite Nat.ltb_irrefl.
  eexists. split.
  { f_equal. rewrite Forall_forall in W6. apply nth_error_In in N. apply (W6 b N); [split; auto|congruence]. }
  assert (NT : forall t, nth_error (list_upd A (fun b => b <| b_status := StRead |>) l1) t =
     option_map (fun b => if Nat.eqb t A then b <| b_status := StRead |> else if Nat.ltb t A then mark b else b) (nth_error (i_bufs f) t)).
  { intros t. rewrite nth_upd, HT. destruct (nth_error (i_bufs f) t) as [x|]; cbn [option_map]; [|reflexivity].
    destruct (Nat.eqb_spec t A); [subst; rewrite Nat.ltb_irrefl; reflexivity|reflexivity]. }
  split; [|split; [|split]].
  - constructor; try assumption.
    + cbn. rewrite list_upd_length. pose proof (find_stored _ _ _ _ EF) as ST. now rewrite (stored_length _ _ ST).
    + cbn. eapply Forall_stored; [|exact W6]. rewrite list_upd_stored. eapply find_stored; eauto.
    + cbn. intros t x NX. rewrite NT in NX. destruct (nth_error (i_bufs f) t) as [y|] eqn:NY; [|discriminate].
      cbn [option_map] in NX. apply Some_inj in NX. subst x. destruct (W7 t y NY) as [X1 X2].
      destruct (Nat.eqb t A); [cbn; auto|]. destruct (Nat.ltb t A); [|auto].
      unfold mark. destruct (is_read (b_status y)); cbn; auto.
  - intros t x NX. cbn in NX. rewrite NT in NX. destruct (nth_error (i_bufs f) t) as [y|] eqn:NY; [|discriminate].
    cbn [option_map] in NX. apply Some_inj in NX. subst x. pose proof (MK t y NY) as MY.
    unfold first_use. destruct o as [u|].
    + destruct MY as [M1 M2]. split; intro T.
      * destruct (Nat.eqb_spec t A); [lia|]. destruct (Nat.ltb_spec t A); [|lia].
        unfold mark. rewrite (M1 ltac:(lia)). reflexivity.
      * destruct (Nat.eqb_spec t A); [reflexivity|]. assert (TA : t = u) by lia. destruct (Nat.ltb_spec t A); [|lia].
        unfold mark. rewrite (M2 TA). cbn. auto.
    + split; intro T.
      * destruct (Nat.eqb_spec t A); [lia|]. destruct (Nat.ltb_spec t A); [|lia].
        unfold mark. rewrite MY. reflexivity.
      * destruct (Nat.eqb_spec t A); [reflexivity|lia].
  - unfold last_read. cbn. rewrite W1, NT.
    destruct (nth_at (i_bufs f) (c_nbuf c - 1) ltac:(lia)) as (y & NY). rewrite NY. cbn [option_map].
    rewrite (Nat.eqb_sym A). destruct (Nat.eqb_spec (c_nbuf c - 1) A); [cbn; now rewrite orb_true_r|].
    rewrite orb_false_r. destruct (Nat.ltb_spec (c_nbuf c - 1) A); [lia|reflexivity].
  - reflexivity.
Qed.

(* ---- reload ------------------------------------------------------------- *)

Lemma min_index_le : forall l m, min_index m l <= m /\ forall b, In b l -> min_index m l <= b_index b.
Proof.
  induction l as [|x l IH]; intros m; cbn [min_index]; [split; [lia|intros b []]|].
  destruct (IH (if b_index x <? m then b_index x else m)) as [A B].
  destruct (Z.ltb_spec (b_index x) m); (split; [lia|]); intros b [->|I]; try (now apply B); lia.
Qed.
Lemma min_index_in : forall l m, min_index m l = m \/ exists b, In b l /\ min_index m l = b_index b.
Proof.
  induction l as [|x l IH]; intros m; cbn [min_index]; [auto|].
  destruct (IH (if b_index x <? m then b_index x else m)) as [A|(b & I & A)].
  - rewrite A. destruct (b_index x <? m); [right; exists x; split; [now left|auto]|auto].
  - right. exists b. split; [now right|auto].
Qed.

Lemma pwin_max : forall c fl S X e d f b0 rest, (1 <= c_nbuf c)%nat -> pwin c fl S X e d f -> direction d -> i_bufs f = b0 :: rest ->
  max_index (b_index b0) (i_bufs f) = (if 0 <? d then e + Z.of_nat (c_nbuf c) - 1 else e) /\
  min_index (b_index b0) (i_bufs f) = (if 0 <? d then e else e - Z.of_nat (c_nbuf c) + 1).
Proof.
  intros c fl S X e d f b0 rest NB W HD EB. pose proof W as [_ _ _ _ _ _ W5 _ W7].
  set (mx := max_index (b_index b0) (i_bufs f)). set (mn := min_index (b_index b0) (i_bufs f)).
  destruct (max_index_ge (i_bufs f) (b_index b0)) as [_ G]. fold mx in G.
  assert (I0 : b_index b0 = e) by (destruct (W7 O b0) as [Y _]; [now rewrite EB|lia]).
  destruct (min_index_le (i_bufs f) (b_index b0)) as [_ L]. fold mn in L.
  destruct (nth_at (i_bufs f) (c_nbuf c - 1) ltac:(lia)) as (bl & NL). destruct (W7 _ _ NL) as [YL _].
  pose proof (G _ (nth_error_In _ _ NL)) as GL. pose proof (L _ (nth_error_In _ _ NL)) as LL.
  assert (B0 : In b0 (i_bufs f)) by (rewrite EB; now left).
  pose proof (G _ B0) as G0. pose proof (L _ B0) as L0.
  assert (R : forall b, In b (i_bufs f) -> exists t, (t < c_nbuf c)%nat /\ b_index b = e + d * Z.of_nat t).
  { intros b IN. apply In_nth_error in IN. destruct IN as (t & NT). exists t. split; [|now apply W7].
    rewrite <- W5. apply nth_error_Some. congruence. }
  assert (IX : exists t, (t < c_nbuf c)%nat /\ mx = e + d * Z.of_nat t).
  { destruct (max_index_in (i_bufs f) (b_index b0)) as [H|(b & IN & H)]; fold mx in H; [exists O; lia|].
    rewrite H. now apply R. }
  assert (IM : exists t, (t < c_nbuf c)%nat /\ mn = e + d * Z.of_nat t).
  { destruct (min_index_in (i_bufs f) (b_index b0)) as [H|(b & IN & H)]; fold mn in H; [exists O; lia|].
    rewrite H. now apply R. }
  destruct IX as (t1 & T1 & E1). destruct IM as (t2 & T2 & E2).
  destruct HD as [-> | ->]; cbn [Z.ltb Z.compare]; lia.
Qed.

Lemma pwin_load : forall c fl S X e d f x b0 rest, cfg_ok c -> fsize fl <= 2 ^ 31 -> pwin c fl S X e d f -> pwin_ok c e d ->
  0 <= S -> (X + 1) * BS c < 2 ^ 31 -> fle f0 x = (0 <? d) ->
  (d = 1 -> e + Z.of_nat (c_nbuf c) <= X) -> (d = -1 -> S <= e - Z.of_nat (c_nbuf c)) ->
  i_bufs f = b0 :: rest -> b_status b0 = StUnused ->
  exists f', reload_step f x = Ok (Some (true, f')) /\ pwin c fl S X (e + d) d f' /\ pwin_ok c (e + d) d /\
    (forall u, (Datatypes.S u < c_nbuf c)%nat -> marks (Some (Datatypes.S u)) f -> marks (Some u) f') /\
    last_read f' = false /\ i_prev f' = i_prev f.
Proof.
  intros c fl S X e d f x b0 rest C FS W (HD & WB) S0 XB F GU GD BF U.
  assert (NBp : (1 <= c_nbuf c)%nat) by apply C.
  destruct (pwin_max c fl S X e d f b0 rest NBp W HD BF) as [MX MN].
  pose proof W as [W1 W2 W3 W3a W3b W4 W5 W6 W7].
  pose proof (BS_pos _ C) as HB.
  set (q := e + d * Z.of_nat (c_nbuf c)).
  pose proof (WB (c_nbuf c - 1)%nat ltac:(lia)) as WL. pose proof (WB O ltac:(lia)) as WF.
  assert (Q0 : 0 <= q) by (unfold q; destruct HD as [-> | ->]; [lia|specialize (GD eq_refl); lia]).
  assert (JM1 : (q + 1) * BS c < 2 ^ 31).
  { unfold q. destruct HD as [-> | ->]; [specialize (GU eq_refl)|specialize (GD eq_refl)]; nia. }
  assert (JM : q * BS c < 2 ^ 31) by lia.
  assert (QS : q < 2 ^ 31) by nia.
  assert (DE : reload_decide f x b0 = Ok (q, true, MoveBuffer)).
  { unfold reload_decide. rewrite F, W3, W3a, W3b, MX, MN. unfold q in *. destruct HD as [-> | ->]; cbn [Z.ltb Z.compare] in *.
    - specialize (GU eq_refl). rewrite s32_u32, s32_id by (unfold in_s32; lia).
      destruct (Z.ltb_spec X (e + Z.of_nat (c_nbuf c) - 1 + 1)); [lia|]. do 3 f_equal. lia.
    - specialize (GD eq_refl). rewrite s32_u32, s32_id by (unfold in_s32; lia).
      destruct (Z.ltb_spec (e - Z.of_nat (c_nbuf c) + 1 - 1) S); [lia|]. do 3 f_equal. lia. }
  unfold reload_step. rewrite BF, U. cbn [is_unused negb]. rewrite DE. cbn [bind]. rewrite W1.
  rewrite (s32_id (q * BS c)) by (unfold in_s32; nia).
  destruct (loadBuffer f b0 (q * BS c)) as [[b' p] n] eqn:LD.
  eexists. split; [reflexivity|].
  assert (CF : cfg_ok (i_cfg f)) by (rewrite W1; auto).
  assert (FF : fsize (i_file f) <= 2 ^ 31) by (rewrite W2; auto).
  rewrite <- W1 in LD, JM.
  destruct (load_block f b0 q b' p n CF FF Q0 JM LD) as (L1 & L2 & L3 & L4).
  rewrite W1, W2 in L3, L4.
  assert (LH : holds c fl b').
  { rewrite <- W1, <- W2. apply (load_holds f b0 (q * BS (i_cfg f)) b' p n CF FF); [|exact LD].
    assert (0 <= q * BS (i_cfg f)) by (rewrite W1; apply Z.mul_nonneg_nonneg; lia). unfold in_s32. lia. }
  assert (LR : length rest = (c_nbuf c - 1)%nat) by (rewrite BF in W5; cbn in W5; lia).
  assert (NT : forall t b, nth_error (rest ++ [b']) t = Some b ->
     (t < c_nbuf c - 1)%nat /\ nth_error (i_bufs f) (Datatypes.S t) = Some b \/ t = (c_nbuf c - 1)%nat /\ b = b').
  { intros t b N. rewrite BF. cbn [nth_error]. destruct (Nat.lt_ge_cases t (length rest)).
    - rewrite nth_error_app1 in N by auto. left. split; [lia|auto].
    - rewrite nth_error_app2 in N by auto. right. destruct (t - length rest)%nat eqn:D; [|destruct n0; discriminate].
      cbn in N. inversion N. split; [lia|auto]. }
  split; [|split; [|split; [|split]]].
  - constructor; try assumption; cbn.
    + rewrite app_length. cbn. lia.
    + apply Forall_app. rewrite BF in W6. inversion W6; subst. auto.
    + intros t b N. destruct (NT t b N) as [[T N2]|[-> ->]].
      * destruct (W7 _ _ N2) as [I1 I2]. split; [|auto]. rewrite I1. lia.
      * split; [|rewrite L1; auto]. rewrite L1. unfold q. destruct HD as [-> | ->]; lia.
  - split; [auto|]. intros t T. destruct (Nat.eq_dec t (c_nbuf c - 1)) as [-> |NE].
    + replace (e + d + d * Z.of_nat (c_nbuf c - 1)) with q by (unfold q; destruct HD as [-> | ->]; lia). auto.
    + replace (e + d + d * Z.of_nat t) with (e + d * Z.of_nat (t + 1)) by lia. apply WB. lia.
  - intros u AM MK t b N. cbn in N. destruct (NT t b N) as [[T N2]|[-> ->]].
    + destruct (MK _ _ N2) as [M1 M2]. split; intro Q; [apply M1; lia|apply M2; lia].
    + split; intro Q; lia.
  - unfold last_read. cbn. rewrite W1, nth_error_app2 by lia.
    replace (c_nbuf c - 1 - length rest)%nat with O by lia. cbn. now rewrite L2.
  - reflexivity.
Qed.

(* Nothing left to load in the direction of the reload *)
Lemma pwin_stay : forall c fl S X e d f x b0 rest, cfg_ok c -> pwin c fl S X e d f -> pwin_ok c e d ->
  0 <= S -> (X + 1) * BS c < 2 ^ 31 ->
  (fle f0 x = true -> X <= max_index (b_index b0) (i_bufs f)) -> (fle f0 x = false -> min_index (b_index b0) (i_bufs f) <= S) ->
  i_bufs f = b0 :: rest -> b_status b0 = StUnused ->
  exists f', reload_step f x = Ok (Some (last_read f, f')) /\
    (if last_read f then pwin c fl S X (e + d * (Z.of_nat (c_nbuf c) - 1)) (- d) f' /\ i_prev f' = fneg (i_prev f) /\
       exists b rest', i_bufs f' = b :: rest' /\ b_status b = StRead
     else pwin c fl S X e d f' /\ i_prev f' = i_prev f).
Proof.
  intros c fl S X e d f x b0 rest C W (HD & WB) S0 XB GU GD BF U.
  assert (NBp : (1 <= c_nbuf c)%nat) by apply C. pose proof (BS_pos _ C) as HB.
  destruct (pwin_max c fl S X e d f b0 rest NBp W HD BF) as [MX MN]. rewrite MX in GU. rewrite MN in GD.
  pose proof W as [W1 W2 W3 W3a W3b W4 W5 W6 W7].
  pose proof (WB (c_nbuf c - 1)%nat ltac:(lia)) as WL. pose proof (WB O ltac:(lia)) as WF.
  destruct (nth_at (i_bufs f) (c_nbuf c - 1) ltac:(lia)) as (bl & NL).
  assert (SM : forall z, 0 <= z -> (z + 1) * BS c < 2 ^ 31 -> z + 1 < 2 ^ 31) by (intros; nia).
  assert (DE : exists nx, reload_decide f x b0 = Ok (nx, false, if last_read f then ReverseBuffer else NopBuffer)).
  { unfold reload_decide. rewrite W3, W3a, W3b, MX, MN.
    pose proof (SM _ (proj1 WL) (proj2 WL)) as SL. pose proof (SM _ (proj1 WF) (proj2 WF)) as SF.
    assert (LST : last_slot f = Ok bl) by (unfold last_slot; rewrite W1, NL; reflexivity).
    assert (LRD : is_read (b_status bl) = last_read f) by (unfold last_read; rewrite W1, NL; reflexivity).
    destruct (fle f0 x); [specialize (GU eq_refl)|specialize (GD eq_refl)]; eexists.
    - rewrite s32_u32, s32_id by (unfold in_s32; destruct HD as [-> | ->]; cbn [Z.ltb Z.compare] in *; lia).
      match goal with |- context [X <? ?y] => destruct (Z.ltb_spec X y) end; [|destruct HD as [-> | ->]; cbn [Z.ltb Z.compare] in *; lia].
      rewrite LST. cbn [bind]. rewrite LRD. reflexivity.
    - rewrite s32_u32, s32_id by (unfold in_s32; destruct HD as [-> | ->]; cbn [Z.ltb Z.compare] in *; lia).
      match goal with |- context [?y <? S] => destruct (Z.ltb_spec y S) end; [|destruct HD as [-> | ->]; cbn [Z.ltb Z.compare] in *; lia].
      rewrite LST. cbn [bind]. rewrite LRD. reflexivity. }
  destruct DE as (nx & DE).
  unfold reload_step. rewrite BF, U. cbn [is_unused negb]. rewrite DE. cbn [bind].
  assert (REV : forall t b, nth_error (rev (i_bufs f)) t = Some b -> (t < c_nbuf c)%nat /\ nth_error (i_bufs f) (c_nbuf c - 1 - t) = Some b).
  { intros t b N. assert (TL : (t < length (rev (i_bufs f)))%nat) by (apply nth_error_Some; congruence).
    rewrite rev_length, W5 in TL. split; [exact TL|].
    rewrite nth_error_nth' with (d := b0) in N by (rewrite rev_length; lia). apply Some_inj in N. rewrite rev_nth in N by lia.
    rewrite nth_error_nth' with (d := b0) by lia. f_equal. rewrite <- N. f_equal. lia. }
  destruct (last_read f) eqn:LR.
  - eexists. split; [reflexivity|]. split; [|split; [reflexivity|]].
    + constructor; try assumption; cbn [i_bufs set]; change (i_bufs (f <| i_bufs := rev (b0 :: rest) |>)) with (rev (b0 :: rest));
        cbn; change (rev rest ++ [b0]) with (rev (b0 :: rest)); rewrite <- BF.
      * now rewrite rev_length.
      * apply Forall_rev. exact W6.
      * intros t b N. destruct (REV t b N) as [T N2]. destruct (W7 _ _ N2) as [Y1 Y2]. split; [|auto]. rewrite Y1.
        destruct HD as [-> | ->]; lia.
    + cbn. change (rev rest ++ [b0]) with (rev (b0 :: rest)). rewrite <- BF.
      destruct (rev (i_bufs f)) as [|b r'] eqn:ER; [apply (f_equal (@length _)) in ER; rewrite rev_length in ER; cbn in ER; lia|].
      exists b, r'. split; [reflexivity|]. destruct (REV O b) as [_ N]; [reflexivity|]. rewrite Nat.sub_0_r in N.
      assert (b = bl) by congruence. subst b. unfold last_read in LR. rewrite W1, NL in LR.
      destruct (b_status bl); try discriminate; reflexivity.
  - eexists. split; [reflexivity|]. split; [|reflexivity].
    constructor; try assumption; cbn; [rewrite <- W5, BF; reflexivity|rewrite <- BF; auto..].
Qed.

Lemma pwin_rev : forall c e d, (1 <= c_nbuf c)%nat -> pwin_ok c e d -> pwin_ok c (e + d * (Z.of_nat (c_nbuf c) - 1)) (- d).
Proof.
  intros c e d NB [HD WB]. split; [destruct HD as [-> | ->]; unfold direction; lia|]. intros t T.
  replace (e + d * (Z.of_nat (c_nbuf c) - 1) + - d * Z.of_nat t) with (e + d * Z.of_nat (c_nbuf c - 1 - t)).
  - apply WB. lia.
  - replace (Z.of_nat (c_nbuf c - 1 - t)) with (Z.of_nat (c_nbuf c) - 1 - Z.of_nat t) by lia. ring.
Qed.

(* How many blocks are left to load in direction d *)
Definition left_over (c : ccfg) (S X e d : Z) : Z :=
  if 0 <? d then X - (e + Z.of_nat (c_nbuf c) - 1) else e - Z.of_nat (c_nbuf c) + 1 - S.

Lemma read_stops : forall f x b rest, i_bufs f = b :: rest -> b_status b = StRead -> reload_loop 1 f x = Ok f.
Proof. intros f x b rest E U. cbn [reload_loop]. unfold reload_step. rewrite E, U. reflexivity. Qed.

Lemma pwin_loop : forall c fl S X x d, cfg_ok c -> fsize fl <= 2 ^ 31 -> 0 <= S -> (X + 1) * BS c < 2 ^ 31 -> fle f0 x = (0 <? d) ->
  forall u e f, pwin c fl S X e d f -> pwin_ok c e d -> marks (Some u) f -> (u < c_nbuf c)%nat ->
  0 <= left_over c S X e d ->
  exists F f', reload_loop F f x = Ok f' /\
    (if (left_over c S X e d =? 0) && (0 <? u)%nat && last_read f
     then pwin c fl S X (e + d * (Z.of_nat (c_nbuf c) - 1)) (- d) f' /\ pwin_ok c (e + d * (Z.of_nat (c_nbuf c) - 1)) (- d) /\
       i_prev f' = fneg (i_prev f)
     else pwin c fl S X (e + d * Z.min (Z.of_nat u) (left_over c S X e d)) d f' /\
       pwin_ok c (e + d * Z.min (Z.of_nat u) (left_over c S X e d)) d /\ i_prev f' = i_prev f).
Proof.
  intros c fl S X x d C FS S0 XB F. assert (NBp : (1 <= c_nbuf c)%nat) by apply C.
  induction u as [|u IH]; intros e f W WO MK L GP.
  - exists 1%nat, f. rewrite andb_false_r. cbn [andb]. rewrite Z.min_l by lia. cbn [Z.of_nat]. rewrite Z.mul_0_r, Z.add_0_r.
    split; [|auto]. destruct (i_bufs f) as [|b0 rest] eqn:EB; [pose proof (pw_len _ _ _ _ _ _ _ W) as W5; rewrite EB in W5; cbn in W5; lia|].
    destruct (MK O b0) as [_ M]; [now rewrite EB|]. apply (read_stops f x b0 rest EB). auto.
  - destruct (i_bufs f) as [|b0 rest] eqn:EB; [pose proof (pw_len _ _ _ _ _ _ _ W) as W5; rewrite EB in W5; cbn in W5; lia|].
    destruct (MK O b0) as [M _]; [now rewrite EB|]. specialize (M ltac:(lia)).
    pose proof (proj1 WO) as HD.
    change (0 <? Datatypes.S u)%nat with true. rewrite andb_true_r.
    destruct (Z.eqb_spec (left_over c S X e d) 0) as [G0|G0]; cbn [andb].
    + destruct (pwin_max c fl S X e d f b0 rest NBp W HD EB) as [MX MN].
      destruct (pwin_stay c fl S X e d f x b0 rest C W WO S0 XB) as (f1 & E1 & R1); auto.
      { intros FT. rewrite MX. rewrite F in FT. unfold left_over in G0. rewrite FT in *. lia. }
      { intros FT. rewrite MN. rewrite F in FT. unfold left_over in G0. rewrite FT in *. lia. }
      destruct (last_read f).
      * destruct R1 as (W1 & P1 & b & rest' & B1 & U1). exists 2%nat, f1. split; [|auto using pwin_rev].
        cbn [reload_loop]. rewrite E1. cbn [bind]. exact (read_stops f1 x b rest' B1 U1).
      * destruct R1 as (W1 & P1). exists 1%nat, f1. rewrite G0. rewrite Z.min_r by lia. rewrite Z.mul_0_r, Z.add_0_r.
        split; [|auto]. cbn [reload_loop]. rewrite E1. reflexivity.
    + destruct (pwin_load c fl S X e d f x b0 rest C FS W WO S0 XB F) as (f1 & E1 & W1 & WO1 & MK1 & LR1 & P1); auto.
      { intros ->. unfold left_over in *. cbn [Z.ltb Z.compare] in *. lia. }
      { intros ->. unfold left_over in *. cbn [Z.ltb Z.compare] in *. lia. }
      assert (LO : left_over c S X (e + d) d = left_over c S X e d - 1).
      { unfold left_over. destruct HD as [-> | ->]; cbn [Z.ltb Z.compare]; lia. }
      destruct (IH (e + d) f1 W1 WO1 (MK1 u L MK) ltac:(lia) ltac:(lia)) as (F2 & f2 & E2 & R2).
      rewrite LR1, andb_false_r in R2. rewrite P1 in R2.
      replace (e + d + d * Z.min (Z.of_nat u) (left_over c S X (e + d) d))
        with (e + d * Z.min (Z.of_nat (Datatypes.S u)) (left_over c S X e d)) in R2 by (rewrite LO; nia).
      exists (Datatypes.S F2), f2. split; [|exact R2]. cbn [reload_loop]. rewrite E1. exact E2.
Qed.

(* When the window contains the whole loop *)
Lemma pwin_loop_all : forall c fl S X x d o e f, cfg_ok c -> 0 <= S -> (X + 1) * BS c < 2 ^ 31 ->
  pwin c fl S X e d f -> pwin_ok c e d -> marks o f ->
  (if 0 <? d then e <= S /\ X <= e + Z.of_nat (c_nbuf c) - 1 else e - Z.of_nat (c_nbuf c) + 1 <= S /\ X <= e) ->
  exists F f' e' d', reload_loop F f x = Ok f' /\ pwin c fl S X e' d' f' /\ pwin_ok c e' d' /\
    (e' = e /\ d' = d \/ e' = e + d * (Z.of_nat (c_nbuf c) - 1) /\ d' = - d).
Proof.
  intros c fl S X x d o e f C S0 XB W WO MK IN. assert (NBp : (1 <= c_nbuf c)%nat) by apply C.
  pose proof (proj1 WO) as HD.
  destruct (i_bufs f) as [|b0 rest] eqn:EB; [pose proof (pw_len _ _ _ _ _ _ _ W) as W5; rewrite EB in W5; cbn in W5; lia|].
  destruct (is_unused (b_status b0)) eqn:U.
  - assert (U' : b_status b0 = StUnused) by (destruct (b_status b0); try discriminate; auto).
    destruct (pwin_max c fl S X e d f b0 rest NBp W HD EB) as [MX MN].
    destruct (pwin_stay c fl S X e d f x b0 rest C W WO S0 XB) as (f1 & E1 & R1); auto.
    { intros _. rewrite MX. destruct (0 <? d); lia. }
    { intros _. rewrite MN. destruct (0 <? d); lia. }
    destruct (last_read f).
    + destruct R1 as (W1 & P1 & b & rest' & B1 & U1). exists 2%nat, f1, (e + d * (Z.of_nat (c_nbuf c) - 1)), (- d).
      split; [|auto using pwin_rev]. cbn [reload_loop]. rewrite E1. cbn [bind]. exact (read_stops f1 x b rest' B1 U1).
    + destruct R1 as (W1 & P1). exists 1%nat, f1, e, d. split; [|auto]. cbn [reload_loop]. rewrite E1. reflexivity.
  - exists 1%nat, f, e, d. split; [|auto]. cbn [reload_loop]. unfold reload_step. rewrite EB, U. reflexivity.
Qed.

Lemma reset_pwin : forall c fl S X e d f, pwin c fl S X e d f ->
  pwin c fl S X e d (if_resetStatus f) /\ marks None (if_resetStatus f).
Proof.
  intros c fl S X e d f [W1 W2 W3 W3a W3b W4 W5 W6 W7]. split.
  - constructor; try assumption; cbn.
    + now rewrite map_length.
    + eapply Forall_stored; [|exact W6]. apply resetStatus_stored.
    + intros t b N. rewrite nth_error_map in N. destruct (nth_error (i_bufs f) t) as [y|] eqn:NY; [|discriminate].
      cbn [option_map] in N. apply Some_inj in N. subst b. exact (W7 t y NY).
  - intros t b N. cbn in N. rewrite nth_error_map in N. destruct (nth_error (i_bufs f) t) as [y|] eqn:NY; [|discriminate].
    cbn [option_map] in N. apply Some_inj in N. subst b. reflexivity.
Qed.

(* The rest of triggerReload *)
Lemma pwin_trigger : forall c fl S X e d f f1 F x, reload_loop F f (reload_rate f x) = Ok f1 -> pwin c fl S X e d f1 ->
  exists f2, (forall extra, triggerReload (F + extra) f x = Ok f2) /\ pwin c fl S X e d f2 /\ marks None f2 /\ last_read f2 = false /\
    i_prev f2 = (if feq f0 (i_prev f1) then x else i_prev f1).
Proof.
  intros c fl S X e d f f1 F x E W1.
  destruct (reset_pwin _ _ _ _ _ _ _ W1) as [W2 M2].
  assert (LR : forall g, marks None g -> last_read g = false).
  { intros g MK. unfold last_read. destruct (nth_error _ _) as [b|] eqn:N; [|reflexivity]. now rewrite (MK _ _ N). }
  exists (let f2 := if_resetStatus f1 in if feq f0 (i_prev f2) then f2 <| i_prev := x |> else f2). cbv zeta.
  change (i_prev (if_resetStatus f1)) with (i_prev f1).
  split; [intros extra; unfold triggerReload; rewrite (reload_loop_fuel _ _ _ _ _ E); reflexivity|].
  destruct (feq f0 (i_prev f1)).
  - split; [destruct W2; constructor; assumption|]. split; [exact M2|]. split; [|reflexivity]. apply LR. exact M2.
  - split; [auto|]. split; [auto|]. split; [auto|reflexivity].
Qed.
