(* Fetches at or after the play position while a forward reload is in progress *)

From Coq Require Import ZArith Lia List Bool.
From RecordUpdate Require Import RecordUpdate.
From Flocq Require Import IEEE754.BinarySingleNaN.
From Verif Require Import Machine Floats WavModel CacheModel CacheFacts CacheSpec CacheProofs CacheFinal
  RaceModel RaceProofs WindowProofs RaceSpec.
Import ListNotations.
Local Open Scope Z_scope.

Section R.
Variables (c : ccfg) (fl : file).
Hypothesis C : cfg_ok c.
Hypothesis FS : fsize fl <= 2 ^ 31.

Definition sized (b : ibuf) : Prop := 2 * (b_index b * BS c) < fsize fl -> 0 < b_size b.

(* The buffers hold the blocks j, j+1, ... in this order *)
Definition consec (j : Z) (l : list ibuf) : Prop :=
  forall t b, nth_error l t = Some b -> b_index b = j + Z.of_nat t /\ sized b.

(* The status of the buffer of block Q, if there is one, is as described by S *)
Definition kept (S : bstatus -> Prop) (Q : Z) (l : list ibuf) : Prop :=
  Forall (fun b => b_index b = Q -> S (b_status b)) l.

Definition in_use (s : bstatus) : Prop := s <> StUnused.
Definition was_read (s : bstatus) : Prop := s = StRead.

Lemma consec_stored : forall j l l', map stored l' = map stored l -> consec j l -> consec j l'.
Proof.
  intros j l l' E H t b N. pose proof (map_nth_error stored _ _ N) as M. rewrite E in M.
  rewrite nth_error_map in M. destruct (nth_error l t) as [y|] eqn:Y; [|discriminate].
  cbn [option_map] in M. apply Some_inj in M. destruct (H t y Y) as [H1 H2].
  unfold sized in *. unfold stored in M. injection M as M1 M2 M3. rewrite <- M1, <- M2. auto.
Qed.

Lemma consec_cons : forall j b l, consec j (b :: l) <-> (b_index b = j /\ sized b) /\ consec (j + 1) l.
Proof.
  intros j b l. split.
  - intros H. split; [destruct (H O b eq_refl) as [H1 H2]; rewrite Z.add_0_r in H1; auto|].
    intros t x N. destruct (H (S t) x N) as [H1 H2]. split; [lia|auto].
  - intros [[H1 H2] H] [|t] x N; cbn in N; [inversion N; subst; split; [lia|auto]|].
    destruct (H t x N) as [H3 H4]. split; [lia|auto].
Qed.

Lemma consec_app : forall l j b, consec j l -> b_index b = j + Z.of_nat (length l) -> sized b -> consec j (l ++ [b]).
Proof.
  induction l as [|x l IH]; intros j b H1 H2 H3; cbn [app].
  - apply consec_cons. cbn [length] in H2. split; [split; [lia|auto]|]. intros [|t] y N; discriminate.
  - apply consec_cons in H1. destruct H1 as [H1 H4]. apply consec_cons. split; [exact H1|].
    apply IH; auto. cbn [length] in H2. lia.
Qed.

Lemma consec_ge : forall l j b, consec j l -> In b l -> j <= b_index b < j + Z.of_nat (length l).
Proof.
  intros l j b H I. apply In_nth_error in I. destruct I as (t & N). destruct (H t b N) as [H1 _].
  assert (t < length l)%nat by (apply nth_error_Some; congruence). lia.
Qed.

Lemma consec_max : forall l j acc, consec j l -> l <> [] -> acc <= j + Z.of_nat (length l) - 1 ->
  max_index acc l = j + Z.of_nat (length l) - 1.
Proof.
  induction l as [|x l IH]; intros j acc H NE A; [congruence|]. apply consec_cons in H. destruct H as [[H1 _] H2].
  cbn [max_index length]. destruct l as [|y l]; [cbn [length max_index]; destruct (Z.ltb_spec acc (b_index x)); cbn [length] in A; lia|].
  rewrite (IH (j + 1)); auto; [lia|congruence|]. cbn [length] in *. destruct (Z.ltb_spec acc (b_index x)); lia.
Qed.

(* ---- what a fetch does to the buffers -------------------------------------- *)

Fixpoint fetched (q : Z) (l : list ibuf) : list ibuf :=
  match l with
  | [] => []
  | x :: l' => if (b_index x =? q) && (0 <? b_size x) then x <| b_status := StRead |> :: l' else mark x :: fetched q l'
  end.

Lemma find_fetched : forall q l n l1, find_with_index q l = (n, l1) ->
  match n with Some a => list_upd a (fun b => b <| b_status := StRead |>) l1 | None => l1 end = fetched q l.
Proof.
  intros q. induction l as [|x l IH]; intros n l1 E; cbn [find_with_index fetched] in *; [inversion E; reflexivity|].
  destruct ((b_index x =? q) && (0 <? b_size x)); [inversion E; reflexivity|].
  destruct (find_with_index q l) as [r l2]. inversion E; subst. specialize (IH r l2 eq_refl). fold (mark x).
  destruct r; cbn [option_map list_upd]; now rewrite IH.
Qed.

Lemma get_fetched : forall f i, i_bufs (snd (if_get f i)) = fetched (u32 (blk (i_cfg f) i)) (i_bufs f).
Proof.
  intros f i. unfold if_get. destruct (find_with_index (u32 (blk (i_cfg f) i)) (i_bufs f)) as [[a|] l1] eqn:E;
    apply find_fetched in E; cbn; exact E.
Qed.

Lemma fetched_stored : forall q l, map stored (fetched q l) = map stored l.
Proof.
  intros q. induction l as [|x l IH]; cbn [fetched map]; [reflexivity|].
  destruct (_ && _); [reflexivity|]. cbn [map]. rewrite IH. f_equal. unfold mark. destruct (is_read _); reflexivity.
Qed.

Lemma mark_read : forall x, b_status x = StRead -> b_status (mark x) = StRead.
Proof. intros x H. unfold mark. rewrite H. exact H. Qed.

(* a block that was read stays so *)
Lemma fetched_keeps : forall Q q l, kept was_read Q l -> kept was_read Q (fetched q l).
Proof.
  intros Q q. induction l as [|x l IH]; intros H; cbn [fetched]; [exact H|].
  apply Forall_cons_iff in H. destruct H as [H1 H2]. destruct (_ && _).
  - constructor; [intros _; reflexivity|exact H2].
  - constructor; [|exact (IH H2)]. intros E. apply mark_read, H1. unfold mark in E. destruct (is_read _); exact E.
Qed.

(* Each block is in at most one buffer *)
Definition single (l : list ibuf) : Prop := NoDup (map b_index l) /\ Forall sized l.

Lemma consec_single : forall l j, consec j l -> single l.
Proof.
  induction l as [|x l IH]; intros j H; [split; constructor|]. apply consec_cons in H. destruct H as [[H1 H2] H3].
  destruct (IH _ H3) as [I1 I2]. split; constructor; auto.
  intros X. apply in_map_iff in X. destruct X as (b & E & I). apply (consec_ge l (j + 1)) in I; auto. lia.
Qed.

Lemma single_turn : forall l b, single (l ++ [b]) -> single (b :: l).
Proof.
  intros l b [H1 H2]. split.
  - rewrite map_app in H1. cbn [map] in *. apply NoDup_remove in H1. rewrite app_nil_r in H1. constructor; tauto.
  - apply Forall_app in H2. destruct H2 as [H2 H3]. apply Forall_cons_iff in H3. constructor; tauto.
Qed.

(* the block fetched, if it is there, has been read *)
Lemma fetched_read : forall q l, single l -> 2 * (q * BS c) < fsize fl -> kept was_read q (fetched q l).
Proof.
  intros q. induction l as [|x l IH]; intros H Q; cbn [fetched]; [constructor|].
  destruct H as [H1 H2]. cbn [map] in H1. apply NoDup_cons_iff in H1. destruct H1 as [H1 H3].
  apply Forall_cons_iff in H2. destruct H2 as [H2 H4].
  destruct (Z.eqb_spec (b_index x) q) as [E|E]; cbn [andb].
  - unfold sized in H2. rewrite E in H2. destruct (Z.ltb_spec 0 (b_size x)); [|specialize (H2 Q); lia].
    constructor; [intros _; reflexivity|]. apply Forall_forall. intros b I X. exfalso. apply H1. rewrite E, <- X. now apply in_map.
  - constructor; [|exact (IH (conj H3 H4) Q)]. intros X. destruct (mark_stored x) as [MI _]. congruence.
Qed.

Lemma kept_weaken : forall Q l, kept was_read Q l -> kept in_use Q l.
Proof. intros Q l H. eapply Forall_impl; [|exact H]. intros b X E. rewrite (X E). discriminate. Qed.

(* ---- the invariant ------------------------------------------------------------ *)

(* Playback has got to block Q, whose status is S *)
Definition ahead (S : bstatus -> Prop) (Q : Z) (pc : rpoint) (f : ifile) : Prop :=
  mid c fl (pc, f) /\ i_loop f = LNone /\ (1 <= length (i_bufs f) <= c_nbuf c)%nat /\ Q * BS c < 2 ^ 30 /\
  exists j, 0 <= j <= Q /\
  match pc with
  | AtTop | AtReset | AtPrev | AtEnd => consec j (i_bufs f) /\ kept S Q (i_bufs f)
  | AtDecide => consec j (i_bufs f) /\ kept S Q (i_bufs f) /\ j < Q
  | AtRead i act _ => consec j (i_bufs f) /\ kept S Q (i_bufs f) /\ j < Q /\ act = MoveBuffer /\
      i = (j + Z.of_nat (length (i_bufs f))) * BS c
  | AtIndex i n act => consec j (i_bufs f) /\ kept S Q (i_bufs f) /\ j < Q /\ act = MoveBuffer /\
      i = (j + Z.of_nat (length (i_bufs f))) * BS c /\ (2 * i < fsize fl -> 0 < s16 n)
  | AtSize n act => act = MoveBuffer /\ exists b0 rest, i_bufs f = b0 :: rest /\ consec (j + 1) rest /\ kept S Q rest /\ j < Q /\
      b_index b0 = j + Z.of_nat (length (i_bufs f)) /\ (2 * (b_index b0 * BS c) < fsize fl -> 0 < s16 n)
  | AtStatus act => act = MoveBuffer /\ exists b0 rest, i_bufs f = b0 :: rest /\ consec (j + 1) rest /\ kept S Q rest /\ j < Q /\
      b_index b0 = j + Z.of_nat (length (i_bufs f)) /\ sized b0
  | AtShuffle act => act = MoveBuffer /\ exists b0 rest, i_bufs f = b0 :: rest /\ consec (j + 1) (rest ++ [b0]) /\
      kept S Q (rest ++ [b0]) /\ j < Q
  end.

Lemma ahead_weaken : forall Q pc f, ahead was_read Q pc f -> ahead in_use Q pc f.
Proof.
  intros Q pc f (M & L & N & B & j & J & H). repeat (split; [assumption|]). exists j. split; [exact J|].
  destruct pc; try (intuition eauto using kept_weaken; fail);
    destruct H as (-> & b0 & rest & E & H); (split; [reflexivity|]); exists b0, rest; intuition auto using kept_weaken.
Qed.

Lemma bounds : forall j Q m B, 0 <= j <= Q -> Q * B < 2 ^ 30 -> 2 <= B <= 8192 -> (m <= 64)%nat ->
  0 <= (j + Z.of_nat m) * B < 2 ^ 31 /\ j + Z.of_nat m < 2 ^ 31.
Proof. intros. nia. Qed.

Lemma load_len_ok : forall f j, i_cfg f = c -> i_file f = fl -> 0 <= j -> j * BS c < 2 ^ 31 ->
  2 * (j * BS c) < fsize fl -> 0 < s16 (load_len f (j * BS c)).
Proof.
  intros f j HC HF J0 J1 L.
  destruct (loadBuffer f (mkBuf 0 0 StLoaded (fun _ => 0)) (j * BS (i_cfg f))) as [[b' p] n] eqn:E.
  pose proof (load_block f _ j b' p n ltac:(rewrite HC; auto) ltac:(rewrite HF; auto) J0 ltac:(rewrite HC; auto) E) as (_ & _ & SZ & _).
  rewrite HC, HF in SZ. specialize (SZ L). rewrite loadBuffer_eq in E. injection E as <- _ _. cbn [b_size] in SZ.
  rewrite HC in SZ. exact SZ.
Qed.

(* ---- steps of the reload keep it ------------------------------------------------ *)

Lemma step_ahead : forall x pbr s t Q, fle f0 x = true -> rstep x pbr s t ->
  ahead in_use Q (fst s) (snd s) -> ahead in_use Q (fst t) (snd t).
Proof.
  intros x pbr s t Q X H A.
  assert (M' : mid c fl (fst t, snd t)).
  { destruct A as (M & _). destruct s, t. eapply step_mid; eauto. }
  pose proof (BS_pos _ C) as HB. assert (NB : (c_nbuf c <= 64)%nat) by apply C.
  destruct A as (M & L & N & B & j & J & A).
  pose proof (bounds j Q (length (i_bufs (snd s))) (BS c) J B HB ltac:(lia)) as [BD1 BD2].
  assert (HC : i_cfg (snd s) = c) by apply M. assert (HF : i_file (snd s) = fl) by apply M.
  split; [exact M'|]. clear M' M.
  destruct H; cbn [fst snd] in *.
  - (* loop *) repeat (split; [assumption|]). exists j. split; [assumption|]. destruct A as [A1 A2]. split; [exact A1|]. split; [exact A2|].
    rewrite H in *. apply consec_cons in A1. destruct A1 as [[A1 _] _]. apply Forall_cons_iff in A2. destruct A2 as [A2 _].
    destruct (Z.eq_dec j Q) as [E|]; [|lia]. exfalso. apply A2; [lia|]. destruct (b_status b0); try discriminate. reflexivity.
  - repeat (split; [assumption|]). exists j. auto.
  - (* load *) repeat (split; [assumption|]). exists j. split; [assumption|]. destruct A as (A1 & A2 & A3).
    split; [exact A1|]. split; [exact A2|]. split; [exact A3|].
    unfold reload_decide in H0. rewrite X, L in H0. apply Ok_inj in H0. apply pair_equal_spec in H0. destruct H0 as [E <-].
    apply pair_equal_spec in E. destruct E as [<- _].
    split; [reflexivity|].
    assert (NE : i_bufs f <> []) by (rewrite H; congruence).
    assert (B0 : b_index b0 = j) by (rewrite H in A1; apply consec_cons in A1; lia).
    rewrite (consec_max (i_bufs f) j) by (auto; lia).
    rewrite s32_u32. replace (j + Z.of_nat (length (i_bufs f)) - 1 + 1) with (j + Z.of_nat (length (i_bufs f))) by lia.
    rewrite (s32_id (j + Z.of_nat (length (i_bufs f)))) by (unfold in_s32; lia). rewrite HC. apply s32_id. unfold in_s32. lia.
  - (* skip *) unfold reload_decide in H0. rewrite X, L in H0. discriminate.
  - (* part *) destruct A as (A1 & A2 & A3 & A4 & A5). rewrite H in *. repeat (split; [assumption|]). exists j. split; [assumption|].
    apply consec_cons in A1. destruct A1 as [[A1 A1'] A1'']. apply Forall_cons_iff in A2. destruct A2 as [A2 A2'].
    split; [apply consec_cons; auto|]. split; [constructor; auto|]. auto.
  - (* read *) destruct A as (A1 & A2 & A3 & A4 & A5). rewrite H in *. repeat (split; [assumption|]). exists j. split; [assumption|].
    apply consec_cons in A1. destruct A1 as [[A1 A1'] A1'']. apply Forall_cons_iff in A2. destruct A2 as [A2 A2'].
    split; [apply consec_cons; auto|]. split; [constructor; auto|]. split; [auto|]. split; [auto|]. split; [exact A5|].
    rewrite A5. intros S. apply load_len_ok; auto; lia.
  - (* index *) destruct A as (A1 & A2 & A3 & A4 & A5 & A6). rewrite H in *. repeat (split; [assumption|]). exists j. split; [assumption|].
    apply consec_cons in A1. destruct A1 as [[A1 A1'] A1'']. apply Forall_cons_iff in A2. destruct A2 as [A2 A2'].
    split; [auto|]. eexists _, _. split; [reflexivity|]. cbn [b_index]. split; [auto|]. split; [auto|]. split; [auto|].
    assert (E : u32 (blk (i_cfg f) i) = j + Z.of_nat (length (b0 :: rest))).
    { rewrite HC, A5. unfold blk. rewrite Z.div_mul by lia. apply u32_id. unfold in_u32. lia. }
    rewrite E. split; [reflexivity|]. rewrite <- A5. exact A6.
  - (* size *) destruct A as (A0 & b1 & r1 & E & A1 & A2 & A3 & A4 & A5). rewrite H in E. injection E as <- <-. rewrite H in *.
    repeat (split; [assumption|]). exists j. split; [assumption|]. split; [auto|]. eexists _, _. split; [reflexivity|]. cbn [b_index]. auto.
  - (* status *) destruct A as (A0 & b1 & r1 & E & A1 & A2 & A3 & A4 & A5). rewrite H in E. injection E as <- <-. rewrite H in *.
    repeat (split; [assumption|]). exists j. split; [assumption|]. split; [auto|]. eexists _, _. split; [reflexivity|].
    split; [|split; [|auto]].
    + apply consec_app; [auto|cbn [b_index length] in *; lia|exact A5].
    + apply Forall_app. split; [auto|]. constructor; [|constructor]. intros _. discriminate.
  - (* shuffle *) destruct A as (-> & b1 & r1 & E & A1 & A2 & A3). rewrite H in E. injection E as <- <-. rewrite H in N.
    split; [assumption|]. split; [cbn; rewrite app_length; cbn [length] in *; lia|]. split; [assumption|]. exists (j + 1). split; [lia|].
    cbn. auto.
  - (* reset *) destruct A as (A1 & A2). split; [assumption|]. split; [cbn; rewrite map_length; assumption|]. split; [assumption|].
    exists j. split; [assumption|]. split.
    + eapply consec_stored; [apply resetStatus_stored|exact A1].
    + cbn. apply Forall_map. apply Forall_forall. intros b _ _. cbn. discriminate.
  - (* prev *) destruct A as (A1 & A2). destruct (feq f0 (i_prev f)); (repeat (split; [assumption|])); exists j; auto.
Qed.

(* a reload in progress can always go on *)
Lemma ahead_goes_on : forall x pbr S Q pc f, fle f0 x = true -> ahead S Q pc f ->
  pc = AtEnd \/ exists pc' f', rstep x pbr (pc, f) (pc', f').
Proof.
  intros x pbr S Q pc f X (M & L & N & B & j & J & A).
  destruct (i_bufs f) as [|b0 rest] eqn:E; [cbn in N; lia|].
  destruct pc; try (left; reflexivity); right.
  - destruct (is_unused (b_status b0)) eqn:U; do 2 eexists; [eapply rs_loop; eauto|eapply rs_exit]. rewrite E. exact U.
  - do 2 eexists. eapply rs_load; [exact E|]. unfold reload_decide. rewrite X, L. reflexivity.
  - do 2 eexists. eapply rs_read; eauto.
  - do 2 eexists. eapply rs_index; eauto.
  - do 2 eexists. eapply rs_size; eauto.
  - do 2 eexists. eapply rs_status; eauto.
  - do 2 eexists. eapply rs_shuffle; eauto.
  - do 2 eexists. eapply rs_reset; eauto.
  - do 2 eexists. eapply rs_prev; eauto.
Qed.

(* ---- fetches ---------------------------------------------------------------------- *)

Lemma get_counts : forall f i, (i_fails (snd (if_get f i)) = i_fails f) \/
  (fst (if_get f i) = 0 /\ i_fails (snd (if_get f i)) = i_fails f + 1).
Proof.
  intros f i. unfold if_get. destruct (find_with_index _ _) as [[a|] l1]; [left|right]; auto.
Qed.

Lemma ahead_value : forall S Q pc f i, ahead S Q pc f -> in_file fl i -> Q <= blk c i ->
  sample_gap (i_fails (snd (if_get f i)) - i_fails f) (file_sample fl i) (fst (if_get f i)).
Proof.
  intros S Q pc f i (M & L & N & B & j & J & A) IN QI.
  assert (R : fst (if_get f i) = file_sample fl i \/ (fst (if_get f i) = 0 /\ i_fails (snd (if_get f i)) = i_fails f + 1)).
  { destruct M as [HE M]. assert (CO : Forall (holds c fl) (i_bufs f) ->
      fst (if_get f i) = file_sample fl i \/ (fst (if_get f i) = 0 /\ i_fails (snd (if_get f i)) = i_fails f + 1)).
    { intros FB. apply (coherent_get c fl); [|exact IN]. destruct HE. repeat split; auto. }
    assert (U : u32 (blk c i) = blk c i).
    { destruct IN as [I0 I1]. pose proof (blk_mod c i C). pose proof (mod_BS c i C). pose proof (BS_pos _ C).
      pose proof (blk_nonneg c i C I0). apply u32_id. unfold in_u32. nia. }
    destruct pc; auto.
    - destruct M as [_ (b0 & rest & E & M)]. eapply (get_tail c fl); eauto. rewrite E in A. destruct A as (A1 & A2 & A3 & _).
      apply consec_cons in A1. lia.
    - destruct M as (b0 & rest & E & M & _). eapply (get_tail c fl); eauto. rewrite E in A. destruct A as (A1 & A2 & A3 & _).
      apply consec_cons in A1. lia. }
  unfold sample_gap. destruct (get_counts f i) as [E|[E1 E2]]; [|right; split; [lia|auto]].
  destruct R as [R|[R1 R2]]; [left; split; [lia|auto]|lia].
Qed.

Lemma get_same : forall f i, i_loop (snd (if_get f i)) = i_loop f /\ length (i_bufs (snd (if_get f i))) = length (i_bufs f).
Proof.
  intros f i. pose proof (if_get_store f i) as (S1 & S2 & S3 & S4 & S5 & S6 & S7 & S8). split; [congruence|].
  rewrite <- (map_length stored), S8, map_length. reflexivity.
Qed.

Lemma fetched_split : forall q b0 rest, fetched q (b0 :: rest) = b0 <| b_status := StRead |> :: rest /\ b_index b0 = q \/
  fetched q (b0 :: rest) = mark b0 :: fetched q rest.
Proof.
  intros q b0 rest. cbn [fetched]. destruct (Z.eqb_spec (b_index b0) q); cbn [andb]; [|auto]. destruct (0 <? b_size b0); auto.
Qed.

Lemma kept_app : forall S Q l b, kept S Q (l ++ [b]) <-> kept S Q (b :: l).
Proof. intros S Q l b. unfold kept. rewrite Forall_app, !Forall_cons_iff. intuition. Qed.

(* A fetch changes nothing else than statuses *)
Lemma ahead_fetch : forall S S' Q Q' pc f i, ahead S Q pc f -> Q <= Q' -> Q' * BS c < 2 ^ 30 ->
  (forall l, single l -> kept S Q l -> kept S' Q' (fetched (u32 (blk c i)) l)) ->
  (forall l, kept S Q l -> (forall b, In b l -> b_index b <> u32 (blk c i)) -> kept S' Q' l) ->
  ahead S' Q' pc (snd (if_get f i)).
Proof.
  intros S S' Q Q' pc f i (M & L & N & B & j & J & A) QQ B' K1 K3.
  pose proof (fetch_mid c fl pc f i M) as M'. destruct (get_same f i) as [G1 G2].
  assert (HC : i_cfg f = c) by apply M. pose proof (get_fetched f i) as GF. rewrite HC in GF.
  pose proof (fetched_stored (u32 (blk c i)) (i_bufs f)) as ST. rewrite <- GF in ST.
  split; [exact M'|]. split; [congruence|]. split; [rewrite G2; exact N|]. split; [exact B'|].
  exists j. split; [lia|]. rewrite G2.
  destruct pc.
  - destruct A as [A1 A2]. split; [eapply consec_stored; eauto|]. rewrite GF. eauto using consec_single.
  - destruct A as [A1 [A2 A3]]. split; [eapply consec_stored; eauto|]. rewrite GF. split; [eauto using consec_single|lia].
  - destruct A as [A1 [A2 [A3 A4]]]. split; [eapply consec_stored; eauto|]. rewrite GF. split; [eauto using consec_single|]. split; [lia|exact A4].
  - destruct A as [A1 [A2 [A3 A4]]]. split; [eapply consec_stored; eauto|]. rewrite GF. split; [eauto using consec_single|]. split; [lia|exact A4].
  - destruct A as (A0 & b0 & rest & E & A1 & A2 & A3 & A4 & A5). split; [exact A0|]. rewrite E in GF. rewrite GF.
    destruct (fetched_split (u32 (blk c i)) b0 rest) as [[F EI]|F]; rewrite F; eexists _, _; (split; [reflexivity|]); cbn [b_index].
    + split; [exact A1|]. split; [|split; [lia|auto]]. apply (K3 rest); auto. intros b I.
      apply (consec_ge rest (j + 1)) in I; auto. rewrite E in A4. cbn [length] in A4. lia.
    + destruct (mark_stored b0) as [-> _]. split; [eapply consec_stored; [apply fetched_stored|exact A1]|].
      split; [eapply K1; eauto using consec_single|]. split; [lia|auto].
  - destruct A as (A0 & b0 & rest & E & A1 & A2 & A3 & A4 & A5). split; [exact A0|]. rewrite E in GF. rewrite GF.
    destruct (fetched_split (u32 (blk c i)) b0 rest) as [[F EI]|F]; rewrite F; eexists _, _; (split; [reflexivity|]); cbn [b_index].
    + split; [exact A1|]. split; [|split; [lia|auto]]. apply (K3 rest); auto. intros b I.
      apply (consec_ge rest (j + 1)) in I; auto. rewrite E in A4. cbn [length] in A4. lia.
    + unfold sized. destruct (mark_stored b0) as [-> ->]. split; [eapply consec_stored; [apply fetched_stored|exact A1]|].
      split; [eapply K1; eauto using consec_single|]. split; [lia|auto].
  - destruct A as (A0 & b0 & rest & E & A1 & A2 & A3). split; [exact A0|]. rewrite E in GF, ST.
    pose proof (single_turn _ _ (consec_single _ _ A1)) as SG. apply kept_app in A2.
    pose proof (K1 _ SG A2) as K. rewrite <- GF in K.
    destruct (stored_cons _ _ _ ST) as (b1 & r1 & F & E1 & E2). rewrite F in *.
    exists b1, r1. split; [reflexivity|]. split; [|split; [apply kept_app; exact K|lia]].
    eapply consec_stored; [|exact A1]. rewrite !map_app. cbn [map]. now rewrite E1, E2.
  - destruct A as [A1 A2]. split; [eapply consec_stored; eauto|]. rewrite GF. eauto using consec_single.
  - destruct A as [A1 A2]. split; [eapply consec_stored; eauto|]. rewrite GF. eauto using consec_single.
  - destruct A as [A1 A2]. split; [eapply consec_stored; eauto|]. rewrite GF. eauto using consec_single.
Qed.

Lemma file_blk : forall i, in_file fl i -> u32 (blk c i) = blk c i /\ 2 * (blk c i * BS c) < fsize fl /\ blk c i * BS c < 2 ^ 30.
Proof.
  intros i [I0 I1]. pose proof (blk_mod c i C). pose proof (mod_BS c i C). pose proof (BS_pos _ C).
  pose proof (blk_nonneg c i C I0). split; [|lia]. apply u32_id. unfold in_u32. nia.
Qed.

(* a first fetch at block q makes q the play position *)
Lemma ahead_first : forall S Q pc f i, ahead S Q pc f -> in_file fl i -> Q <= blk c i ->
  ahead was_read (blk c i) pc (snd (if_get f i)).
Proof.
  intros S Q pc f i A IN QI. destruct (file_blk i IN) as (U & F & B).
  apply (ahead_fetch S was_read Q (blk c i)); auto; rewrite U.
  - intros l SG _. now apply fetched_read.
  - intros l _ H. apply Forall_forall. intros b I E. now apply H in I.
Qed.

(* later ones keep it *)
Lemma ahead_later : forall Q pc f i, ahead was_read Q pc f -> in_file fl i -> Q <= blk c i ->
  ahead was_read Q pc (snd (if_get f i)).
Proof.
  intros Q pc f i A IN QI. assert (B : Q * BS c < 2 ^ 30) by apply A.
  apply (ahead_fetch was_read was_read Q Q); auto; [lia|].
  intros l _ H. now apply fetched_keeps.
Qed.
End R.
