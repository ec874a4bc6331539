(* The piano example is always defined and plays its score (C118, C119); silent voices
   are stopped (C121). *)

From Coq Require Import ZArith Lia List Bool.
From RecordUpdate Require Import RecordUpdate.
From Verif Require Import Machine Floats WavModel WavSpec CacheModel CacheFacts ReaderModel ResponderModel ResponderSpec QueueProofs PlayerModel LifeSpec LifeProofs WorldProofs
  ScheduleProofs SketchModel SketchProofs ManySpec ManyProofs PianoModel PianoSpec.
Import ListNotations.
Local Open Scope Z_scope.

Lemma bg_mild : forall l, Forall mild_op (bg_ops l).
Proof. induction l as [|[[j g]|] l IH]; constructor; try exact I; exact IH. Qed.

Lemma at_index_in : forall n i, 0 <= i < n -> at_index n i = Ok tt.
Proof. intros n i H. unfold at_index. destruct (Z.leb_spec 0 i); [|lia]. destruct (Z.ltb_spec i n); [reflexivity|lia]. Qed.

Definition within (lo n : Z) (p : Z -> bool) : bool := forallb (fun k => p (lo + Z.of_nat k)) (seq 0 (Z.to_nat n)).
Lemma within_spec : forall lo n p, within lo n p = true -> forall v, lo <= v < lo + n -> p v = true.
Proof.
  intros lo n p H v B. unfold within in H. rewrite forallb_forall in H. specialize (H (Z.to_nat (v - lo))). rewrite Z2Nat.id in H by lia.
  replace (lo + (v - lo)) with v in H by lia. apply H. apply in_seq. lia.
Qed.

Lemma wait_op : forall hi, 0 <= hi < 128 -> Z.land hi 240 =? 240 = false /\ Z.land hi 240 =? 144 = false /\ Z.land hi 240 =? 128 = false.
Proof.
  intros hi H. pose proof (within_spec 0 128 (fun v => negb (Z.land v 240 =? 240) && negb (Z.land v 240 =? 144) && negb (Z.land v 240 =? 128)) ltac:(vm_compute; reflexivity) hi H) as E.
  cbv beta in E. rewrite !andb_true_iff, !negb_true_iff in E. tauto.
Qed.
Lemma on_op : forall c, 0 <= c < 8 -> Z.land (144 + c) 240 = 144 /\ Z.land (144 + c) 15 = c.
Proof.
  intros c H. pose proof (within_spec 0 8 (fun v => (Z.land (144 + v) 240 =? 144) && (Z.land (144 + v) 15 =? v)) ltac:(vm_compute; reflexivity) c H) as E.
  cbv beta in E. rewrite andb_true_iff, !Z.eqb_eq in E. exact E.
Qed.
Lemma off_op : forall c, 0 <= c < 8 -> Z.land (128 + c) 240 = 128 /\ Z.land (128 + c) 15 = c.
Proof.
  intros c H. pose proof (within_spec 0 8 (fun v => (Z.land (128 + v) 240 =? 128) && (Z.land (128 + v) 15 =? v)) ltac:(vm_compute; reflexivity) c H) as E.
  cbv beta in E. rewrite andb_true_iff, !Z.eqb_eq in E. exact E.
Qed.
Lemma stop_op : forall x, 0 <= x < 16 -> Z.land (240 + x) 240 = 240.
Proof.
  intros x H. pose proof (within_spec 0 16 (fun v => Z.land (240 + v) 240 =? 240) ltac:(vm_compute; reflexivity) x H) as E. cbv beta in E. now apply Z.eqb_eq in E.
Qed.
Lemma lor_byte : forall hi lo, 0 <= lo < 256 -> Z.lor (hi * 256) lo = 256 * hi + lo.
Proof.
  intros hi lo H. replace (hi * 256) with (Z.shiftl hi 8) by (rewrite Z.shiftl_mul_pow2 by lia; reflexivity).
  assert (A : Z.land (Z.shiftl hi 8) lo = 0).
  { apply Z.bits_inj'. intros n N. rewrite Z.land_spec, Z.bits_0, Z.shiftl_spec by lia.
    destruct (Z.ltb_spec n 8); [rewrite Z.testbit_neg_r by lia; reflexivity|].
    replace (Z.testbit lo n) with false; [apply andb_false_r|]. symmetry. destruct (Z.eq_dec lo 0) as [->|]; [apply Z.bits_0|].
    apply Z.bits_above_log2; [lia|]. apply Z.log2_lt_pow2; [lia|]. apply Z.lt_le_trans with (2 ^ 8); [lia|]. apply Z.pow_le_mono_r; lia. }
  rewrite <- (Z.lxor_lor _ _ A), <- (Z.add_nocarry_lxor _ _ A). rewrite Z.shiftl_mul_pow2 by lia. lia.
Qed.

Section Score.
Variables (pow : b64 -> b64 -> b64) (card : Z -> option file) (bs : list Z).
Hypotheses (PO : pow_ok pow) (CO : card_ok card).
Let kinds := fun _ : nat => KSd.
Let KF : forall i, kinds i <> KArray. Proof. intros i. discriminate. Qed.
Notation score := (mem_of bs).

Definition good (s : piano) : Prop := fleet kinds 0 (pn_world s).
Lemma good_w : forall w s, fleet kinds 0 w -> pn_world s = w -> good s.
Proof. intros w s G E. unfold good. rewrite E. exact G. Qed.
(* What is left to read *)
Definition left (s : piano) (l : list Z) : Prop := exists pre, bs = pre ++ l /\ pn_pos s = Z.of_nat (length pre).

Lemma next_ok : forall s b l, left s (b :: l) -> next_byte score s = Ok (b, s <| pn_pos := pn_pos s + 1 |>) /\ left (s <| pn_pos := pn_pos s + 1 |>) l.
Proof.
  intros s b l (pre & E & P). split.
  - unfold next_byte. rewrite at_index_in by (cbn [mem_of msize]; rewrite E, app_length; cbn [length]; lia). cbn [bind mem_of mbyte].
    rewrite P, Nat2Z.id, E, nth_middle. reflexivity.
  - exists (pre ++ [b]). split; [rewrite <- app_assoc; exact E|]. cbn [pn_pos set]. rewrite app_length. cbn [length]. rewrite P. lia.
Qed.
Lemma left_same : forall s s' l, left s l -> pn_pos s' = pn_pos s -> left s' l.
Proof. intros s s' l (pre & E & P) Q. exists pre. split; [exact E|congruence]. Qed.

Lemma voice_ok : forall c, 0 <= c < 8 -> voice c = Ok (Z.to_nat c).
Proof. intros c H. unfold voice. rewrite at_index_in by exact H. reflexivity. Qed.

Lemma ops_good : forall l w, Forall mild_op l -> fleet kinds 0 w -> exists xs w', total (fun f => wops f l w) (xs, w') /\ fleet kinds 0 w'.
Proof. exact (fleet_ops kinds KF). Qed.

Lemma noteOn_total : forall t c note vel s, pass_ok t -> 0 <= c < 8 -> 0 <= note < 256 -> 0 <= vel < 128 -> good s ->
  exists a s', total (fun f => noteOn pow card f t (Z.to_nat c) note vel s) (a, s') /\ good s' /\ pn_pos s' = pn_pos s /\ pn_next s' = pn_next s /\ carries (On c note vel) a.
Proof.
  intros t c note vel s PK C N V G. unfold noteOn, lowest_note, highest_note. change (36 - 3) with 33. change (84 + 2) with 86. rewrite Z2Nat.id by lia.
  destruct (Z.leb_spec 33 note) as [L1|]; [destruct (Z.leb_spec note 86) as [L2|]; [destruct (Z.ltb_spec 0 vel) as [L3|]|]|]; cbn [andb].
  2-4: do 2 eexists; (split; [apply total_ok|]); (split; [exact G|]); (split; [reflexivity|]); (split; [reflexivity|]);
       right; (split; [first [left; lia|right; intros idx sh [A B]; unfold pitch_of; lia]|reflexivity]).
  cbv zeta. rewrite Z.quot_div_nonneg, Z.rem_mod_nonneg by lia.
  pose proof (Z.div_mod (note - 33) 6 ltac:(lia)) as DM. pose proof (Z.mod_pos_bound (note - 33) 6 ltac:(lia)) as MB.
  set (idx := (note - 33) / 6) in *. set (rm := (note - 33) mod 6) in *. clearbody idx rm.
  rewrite at_index_in by (unfold samples_count; lia). cbn [bind].
  destruct (ops_good ([WPlayFile (Z.to_nat c) (card idx) true 0 (pp_stack t) (pp_garbage t)] ++ bg_ops (pp_gap t 1) ++ [WCall (Z.to_nat c) (CRate (pow (semitone pow) (d_of_Z (rm - 3))))]) (pn_world s))
    as (xs & w & T & G').
  - constructor; [split; [exact PK|]; split; [discriminate|]; intros fl E; exact (CO _ _ E)|]. apply Forall_app. split; [apply bg_mild|].
    constructor; [|constructor]. apply PO. lia.
  - exact G.
  - do 2 eexists. split.
    { eapply total_bind; [exact T|]. cbv beta iota. rewrite at_index_in by (unfold amplitudes_count; lia). cbn [bind]. apply total_ok. }
    split; [exact G'|]. split; [reflexivity|]. split; [reflexivity|]. left. exists idx, (rm - 3). split; [split; lia|]. split; [unfold pitch_of; lia|]. split; [exact L3|reflexivity].
Qed.

Variables (x : Z) (rest : list Z).
Hypothesis X : 0 <= x < 16.
Notation tail evs := (score_bytes evs x rest).

Lemma player_total : forall t evs s, pass_ok t -> Forall event_ok evs -> good s -> left s (tail evs) ->
  exists acts s' evs', total (fun f => updatePlayer pow card score f t s) (acts, s') /\ good s' /\ left s' (tail evs') /\ Forall event_ok evs' /\
    forall l xs, played (pn_next s') evs' l xs -> played (pn_next s) evs (t :: l) (acts ++ xs).
Proof.
  intros t evs s PK EV G L. unfold updatePlayer. destruct (Z.leb_spec (pn_next s) (pp_now t)) as [D|D].
  2:{ exists [], s, evs. split; [apply total_ok|]. split; [exact G|]. split; [exact L|]. split; [exact EV|]. intros. now apply pl_early. }
  destruct evs as [|e evs].
  - destruct (next_ok _ _ _ L) as [-> L1]. cbn [bind]. cbv zeta. rewrite (stop_op x X). cbn [Z.eqb Pos.eqb]. cbv beta iota.
    do 2 eexists. exists []. split; [apply total_ok|]. split; [exact G|]. split; [eapply left_same; [exact L|]; cbn [pn_pos set]; lia|]. split; [constructor|].
    intros l xs P. cbn [pn_next set] in P. apply pl_end; assumption.
  - inversion EV as [|? ? EO EV2]; subst. unfold score_bytes in L. cbn [flat_map] in L. rewrite <- app_assoc in L.
    destruct e as [hi lo|c note vel|c]; cbn [event_bytes app] in L; cbn [event_ok] in EO.
    + destruct (next_ok _ _ _ L) as [-> L1]. cbn [bind]. cbv zeta. destruct (wait_op hi (proj1 EO)) as (-> & -> & ->).
      destruct (next_ok _ _ _ L1) as [-> L2]. cbn [bind]. do 2 eexists. exists evs. split; [apply total_ok|]. split; [exact G|].
      split; [eapply left_same; [exact L2|reflexivity]|]. split; [exact EV2|]. intros l xs P. cbn [pn_next set] in P. rewrite lor_byte in P by lia. rewrite Z.add_assoc in P.
      apply pl_event; [exact D|reflexivity|exact P].
    + destruct EO as (C & N & V). destruct (next_ok _ _ _ L) as [-> L1]. cbn [bind]. cbv zeta. destruct (on_op c C) as [-> ->].
      destruct (next_ok _ _ _ L1) as [-> L2]. cbn [bind Z.eqb Pos.eqb]. cbv beta iota. destruct (next_ok _ _ _ L2) as [-> L3]. cbn [bind]. rewrite (voice_ok c C). cbn [bind].
      match type of L3 with left ?s3 _ => destruct (noteOn_total t c note vel s3 PK C N V G) as (a & s' & T & G' & P' & N' & CA) end.
      exists [a], s', evs. split; [eapply total_bind; [exact T|apply total_ok]|]. split; [exact G'|]. split; [eapply left_same; [exact L3|exact P']|]. split; [exact EV2|].
      intros l xs P. cbn [pn_next set] in N'. rewrite N' in P. apply pl_event; [exact D|exact CA|exact P].
    + destruct (next_ok _ _ _ L) as [-> L1]. cbn [bind]. cbv zeta. destruct (off_op c EO) as [-> ->]. cbn [Z.eqb Pos.eqb]. cbv beta iota. rewrite (voice_ok c EO). cbn [bind].
      do 2 eexists. exists evs. split; [apply total_ok|]. split; [exact G|]. split; [exact L1|]. split; [exact EV2|].
      intros l xs P. apply pl_event; [exact D|reflexivity|exact P].
Qed.

Lemma polls_total : forall t n i s, good s -> exists s', total (fun f => poll_voices f t n i s) s' /\ good s' /\ pn_pos s' = pn_pos s /\ pn_next s' = pn_next s.
Proof.
  intros t. induction n as [|n IH]; intros i s G; [exists s; split; [apply total_ok|auto]|]. cbn [poll_voices].
  destruct (ops_good (bg_ops (pp_gap t (2 + i))) (pn_world s) (bg_mild _) G) as (xs & w & T & G1).
  destruct (pn_active s i && negb (pp_env t i)).
  - destruct (ops_good [WStop i (pp_mid t i)] w ltac:(constructor; [exact I|constructor]) G1) as (ys & w2 & T2 & G2).
    destruct (IH (S i) (s <| pn_world := w2 |> <| pn_active := fun j => if Nat.eqb j i then false else pn_active s j |>) ltac:(eapply good_w; [exact G2|reflexivity])) as (s' & T3 & G3 & P3 & N3).
    exists s'. split; [|auto]. eapply total_bind; [exact T|]. cbv beta iota. eapply total_bind; [exact T2|]. exact T3.
  - destruct (IH (S i) (s <| pn_world := w |>) ltac:(eapply good_w; [exact G1|reflexivity])) as (s' & T3 & G3 & P3 & N3).
    exists s'. split; [|auto]. eapply total_bind; [exact T|]. exact T3.
Qed.

Lemma pass_total : forall t evs s, pass_ok t -> Forall event_ok evs -> good s -> left s (tail evs) ->
  exists acts s' evs', total (fun f => piano_pass pow card score f t s) (acts, s') /\ good s' /\ left s' (tail evs') /\ Forall event_ok evs' /\
    forall l xs, played (pn_next s') evs' l xs -> played (pn_next s) evs (t :: l) (acts ++ xs).
Proof.
  intros t evs s PK EV G L. unfold piano_pass.
  destruct (ops_good (bg_ops (pp_gap t 0)) (pn_world s) (bg_mild _) G) as (x0 & w0 & T0 & G0).
  destruct (player_total t evs (s <| pn_world := w0 |>) PK EV ltac:(eapply good_w; [exact G0|reflexivity]) (left_same _ _ _ L eq_refl)) as (acts & s1 & evs' & T1 & G1 & L1 & E1 & P1).
  destruct (polls_total t voices_count 0 s1 G1) as (s2 & T2 & G2 & P2 & N2).
  destruct (ops_good (bg_ops (pp_gap t 10) ++ [WYield]) (pn_world s2)) as (x3 & w3 & T3 & G3); [apply Forall_app; split; [apply bg_mild|constructor; [exact I|constructor]]|exact G2|].
  exists acts, (s2 <| pn_world := w3 |>), evs'. split.
  { eapply total_bind; [exact T0|]. cbv beta iota. eapply total_bind; [exact T1|]. cbv beta iota. eapply total_bind; [exact T2|]. cbv beta. eapply total_bind; [exact T3|]. apply total_ok. }
  split; [exact G3|]. split; [eapply left_same; [exact L1|exact P2]|]. split; [exact E1|].
  intros l xs P. cbn [pn_next set] in P. rewrite N2 in P. exact (P1 l xs P).
Qed.

Lemma run_total : forall l evs s, Forall pass_ok l -> Forall event_ok evs -> good s -> left s (tail evs) ->
  exists acts s', total (fun f => piano_run pow card score f l s) (acts, s') /\ played (pn_next s) evs l acts.
Proof.
  induction l as [|t l IH]; intros evs s PK EV G L; [exists [], s; split; [apply total_ok|constructor]|].
  inversion PK as [|? ? P1 P2]; subst. destruct (pass_total t evs s P1 EV G L) as (a & s1 & evs' & T1 & G1 & L1 & E1 & C).
  destruct (IH evs' s1 P2 E1 G1 L1) as (b & s2 & T2 & D). exists (a ++ b), s2. split.
  - cbn [piano_run]. eapply total_bind; [exact T1|]. cbv beta iota. eapply total_bind; [exact T2|]. apply total_ok.
  - apply C. exact D.
Qed.
End Score.

Theorem piano_plays : forall pow card evs x rest flags l, pow_ok pow -> card_ok card -> Forall event_ok evs -> 0 <= x < 16 -> 0 <= flags < 256 -> Forall pass_ok l ->
  exists F acts s, (forall fuel, (F <= fuel)%nat -> play_piano pow card (mem_of (score_bytes evs x rest)) fuel flags l = Ok (acts, s)) /\ played 0 evs l acts.
Proof.
  intros pow card evs x rest flags l PO CO EV X FL PK.
  destruct (run_total pow card (score_bytes evs x rest) PO CO x rest X l evs (piano0 flags) PK EV) as (acts & s & [F T] & P).
  - split; [|intros i; apply m_new]. exists (fun _ => false), [], flags. split; [apply yinv0|repeat split; auto; try apply FL; cbn; intros; lia].
  - exists []. split; reflexivity.
  - exists F, acts, s. split; [exact T|exact P].
Qed.

Theorem piano_defined : forall pow card evs x rest flags l, pow_ok pow -> card_ok card -> Forall event_ok evs -> 0 <= x < 16 -> 0 <= flags < 256 -> Forall pass_ok l ->
  exists F acts s, forall fuel, (F <= fuel)%nat -> play_piano pow card (mem_of (score_bytes evs x rest)) fuel flags l = Ok (acts, s).
Proof.
  intros pow card evs x rest flags l PO CO EV X FL PK. destruct (piano_plays pow card evs x rest flags l PO CO EV X FL PK) as (F & a & s & T & _). exists F, a, s. exact T.
Qed.

Lemma carries_unique : forall e a b, carries e a -> carries e b -> a = b.
Proof.
  intros [hi lo|c n v|c] a b A B; cbn [carries] in *; [congruence| |congruence].
  destruct A as [(i1 & s1 & N1 & P1 & V1 & ->)|([V1|D1] & ->)]; destruct B as [(i2 & s2 & N2 & P2 & V2 & ->)|([V2|D2] & ->)]; try reflexivity; try lia.
  - unfold near, pitch_of in *. assert (i1 = i2) by lia. subst i2. assert (s1 = s2) by lia. subst s2. reflexivity.
  - elim (D2 _ _ N1 P1).
  - elim (D1 _ _ N2 P2).
Qed.
Theorem played_unique : forall due evs l xs ys, played due evs l xs -> played due evs l ys -> xs = ys.
Proof.
  intros due evs l xs ys A. revert ys. induction A as [due evs|due evs t l xs L A IH|due t l xs L A IH|due e evs t l a xs L C A IH]; intros ys B; inversion B; subst; try lia; auto.
  - f_equal. auto.
  - f_equal; [eapply carries_unique; eassumption|]. auto.
Qed.
