(* Audio blocks in update() (C33, C34), and the end of the source (C35, one player). *)

From Coq Require Import ZArith Lia List Bool.
From RecordUpdate Require Import RecordUpdate.
From Flocq Require Import IEEE754.BinarySingleNaN.
From Verif Require Import Machine Floats WavModel CacheModel ReaderModel ReaderFacts ResponderModel PlayerModel CacheSpec LifeSpec.
Import ListNotations.
Local Open Scope Z_scope.

(* ---- C33 ---- *)

Fixpoint somes (l : list (option nat)) : list nat :=
  match l with [] => [] | Some b :: l' => b :: somes l' | None :: l' => somes l' end.

Lemma holding_app : forall l1 l2 h, holding h (l1 ++ l2) =
  match holding h l1 with Some h' => holding h' l2 | None => None end.
Proof.
  induction l1 as [|a l1 IH]; intros l2 h; [reflexivity|]. destruct a as [b| |b d c|b]; cbn [app holding]; auto.
  - destruct (in_dec _ _ _); auto.
  - destruct h as [|c h]; auto. destruct (Nat.eqb b c); auto.
Qed.

Lemma holding_alloc : forall l h, holding h (map alloc_act l) = Some (h ++ somes l).
Proof.
  induction l as [|[b|] l IH]; intro h; cbn [map alloc_act holding somes].
  - now rewrite app_nil_r.
  - rewrite IH, <- app_assoc. reflexivity.
  - apply IH.
Qed.

Lemma holding_release : forall l h, holding (somes l ++ h) (flat_map release_act l) = Some h.
Proof.
  induction l as [|[b|] l IH]; intro h; cbn [flat_map release_act somes app holding]; auto.
  rewrite Nat.eqb_refl. apply IH.
Qed.

Definition held_tx (h : list nat) (a : bact) : Prop := match a with BTransmit b _ _ => In b h | _ => False end.
Lemma holding_tx : forall l h, Forall (held_tx h) l -> holding h l = Some h.
Proof.
  induction l as [|a l IH]; intros h H; [reflexivity|]. apply Forall_cons_iff in H. destruct H as [H1 H2].
  destruct a as [b| |b d c|b]; try contradiction. cbn [holding]. destruct (in_dec _ _ _); [auto|contradiction].
Qed.

Lemma transmits_held : forall l frames ch h, incl (somes l) h -> Forall (held_tx h) (transmits l frames ch).
Proof.
  induction l as [|[b|] l IH]; intros frames ch h I; cbn [transmits app]; [constructor| |].
  - constructor; [apply I; now left|]. apply IH. intros x X. apply I. now right.
  - apply IH. exact I.
Qed.

Lemma second_held : forall l frames h, incl (somes l) h -> Forall (held_tx h) (second_output l frames).
Proof.
  intros [|[b|] [|o l]] frames h I; cbn [second_output]; try constructor; [|constructor]. cbn. apply I. now left.
Qed.

Theorem update_balanced : forall fuel alloc r acts ev r', p_update fuel alloc r = Ok (acts, ev, r') ->
  holding [] acts = Some [].
Proof.
  intros fuel alloc r acts ev r' H. unfold p_update in H.
  destruct (_ =? -1); [inversion H; reflexivity|]. destruct (_ <? 0); [discriminate|].
  destruct (negb _); [inversion H; reflexivity|]. cbv zeta in H. set (bl := map alloc _) in *. clearbody bl.
  destruct (forallb got bl).
  - apply bind_ok in H. destruct H as ([frames r1] & E & H). inversion H; subst. clear H.
    rewrite holding_app, holding_alloc. cbn [app]. rewrite holding_app, holding_tx by (apply transmits_held, incl_refl).
    rewrite holding_app, holding_tx by (apply second_held, incl_refl).
    rewrite <- (app_nil_r (somes bl)) at 1. apply holding_release.
  - inversion H; subst. rewrite holding_app, holding_alloc. cbn [app].
    rewrite <- (app_nil_r (somes bl)) at 1. apply holding_release.
Qed.

Lemma somes_got : forall l, forallb got l = true -> l = map Some (somes l).
Proof.
  induction l as [|[b|] l IH]; intro H; cbn in *; [reflexivity| |discriminate]. now rewrite <- IH.
Qed.

Lemma allocated_app : forall a b, allocated (a ++ b) = allocated a ++ allocated b.
Proof. induction a as [|[]]; intro b'; cbn; try rewrite IHa; auto. Qed.
Lemma released_app : forall a b, released (a ++ b) = released a ++ released b.
Proof. induction a as [|[]]; intro b'; cbn; try rewrite IHa; auto. Qed.
Lemma sent_app : forall a b, sent (a ++ b) = sent a ++ sent b.
Proof. induction a as [|[]]; intro b'; cbn; try rewrite IHa; auto. Qed.

Lemma acts_alloc : forall l, allocated (map alloc_act l) = somes l /\ released (map alloc_act l) = [] /\ sent (map alloc_act l) = [].
Proof. induction l as [|[b|] l (A & B & C)]; cbn; repeat split; auto. now rewrite A. Qed.
Lemma acts_release : forall l, allocated (flat_map release_act l) = [] /\ released (flat_map release_act l) = somes l /\
  sent (flat_map release_act l) = [].
Proof. induction l as [|[b|] l (A & B & C)]; cbn; repeat split; auto. now rewrite B. Qed.
Lemma acts_tx : forall l h, Forall (held_tx h) l -> allocated l = [] /\ released l = [].
Proof.
  induction l as [|a l IH]; intros h H; [auto|]. apply Forall_cons_iff in H. destruct H as [H1 H2].
  destruct a; try contradiction. cbn. eauto.
Qed.

Fixpoint sent_from (bs : list nat) (frames : list (list Z)) (ch : nat) : list (nat * list Z * Z) :=
  match bs with [] => [] | b :: l => (b, block_data frames ch, Z.of_nat ch) :: sent_from l frames (S ch) end.

Lemma sent_transmits : forall bs frames ch, sent (transmits (map Some bs) frames ch) = sent_from bs frames ch.
Proof. induction bs as [|b bs IH]; intros frames ch; cbn; [reflexivity|]. now rewrite IH. Qed.

(* The results of update() in full *)
Lemma update_cases : forall fuel alloc r acts ev r', p_update fuel alloc r = Ok (acts, ev, r') ->
  let blocks := map alloc (seq 0 (Z.to_nat (r_nch r))) in
  (r_playing r = false \/ r_nch r = -1) /\ acts = [] /\ ev = None /\ r' = r \/
  r_playing r = true /\ 0 <= r_nch r /\ allocated acts = somes blocks /\ released acts = somes blocks /\
  ((exists c, 0 <= c < r_nch r /\ alloc (Z.to_nat c) = None) /\ sent acts = [] /\ ev = None /\ r' = r \/
   (forall c, 0 <= c < r_nch r -> alloc (Z.to_nat c) <> None) /\
   exists frames, r_read fuel r ABS = Ok (frames, r') /\
     sent acts = sent_from (somes blocks) frames 0 ++
                 (if r_nch r =? 1 then map (fun b => (b, block_data frames 0, 1)) (somes blocks) else []) /\
     length (somes blocks) = Z.to_nat (r_nch r) /\
     ev = Some (if Z.of_nat (length frames) =? ABS then evReload else evClose)).
Proof.
  intros fuel alloc r acts ev r' H blocks. unfold p_update in H.
  destruct (Z.eqb_spec (r_nch r) (-1)) as [N|N]; [inversion H; subst; left; auto|].
  destruct (Z.ltb_spec (r_nch r) 0); [discriminate|].
  destruct (r_playing r) eqn:P; cbn [negb] in H; [|inversion H; subst; left; auto].
  right. cbv zeta in H. fold blocks in H. split; [reflexivity|]. split; [exact H0|].
  assert (GN : forall c, 0 <= c < r_nch r -> In (alloc (Z.to_nat c)) blocks).
  { intros c C. unfold blocks. apply in_map. apply in_seq. lia. }
  destruct (forallb got blocks) eqn:G.
  - apply bind_ok in H. destruct H as ([frames r1] & E & H). inversion H; subst. clear H.
    pose proof (transmits_held blocks frames 0 (somes blocks) (incl_refl _)) as T1.
    pose proof (second_held blocks frames (somes blocks) (incl_refl _)) as T2.
    destruct (acts_tx _ _ T1) as [A1 R1]. destruct (acts_tx _ _ T2) as [A2 R2].
    destruct (acts_alloc blocks) as (A3 & R3 & S3). destruct (acts_release blocks) as (A4 & R4 & S4).
    rewrite !allocated_app, !released_app, !sent_app, A1, A2, A3, A4, R1, R2, R3, R4, S3, S4.
    rewrite !app_nil_r. cbn [app]. split; [reflexivity|]. split; [reflexivity|]. right. split.
    + intros c C E0. rewrite forallb_forall in G. specialize (G _ (GN c C)). now rewrite E0 in G.
    + exists frames. split; [exact E|]. pose proof (somes_got _ G) as SG.
      assert (L : length (somes blocks) = Z.to_nat (r_nch r)).
      { rewrite <- (map_length Some), <- SG. unfold blocks. now rewrite map_length, seq_length. }
      split; [|auto]. rewrite SG at 1. rewrite sent_transmits. f_equal.
      destruct (Z.eqb_spec (r_nch r) 1) as [N1|N1].
      * rewrite N1 in L. destruct (somes blocks) as [|b [|b2 bs]] eqn:SB; try discriminate. rewrite SG. reflexivity.
      * destruct (somes blocks) as [|b [|b2 bs]] eqn:SB; rewrite SG; cbn; try reflexivity. cbn in L. lia.
  - inversion H; subst. clear H. destruct (acts_alloc blocks) as (A3 & R3 & S3). destruct (acts_release blocks) as (A4 & R4 & S4).
    rewrite allocated_app, released_app, sent_app, A3, A4, R3, R4, S3, S4. rewrite !app_nil_r. cbn [app].
    split; [reflexivity|]. split; [reflexivity|]. left. split; [|auto].
    assert (X : existsb (fun o => negb (got o)) blocks = true).
    { clear - G. induction blocks as [|o l IH]; [discriminate|]. cbn in *. destruct (got o); cbn in *; auto. }
    apply existsb_exists in X. destruct X as (o & I & O). apply in_map_iff in I. destruct I as (c & E & I).
    apply in_seq in I. exists (Z.of_nat c). rewrite Nat2Z.id. split; [lia|]. subst o. now destruct (alloc c).
Qed.

(* All or nothing: with a failed allocation nothing is sent, otherwise every channel is *)
Theorem update_complete : forall fuel alloc r acts ev r', p_update fuel alloc r = Ok (acts, ev, r') ->
  released acts = allocated acts /\
  (sent acts <> [] -> Z.of_nat (length (allocated acts)) = r_nch r /\
     forall c, 0 <= c < r_nch r -> exists b d, In (b, d, c) (sent acts)).
Proof.
  intros fuel alloc r acts ev r' H. apply update_cases in H. cbv zeta in H.
  destruct H as [(_ & -> & _)|(P & N & A & R & H)]; [split; [reflexivity|now intros []]|].
  split; [congruence|]. intro S. destruct H as [(_ & S0 & _)|(_ & frames & _ & S1 & L & _)]; [contradiction|].
  split; [rewrite A, L; lia|]. intros c C. rewrite S1.
  assert (K : forall bs ch c, ch <= c < ch + Z.of_nat (length bs) -> 0 <= ch ->
     exists b d, In (b, d, c) (sent_from bs frames (Z.to_nat ch))).
  { clear. induction bs as [|b bs IH]; intros ch c C Z0; cbn [length] in C; [lia|]. cbn [sent_from].
    destruct (Z.eq_dec c ch) as [->|NE].
    - exists b. eexists. left. rewrite Z2Nat.id by lia. reflexivity.
    - destruct (IH (ch + 1) c) as (b' & d & I); [lia|lia|]. exists b', d. right.
      replace (S (Z.to_nat ch)) with (Z.to_nat (ch + 1)) by lia. exact I. }
  destruct (K (somes (map alloc (seq 0 (Z.to_nat (r_nch r))))) 0 c) as (b & d & I); [lia|lia|].
  exists b, d. apply in_or_app. now left.
Qed.

(* ---- C34 ---- *)

Lemma read_len : forall fuel r n l r', 0 <= n -> r_read fuel r n = Ok (l, r') -> Z.of_nat (length l) <= n.
Proof.
  intros fuel r n l r' N H. unfold r_read in H. destruct (negb _); [inversion H; cbn; lia|].
  destruct (_ <? 0); [discriminate|]. apply read_loop_len in H. lia.
Qed.

Lemma block_length : forall frames ch, Z.of_nat (length frames) <= ABS -> length (block_data frames ch) = 128%nat.
Proof.
  intros frames ch L. unfold block_data, ABS in *. rewrite app_length, map_length, repeat_length. lia.
Qed.

Lemma nth_repeat0 : forall n k, nth k (repeat 0 n) 0 = 0.
Proof. induction n as [|n IH]; intros [|k]; cbn; auto. Qed.

Lemma block_nth : forall frames ch k, nth k (block_data frames ch) 0 = nth ch (nth k frames []) 0.
Proof.
  intros frames ch k. unfold block_data. destruct (Nat.lt_ge_cases k (length frames)) as [L|L].
  - rewrite app_nth1 by (now rewrite map_length).
    transitivity (nth k (map (fun f : list Z => nth ch f 0) frames) (nth ch [] 0)); [f_equal; now destruct ch|].
    exact (map_nth (fun f : list Z => nth ch f 0) frames [] k).
  - rewrite app_nth2 by (now rewrite map_length). rewrite nth_repeat0.
    rewrite (nth_overflow frames) by exact L. now destruct ch.
Qed.

Lemma sent_from_spec : forall bs frames ch,
  map snd (sent_from bs frames ch) = map Z.of_nat (seq ch (length bs)) /\
  (forall b d c, In (b, d, c) (sent_from bs frames ch) -> d = block_data frames (Z.to_nat c)).
Proof.
  induction bs as [|b bs IH]; intros frames ch; cbn [sent_from map seq length]; [split; [reflexivity|intros ? ? ? []]|].
  destruct (IH frames (S ch)) as [I1 I2]. split; [cbn [snd]; now rewrite I1|].
  intros b' d c [E|I]; [inversion E; subst; now rewrite Nat2Z.id|eauto].
Qed.

(* When all allocations succeed: the frames read, padded with zeros, to the outputs *)
Theorem update_sends : forall fuel alloc r acts ev r', p_update fuel alloc r = Ok (acts, ev, r') -> sent acts <> [] ->
  exists frames, r_read fuel r 128 = Ok (frames, r') /\
    map snd (sent acts) = (if r_nch r =? 1 then [0; 1] else map Z.of_nat (seq 0 (Z.to_nat (r_nch r)))) /\
    (forall b d c, In (b, d, c) (sent acts) -> length d = 128%nat /\
       forall k, nth k d 0 = nth (if r_nch r =? 1 then 0%nat else Z.to_nat c) (nth k frames []) 0) /\
    ev = Some (if Z.of_nat (length frames) =? 128 then evReload else evClose).
Proof.
  intros fuel alloc r acts ev r' H S. apply update_cases in H. cbv zeta in H.
  destruct H as [(_ & -> & _)|(P & N & A & R & H)]; [now elim S|].
  destruct H as [(_ & S0 & _)|(_ & frames & E & S1 & L & EV)]; [contradiction|].
  exists frames. split; [exact E|]. pose proof (read_len _ _ ABS _ _ ltac:(unfold ABS; lia) E) as RL.
  set (bs := somes _) in *. clearbody bs. destruct (sent_from_spec bs frames 0) as [F1 F2].
  split; [|split; [|exact EV]].
  - rewrite S1, map_app. rewrite F1. destruct (Z.eqb_spec (r_nch r) 1) as [N1|N1].
    + rewrite N1 in L. destruct bs as [|b [|b2 bs]]; try discriminate. reflexivity.
    + rewrite L. cbn [map]. now rewrite app_nil_r.
  - intros b d c I. rewrite S1 in I. apply in_app_or in I. destruct I as [I|I].
    + pose proof I as I2. apply F2 in I. subst d. split; [now apply block_length|]. intro k. rewrite block_nth.
      destruct (Z.eqb_spec (r_nch r) 1) as [N1|N1]; [|reflexivity].
      rewrite N1 in L. destruct bs as [|b0 [|b2 bs]]; try discriminate. cbn in I2. destruct I2 as [I2|[]].
      inversion I2; subst. reflexivity.
    + destruct (r_nch r =? 1); [|now destruct I]. apply in_map_iff in I. destruct I as (b0 & I & _). inversion I; subst.
      split; [now apply block_length|]. intro k. apply block_nth.
Qed.

(* ---- C35, one update ---- *)

Lemma exhausted_read : forall fuel r n, exhausted r -> 0 < n -> (0 < fuel)%nat ->
  r_read fuel r n = Ok ([], r <| r_cfst := 0 |>).
Proof.
  intros fuel r n (P & A & L & D & N) Hn F. unfold r_read. rewrite P. cbn [negb].
  destruct (Z.ltb_spec (r_nch r) 0); [lia|]. destruct fuel as [|fuel]; [lia|]. cbn [read_loop].
  destruct (Z.leb_spec n 0); [lia|]. unfold read_frame. rewrite D. cbn [bind].
  destruct (Z.to_nat (r_nch r)) as [|k] eqn:K; [lia|]. cbn [read_channels read_one].
  unfold readNextValue. rewrite A. cbn [bind]. unfold on_end. cbn. rewrite L. reflexivity.
Qed.

Lemma exhausted_cfst : forall r, exhausted r -> exhausted (r <| r_cfst := 0 |>).
Proof. intros r H. exact H. Qed.

Lemma read_loop_short : forall ifuel fuel r n l r', read_loop ifuel fuel r n = Ok (l, r') ->
  Z.of_nat (length l) < n -> at_end r' = true /\ r_loop r' = LNone /\ r_dual r' = false /\ 0 < r_nch r'.
Proof.
  intros ifuel. induction fuel as [|fuel IH]; intros r n l r' H S; cbn [read_loop] in H.
  - destruct (Z.leb_spec n 0); [|discriminate]. lia.
  - destruct (Z.leb_spec n 0); [lia|]. apply bind_ok in H. destruct H as ([o r1] & E & H).
    destruct o as [vs|].
    + destruct (r_nch r =? 0); [eauto|]. apply bind_ok in H. destruct H as ([l2 r2] & E2 & H). inversion H; subst.
      cbn [length] in S. eapply IH; [exact E2|lia].
    + inversion H; subst. apply read_frame_none in E. destruct E as (A & B & _ & D & N & P).
      repeat split; auto. rewrite <- N. lia.
Qed.

Lemma read_short : forall fuel r n l r', r_playing r = true -> r_read fuel r n = Ok (l, r') ->
  Z.of_nat (length l) < n -> exhausted r'.
Proof.
  intros fuel r n l r' P H S. pose proof (statics_playing _ _ (r_read_statics _ _ _ _ _ H)) as SP.
  unfold r_read in H. rewrite P in H. cbn [negb] in H. destruct (_ <? 0); [discriminate|].
  destruct (read_loop_short _ _ _ _ _ _ H S) as (A & B & C & D). repeat split; auto. congruence.
Qed.

(* An update that requests a close leaves the source exhausted *)
Theorem close_exhausted : forall fuel alloc r acts r', p_update fuel alloc r = Ok (acts, Some evClose, r') -> exhausted r'.
Proof.
  intros fuel alloc r acts r' H. apply update_cases in H. cbv zeta in H.
  destruct H as [(_ & _ & E & _)|(P & N & A & R & H)]; [discriminate|].
  destruct H as [(_ & _ & E & _)|(_ & frames & E & _ & _ & EV)]; [discriminate|].
  destruct (Z.eqb_spec (Z.of_nat (length frames)) ABS) as [EQ|NE]; [discriminate|].
  eapply read_short; [exact P|exact E|]. pose proof (read_len _ _ ABS _ _ ltac:(unfold ABS; lia) E). lia.
Qed.

(* Conversely every later update requests a close, and sends silence *)
Theorem exhausted_close : forall fuel alloc r, exhausted r -> (0 < fuel)%nat ->
  exists acts ev r', p_update fuel alloc r = Ok (acts, ev, r') /\ exhausted r' /\
    (forall b d c, In (b, d, c) (sent acts) -> d = repeat 0 128) /\
    ((forall c, 0 <= c < r_nch r -> alloc (Z.to_nat c) <> None) -> ev = Some evClose) /\
    (ev = None \/ ev = Some evClose).
Proof.
  intros fuel alloc r X F. pose proof X as (P & A & L & D & N).
  assert (E : exists acts ev r', p_update fuel alloc r = Ok (acts, ev, r')).
  { unfold p_update. destruct (Z.eqb_spec (r_nch r) (-1)); [lia|]. destruct (Z.ltb_spec (r_nch r) 0); [lia|].
    rewrite P. cbn [negb]. cbv zeta. destruct (forallb got _); [|eauto].
    rewrite (exhausted_read fuel r ABS X ltac:(unfold ABS; lia) F). cbn [bind]. eauto. }
  destruct E as (acts & ev & r' & E). exists acts, ev, r'. split; [exact E|].
  apply update_cases in E. cbv zeta in E. destruct E as [(C & _)|(_ & _ & _ & _ & [(NA & S & EV & ->)|(AL & frames & E & S & _ & EV)])].
  - destruct C as [C|C]; [congruence|lia].
  - split; [exact X|]. split; [rewrite S; intros ? ? ? []|]. split; [|now left].
    intro AL. destruct NA as (c & C & C2). now elim (AL c C).
  - rewrite (exhausted_read fuel r ABS X ltac:(unfold ABS; lia) F) in E. inversion E; subst.
    split; [now apply exhausted_cfst|]. split; [|auto].
    intros b d c I. rewrite S in I. apply in_app_or in I. destruct I as [I|I].
    + apply sent_from_spec in I. exact I.
    + destruct (r_nch r =? 1); [|destruct I]. apply in_map_iff in I. destruct I as (b0 & I & _). inversion I; subst. reflexivity.
Qed.
