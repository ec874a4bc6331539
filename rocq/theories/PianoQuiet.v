(* Voices of the piano whose envelopes are silent are stopped, whatever the score (C121). *)

From Coq Require Import ZArith Lia List Bool.
From RecordUpdate Require Import RecordUpdate.
From Verif Require Import Machine Floats WavModel WavSpec CacheModel CacheFacts ReaderModel ResponderModel PlayerModel LifeSpec LifeProofs WorldProofs SketchModel PianoModel.
Import ListNotations.
Local Open Scope Z_scope.

Local Notation sd := (fun _ : nat => KSd).
(* No start of player i, no array *)
Definition calm (i : nat) (o : wop) : Prop :=
  match o with WPlayFile j _ _ _ _ _ => j <> i | WPlayRaw _ _ _ _ _ | WPlayWavLen _ _ _ _ | WPlayWav _ _ => False | _ => True end.
Lemma calm_out : forall fuel i o w x w', calm i o -> wop_run fuel o w = Ok (x, w') -> not_started i x.
Proof.
  intros fuel i o w x w' C E. destruct o; cbn [calm] in C; try contradiction; cbn [wop_run] in E.
  1: { apply bind_ok in E. destruct E as ([b w1] & _ & E). apply Ok_inj, pair_equal_spec in E. destruct E as [<- _]. destruct b; [exact C|exact I]. }
  6: { apply Ok_inj, pair_equal_spec in E. destruct E as [<- _]. exact I. }
  1,3,5: apply bind_ok in E; destruct E as ([? ?] & _ & E); apply Ok_inj, pair_equal_spec in E; destruct E as [<- _]; exact I.
  1,2: apply bind_ok in E; destruct E as (? & _ & E); apply Ok_inj, pair_equal_spec in E; destruct E as [<- _]; exact I.
Qed.

Definition reach flags (w : world) : Prop := wreach sd flags w.
Definition arrayless (o : wop) : Prop := wop_ok sd o.
Lemma ops_reach : forall flags fuel l w xs w', reach flags w -> Forall arrayless l -> wops fuel l w = Ok (xs, w') -> reach flags w'.
Proof.
  intros flags fuel. induction l as [|o l IH]; intros w xs w' R A E; cbn [wops] in E.
  - apply Ok_inj, pair_equal_spec in E. destruct E as [_ <-]. exact R.
  - inversion A as [|? ? A1 A2]; subst. apply bind_ok in E. destruct E as ([x w1] & E1 & E). apply bind_ok in E. destruct E as ([ys w2] & E2 & E).
    apply Ok_inj, pair_equal_spec in E. destruct E as [_ <-]. refine (IH _ _ _ _ A2 E2). exact (wr_op _ _ _ _ _ _ _ R A1 E1).
Qed.
Lemma ops_calm : forall fuel i l w xs w', Forall (calm i) l -> wops fuel l w = Ok (xs, w') -> Forall (not_started i) xs.
Proof.
  intros fuel i. induction l as [|o l IH]; intros w xs w' C E; cbn [wops] in E.
  - apply Ok_inj, pair_equal_spec in E. destruct E as [<- _]. constructor.
  - inversion C as [|? ? C1 C2]; subst. apply bind_ok in E. destruct E as ([x w1] & E1 & E). apply bind_ok in E. destruct E as ([ys w2] & E2 & E).
    apply Ok_inj, pair_equal_spec in E. destruct E as [<- _]. constructor; [exact (calm_out _ _ _ _ _ _ C1 E1)|exact (IH _ _ _ C2 E2)].
Qed.
Lemma calm_arrayless : forall i l, Forall (calm i) l -> Forall arrayless l.
Proof. intros i l. apply Forall_impl. intros o C. destruct o; try exact I; contradiction. Qed.
Lemma bg_calm : forall i l, Forall (calm i) (bg_ops l).
Proof. intros i. induction l as [|[[j g]|] l IH]; constructor; try exact I; exact IH. Qed.
Lemma ops_stopped : forall flags fuel i l w xs w', reach flags w -> Forall (calm i) l -> r_playing (w_rd w i) = false -> wops fuel l w = Ok (xs, w') ->
  r_playing (w_rd w' i) = false.
Proof.
  intros flags fuel i l w xs w' R C P E. exact (proj1 (stays_stopped _ _ _ _ _ _ _ _ R (calm_arrayless _ _ C) P E (ops_calm _ _ _ _ _ _ C E))).
Qed.

Definition ruled (flags : Z) (s : piano) : Prop := reach flags (pn_world s) /\ forall i, pn_active s i = false -> r_playing (w_rd (pn_world s) i) = false.

Lemma ruled_ops : forall flags fuel l s xs w, ruled flags s -> (forall i, Forall (calm i) l) -> wops fuel l (pn_world s) = Ok (xs, w) -> ruled flags (s <| pn_world := w |>).
Proof.
  intros flags fuel l s xs w [R A] C E. split; [exact (ops_reach _ _ _ _ _ _ R (calm_arrayless O _ (C O)) E)|].
  intros i H. exact (ops_stopped _ _ i _ _ _ _ R (C i) (A i H) E).
Qed.

Local Opaque wops.
Section Any.
Variables (pow : b64 -> b64 -> b64) (card : Z -> option file) (score : mem) (flags : Z).

Lemma ruled_note : forall fuel t v note vel s a s', ruled flags s -> noteOn pow card fuel t v note vel s = Ok (a, s') -> ruled flags s'.
Proof.
  intros fuel t v note vel s a s' [R A] E. unfold noteOn in E. cbv zeta in E. destruct (_ && _ && _).
  2:{ apply Ok_inj, pair_equal_spec in E. destruct E as [_ <-]. split; assumption. }
  apply bind_ok in E. destruct E as (? & _ & E). apply bind_ok in E. destruct E as ([xs w] & E1 & E). apply bind_ok in E. destruct E as (? & _ & E).
  apply Ok_inj, pair_equal_spec in E. destruct E as [_ <-].
  match type of E1 with wops _ ?l _ = _ => assert (C : forall i, i <> v -> Forall (calm i) l) end.
  { intros i N. constructor; [cbn [calm]; congruence|]. apply Forall_app. split; [apply bg_calm|constructor; [exact I|constructor]]. }
  split.
  - refine (ops_reach _ _ _ _ _ _ R _ E1). apply (calm_arrayless (S v)). apply C. lia.
  - intros i H. cbn [pn_active pn_world set] in H |- *. destruct (Nat.eqb_spec i v) as [Q|N]; [discriminate|].
    exact (ops_stopped _ _ i _ _ _ _ R (C i N) (A i H) E1).
Qed.
Lemma ruled_next : forall s b s', ruled flags s -> next_byte score s = Ok (b, s') -> ruled flags s'.
Proof. intros s b s' H E. unfold next_byte in E. apply bind_ok in E. destruct E as (? & _ & E). apply Ok_inj, pair_equal_spec in E. destruct E as [_ <-]. exact H. Qed.
Lemma ruled_player : forall fuel t s a s', ruled flags s -> updatePlayer pow card score fuel t s = Ok (a, s') -> ruled flags s'.
Proof.
  intros fuel t s a s' H E. unfold updatePlayer in E. destruct (_ <=? _); [|apply Ok_inj, pair_equal_spec in E; destruct E as [_ <-]; exact H].
  apply bind_ok in E. destruct E as ([cmd s1] & N1 & E). pose proof (ruled_next _ _ _ H N1) as H1. cbv zeta in E.
  destruct (_ =? 240); [apply Ok_inj, pair_equal_spec in E; destruct E as [_ <-]; exact H1|].
  destruct (_ =? 144).
  - apply bind_ok in E. destruct E as ([n s2] & N2 & E). pose proof (ruled_next _ _ _ H1 N2) as H2.
    apply bind_ok in E. destruct E as ([vl s3] & N3 & E). pose proof (ruled_next _ _ _ H2 N3) as H3.
    apply bind_ok in E. destruct E as (v & _ & E). apply bind_ok in E. destruct E as ([a1 s4] & N4 & E).
    apply Ok_inj, pair_equal_spec in E. destruct E as [_ <-]. exact (ruled_note _ _ _ _ _ _ _ _ H3 N4).
  - destruct (_ =? 128).
    + apply bind_ok in E. destruct E as (v & _ & E). apply Ok_inj, pair_equal_spec in E. destruct E as [_ <-]. exact H1.
    + apply bind_ok in E. destruct E as ([n s2] & N2 & E). pose proof (ruled_next _ _ _ H1 N2) as H2. apply Ok_inj, pair_equal_spec in E. destruct E as [_ <-]. exact H2.
Qed.

Lemma ruled_polls : forall fuel t n i s s', ruled flags s -> poll_voices fuel t n i s = Ok s' ->
  ruled flags s' /\ (forall j, pn_active s j = false -> pn_active s' j = false) /\ (forall j, (i <= j < i + n)%nat -> pp_env t j = false -> pn_active s' j = false).
Proof.
  intros fuel t. induction n as [|n IH]; intros i s s' H E; cbn [poll_voices] in E.
  - apply Ok_inj in E. subst s'. split; [exact H|]. split; [auto|intros; lia].
  - apply bind_ok in E. destruct E as ([xs w] & E1 & E). pose proof (ruled_ops _ _ _ _ _ _ H (fun i => bg_calm i _) E1) as H1.
    destruct (pn_active s i && negb (pp_env t i)) eqn:B.
    + apply bind_ok in E. destruct E as ([ys w2] & E2 & E).
      pose proof (ruled_ops _ _ _ _ _ _ H1 (fun i => Forall_cons _ (I : calm i (WStop _ _)) (Forall_nil _)) E2) as H2.
      assert (ST : r_playing (w_rd w2 i) = false).
      { Local Transparent wops. cbn [wops] in E2. Local Opaque wops. apply bind_ok in E2. destruct E2 as ([x w3] & E2 & E3). apply Ok_inj, pair_equal_spec in E3. destruct E3 as [_ <-].
        cbn [wop_run] in E2. apply bind_ok in E2. destruct E2 as ([? ?] & E2 & E3). apply Ok_inj, pair_equal_spec in E3. destruct E3 as [_ <-]. exact (stop_stops _ _ _ _ _ _ E2). }
      apply IH in E.
      * destruct E as (R & M & D). cbn [pn_active set] in M. split; [exact R|]. split.
        -- intros j F. apply M. destruct (Nat.eqb j i); [reflexivity|exact F].
        -- intros j J F. destruct (Nat.eq_dec j i) as [->|N]; [apply M; rewrite Nat.eqb_refl; reflexivity|apply D; [lia|exact F]].
      * split; [exact (proj1 H2)|]. cbn [pn_active pn_world set]. intros j F. destruct (Nat.eqb_spec j i) as [Q|N]; [subst j; exact ST|exact (proj2 H2 j F)].
    + apply IH in E; [|exact H1]. destruct E as (R & M & D). cbn [pn_active set] in M. split; [exact R|]. split; [exact M|].
      intros j J F. destruct (Nat.eq_dec j i) as [->|N]; [|apply D; [lia|exact F]]. apply M. rewrite F in B. now rewrite andb_true_r in B.
Qed.

Lemma ruled_pass : forall fuel t s a s', ruled flags s -> piano_pass pow card score fuel t s = Ok (a, s') ->
  ruled flags s' /\ forall i, (i < voices_count)%nat -> pp_env t i = false -> r_playing (w_rd (pn_world s') i) = false.
Proof.
  intros fuel t s a s' H E. unfold piano_pass in E. apply bind_ok in E. destruct E as ([x0 w0] & E0 & E). pose proof (ruled_ops _ _ _ _ _ _ H (fun i => bg_calm i _) E0) as H0.
  apply bind_ok in E. destruct E as ([b s1] & E1 & E). pose proof (ruled_player _ _ _ _ _ H0 E1) as H1.
  apply bind_ok in E. destruct E as (s2 & E2 & E). destruct (ruled_polls _ _ _ _ _ _ H1 E2) as (H2 & _ & D).
  apply bind_ok in E. destruct E as ([x3 w3] & E3 & E). apply Ok_inj, pair_equal_spec in E. destruct E as [_ <-].
  assert (C : forall i, Forall (calm i) (bg_ops (pp_gap t 10) ++ [WYield])) by (intros i; apply Forall_app; split; [apply bg_calm|constructor; [exact I|constructor]]).
  pose proof (ruled_ops _ _ _ _ _ _ H2 C E3) as H3. split; [exact H3|]. intros i L F. apply (proj2 H3 i). cbn [pn_active set]. apply D; [lia|exact F].
Qed.

Lemma ruled_run : forall fuel l s a s', ruled flags s -> piano_run pow card score fuel l s = Ok (a, s') -> ruled flags s' /\
  forall l0 t, l = l0 ++ [t] -> forall i, (i < voices_count)%nat -> pp_env t i = false -> r_playing (w_rd (pn_world s') i) = false.
Proof.
  intros fuel. induction l as [|u l IH]; intros s a s' H E; cbn [piano_run] in E.
  - apply Ok_inj, pair_equal_spec in E. destruct E as [_ <-]. split; [exact H|]. intros [|? ?] t Q; discriminate.
  - apply bind_ok in E. destruct E as ([a1 s1] & E1 & E). apply bind_ok in E. destruct E as ([a2 s2] & E2 & E). apply Ok_inj, pair_equal_spec in E. destruct E as [_ <-].
    destruct (ruled_pass _ _ _ _ _ H E1) as [H1 D1]. destruct (IH _ _ _ H1 E2) as [H2 D2]. split; [exact H2|].
    intros l0 t Q. destruct l0 as [|u0 l0]; cbn [app] in Q; injection Q as -> ->.
    + cbn [piano_run] in E2. apply Ok_inj, pair_equal_spec in E2. destruct E2 as [_ <-]. exact D1.
    + exact (D2 l0 t eq_refl).
Qed.

Theorem silent_voices : forall fuel l t a s, play_piano pow card score fuel flags (l ++ [t]) = Ok (a, s) ->
  forall i, (i < 8)%nat -> pp_env t i = false -> r_playing (w_rd (pn_world s) i) = false.
Proof.
  intros fuel l t a s E. assert (H : ruled flags (piano0 flags)) by (split; [constructor|reflexivity]).
  exact (proj2 (ruled_run _ _ _ _ _ H E) l t eq_refl).
Qed.
End Any.
