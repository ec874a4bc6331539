(* Structural facts about the reader model: which fields a read can change,
   monotonicity in the fuel, splitting of reads. *)

From Coq Require Import ZArith Lia List Bool.
From RecordUpdate Require Import RecordUpdate.
From Flocq Require Import IEEE754.BinarySingleNaN.
From Verif Require Import Machine Floats WavModel InterpModel CacheModel ReaderModel.
Import ListNotations.
Local Open Scope Z_scope.

(* ------------------------------------------------------------------ *)
(* Tactics                                                             *)

(* Destruct every bind in hypothesis H : ... = Ok _ *)
Ltac mon H :=
  repeat match type of H with
  | bind _ _ = Ok _ =>
      let a := fresh "a" in let E := fresh "E" in
      apply bind_ok in H; destruct H as (a & E & H);
      try (destruct a as [? ?]; cbv beta iota in H)
  end.

(* ------------------------------------------------------------------ *)
(* Fetching a sample changes only the source's bookkeeping.            *)

(* Everything but the source and the interpolation points *)
Definition erase (r : reader) : reader :=
  r <| r_src := SNull |> <| r_npts := fun _ => 0 |> <| r_pts := fun _ => mkQuad 0 0 0 0 |>.

(* A sequence of sample fetches on an IndexableFile *)
Inductive gets : ifile -> ifile -> Prop :=
| gets_refl : forall f, gets f f
| gets_step : forall f i g, gets (snd (if_get f i)) g -> gets f g.

Lemma gets_trans : forall f g h, gets f g -> gets g h -> gets f h.
Proof. induction 1; intros; auto. econstructor; eauto. Qed.

Lemma gets_one : forall f i, gets f (snd (if_get f i)).
Proof. intros. econstructor. constructor. Qed.

Inductive src_gets : source -> source -> Prop :=
| sg_null : src_gets SNull SNull
| sg_arr : forall m o, src_gets (SArr m o) (SArr m o)
| sg_file : forall f g, gets f g -> src_gets (SFile f) (SFile g).

Lemma src_gets_refl : forall s, src_gets s s.
Proof. intros [|m o|f]; constructor. constructor. Qed.

Lemma src_gets_trans : forall a b c, src_gets a b -> src_gets b c -> src_gets a c.
Proof.
  intros a b c H. inversion H; subst; intros H2; inversion H2; subst; constructor.
  eapply gets_trans; eauto.
Qed.

(* r' differs from r only by fetches and interpolation points *)
Definition quiet (r r' : reader) : Prop :=
  erase r = erase r' /\ src_gets (r_src r) (r_src r').

Lemma quiet_refl : forall r, quiet r r.
Proof. intros. split; auto. apply src_gets_refl. Qed.

Lemma quiet_trans : forall a b c, quiet a b -> quiet b c -> quiet a c.
Proof.
  intros a b c [H1 H2] [H3 H4]. split; [congruence|eapply src_gets_trans; eauto].
Qed.

Lemma getSourceBufferValue_quiet : forall r i v r',
  getSourceBufferValue r i = Ok (v, r') ->
  quiet r r' /\ r_pts r' = r_pts r /\ r_npts r' = r_npts r.
Proof.
  intros r i v r' H. unfold getSourceBufferValue in H.
  destruct (r_src r) as [|m o|f] eqn:S.
  - destruct (r_kind r); inversion H; subst; repeat split; auto using src_gets_refl.
  - destruct (_ && _); inversion H; subst. repeat split; auto using src_gets_refl.
  - pose proof (gets_one f i) as G.
    destruct (if_get f i) as [w f'] eqn:E. inversion H; subst.
    repeat split; auto. cbn. rewrite S. constructor. exact G.
Qed.

Lemma getAt_quiet : forall r p o ch v r',
  getAt r p o ch = Ok (v, r') -> quiet r r' /\ r_pts r' = r_pts r /\ r_npts r' = r_npts r.
Proof.
  intros r p o ch v r' H. unfold getAt in H. mon H.
  eapply getSourceBufferValue_quiet; eauto.
Qed.

Lemma addPoint_quiet : forall r ch y r', addPoint r ch y = Ok r' -> quiet r r'.
Proof.
  intros r ch y r' H. unfold addPoint in H.
  destruct (r_interp r); mon H; inversion H; subst; split; auto using src_gets_refl.
Qed.

Lemma fetch_value_quiet : forall r ch v r',
  fetch_value r ch = Ok (v, r') -> quiet r r' /\ r_pts r' = r_pts r /\ r_npts r' = r_npts r.
Proof.
  intros r ch v r' H. unfold fetch_value in H.
  destruct (_ || _); [eapply getAt_quiet; eauto|].
  destruct (deq _ _); [eapply getAt_quiet; eauto|].
  mon H. inversion H; subst.
  apply getAt_quiet in E as (Q1 & P1 & N1). apply getAt_quiet in E0 as (Q2 & P2 & N2).
  split; [eapply quiet_trans; eauto|split; congruence].
Qed.

Lemma set_pts_quiet : forall r p, quiet r (r <| r_pts := p |>).
Proof. intros. split; auto using src_gets_refl. Qed.

Lemma linear_value_quiet : forall r ch v w r',
  linear_value r ch v = Ok (w, r') -> quiet r r'.
Proof.
  intros r ch v w r' H. unfold linear_value in H.
  destruct (dlt d0 (dabs (r_rem r))).
  - apply bind_ok in H. destruct H as (r1 & E & H).
    assert (Q : quiet r r1).
    { destruct (dlt d0 (r_rate r)).
      - destruct (dlt _ d0); [|inversion E; subst; apply quiet_refl].
        apply bind_ok in E. destruct E as (r2 & E2 & E).
        apply addPoint_quiet in E. eapply quiet_trans; [|exact E].
        destruct (r_dual r); [inversion E2; subst; apply quiet_refl|].
        apply bind_ok in E2. destruct E2 as (u & _ & E2).
        destruct (_ && _); [|inversion E2; subst; apply quiet_refl].
        apply bind_ok in E2. destruct E2 as (u1 & _ & E2).
        apply bind_ok in E2. destruct E2 as (u2 & _ & E2).
        destruct (_ <? _); [|inversion E2; subst; apply quiet_refl].
        apply bind_ok in E2. destruct E2 as ([x r3] & E3 & E2).
        apply getAt_quiet in E3. destruct E3 as (E3 & _). inversion E2; subst.
        eapply quiet_trans; [exact E3|apply set_pts_quiet].
      - destruct (dlt (r_rate r) d0); [|inversion E; subst; apply quiet_refl].
        destruct (dlt d0 _); [|inversion E; subst; apply quiet_refl].
        apply bind_ok in E. destruct E as (r2 & E2 & E).
        apply addPoint_quiet in E. eapply quiet_trans; [|exact E].
        destruct (r_dual r); [inversion E2; subst; apply quiet_refl|].
        apply bind_ok in E2. destruct E2 as (u & _ & E2).
        destruct (_ && _); [|inversion E2; subst; apply quiet_refl].
        apply bind_ok in E2. destruct E2 as ([x r3] & E3 & E2).
        apply getAt_quiet in E3. destruct E3 as (E3 & _). inversion E2; subst.
        eapply quiet_trans; [exact E3|apply set_pts_quiet]. }
    apply bind_ok in H. destruct H as (u & _ & H).
    destruct (1 <? _); [|inversion H; subst; exact Q].
    apply bind_ok in H. destruct H as (x & _ & H). inversion H; subst; exact Q.
  - apply bind_ok in H. destruct H as (r1 & E & H).
    inversion H; subst. eapply addPoint_quiet; eauto.
Qed.

Lemma push_points_quiet : forall i fwd r ch r',
  push_points i fwd r ch = Ok r' -> quiet r r'.
Proof.
  induction i as [|i IH]; intros fwd r ch r' H.
  - inversion H; subst. apply quiet_refl.
  - cbn [push_points] in H.
    apply bind_ok in H. destruct H as ([v r1] & E1 & H).
    apply getAt_quiet in E1. destruct E1 as (Q1 & _).
    apply bind_ok in H. destruct H as ([y r2] & E2 & H).
    assert (Q2 : quiet r1 r2).
    { destruct (_ && _); [|inversion E2; subst; apply quiet_refl].
      apply bind_ok in E2. destruct E2 as ([w r3] & E3 & E2).
      apply getAt_quiet in E3. destruct E3 as (Q3 & _).
      apply bind_ok in E2. destruct E2 as (z & _ & E2). inversion E2; subst. exact Q3. }
    apply bind_ok in H. destruct H as (r3 & E3 & H).
    apply addPoint_quiet in E3. apply IH in H.
    eauto using quiet_trans.
Qed.

Lemma quadratic_value_quiet : forall r ch v w r',
  quadratic_value r ch v = Ok (w, r') -> quiet r r'.
Proof.
  intros r ch v w r' H. unfold quadratic_value in H.
  apply bind_ok in H. destruct H as (r1 & E & H).
  assert (Q : quiet r r1).
  { destruct (dlt d0 (r_rate r)).
    - destruct (dlt _ d0); [|inversion E; subst; apply quiet_refl].
      apply bind_ok in E. destruct E as (n & _ & E). eapply push_points_quiet; eauto.
    - destruct (dlt (r_rate r) d0); [|inversion E; subst; apply quiet_refl].
      destruct (dlt d0 _); [|inversion E; subst; apply quiet_refl].
      apply bind_ok in E. destruct E as (n & _ & E). eapply push_points_quiet; eauto. }
  apply bind_ok in H. destruct H as (u & _ & H).
  destruct (4 <=? _); [|inversion H; subst; exact Q].
  apply bind_ok in H. destruct H as (x & _ & H). inversion H; subst; exact Q.
Qed.

Lemma readNextValue_some : forall r ch v r',
  readNextValue r ch = Ok (Some v, r') -> at_end r = false /\ quiet r r'.
Proof.
  intros r ch v r' H. unfold readNextValue in H.
  destruct (at_end r); [inversion H|]. split; auto.
  apply bind_ok in H. destruct H as ([x r1] & E1 & H).
  apply fetch_value_quiet in E1. destruct E1 as (Q1 & _).
  apply bind_ok in H. destruct H as ([w r2] & E2 & H). inversion H; subst.
  eapply quiet_trans; [exact Q1|].
  destruct (r_interp r).
  - inversion E2; subst. apply quiet_refl.
  - eapply linear_value_quiet; eauto.
  - eapply quadratic_value_quiet; eauto.
Qed.

Lemma readNextValue_none : forall r ch r',
  readNextValue r ch = Ok (None, r') -> at_end r = true /\ r' = r.
Proof.
  intros r ch r' H. unfold readNextValue in H.
  destruct (at_end r); [inversion H; auto|].
  apply bind_ok in H. destruct H as ([x r1] & E1 & H).
  apply bind_ok in H. destruct H as ([w r2] & E2 & H). inversion H.
Qed.

(* ------------------------------------------------------------------ *)
(* Settings a read never changes                                       *)

(* Erase all fields that playback may change *)
Definition statics (r : reader) : reader :=
  erase r <| r_pos1 := 0 |> <| r_pos2 := 0 |> <| r_rem := d0 |> <| r_rate := d0 |>
    <| r_cf := d0 |> <| r_cfst := 0 |>.

Definition same_statics (r r' : reader) : Prop :=
  statics r = statics r' /\ src_gets (r_src r) (r_src r').

Lemma same_statics_refl : forall r, same_statics r r.
Proof. intros; split; auto using src_gets_refl. Qed.

Lemma same_statics_trans : forall a b c, same_statics a b -> same_statics b c -> same_statics a c.
Proof.
  intros a b c [H1 H2] [H3 H4]. split; [congruence|eapply src_gets_trans; eauto].
Qed.

Lemma quiet_statics : forall r r', quiet r r' -> same_statics r r'.
Proof.
  intros r r' [H1 H2]. split; auto. unfold statics. now rewrite H1.
Qed.

Lemma on_end_statics : forall r r', on_end r = Ok (Some r') -> same_statics r r'.
Proof.
  intros r r' H. unfold on_end in H. cbn in H.
  destruct (r_loop r).
  - discriminate.
  - destruct (dle d0 (r_rate r)).
    + inversion H; subst. split; auto using src_gets_refl.
    + apply bind_ok in H. destruct H as (n & _ & H). inversion H; subst.
      split; auto using src_gets_refl.
  - destruct (dle d0 (r_rate r)).
    + apply bind_ok in H. destruct H as (n & _ & H). inversion H; subst.
      split; auto using src_gets_refl.
    + inversion H; subst. split; auto using src_gets_refl.
Qed.

Lemma on_end_none : forall r, on_end r = Ok None -> r_loop r = LNone.
Proof.
  intros r H. unfold on_end in H. cbn in H.
  destruct (r_loop r); auto.
  - destruct (dle d0 (r_rate r)); [discriminate|].
    apply bind_ok in H. destruct H as (n & _ & H). discriminate.
  - destruct (dle d0 (r_rate r)); [|discriminate].
    apply bind_ok in H. destruct H as (n & _ & H). discriminate.
Qed.

Lemma read_one_statics : forall fuel ch r o r',
  read_one fuel ch r = Ok (o, r') -> same_statics r r'.
Proof.
  induction fuel as [|fuel IH]; intros ch r o r' H; [discriminate|].
  cbn [read_one] in H.
  apply bind_ok in H. destruct H as ([o1 r1] & E & H).
  destruct o1.
  - inversion H; subst. apply readNextValue_some in E. apply quiet_statics. tauto.
  - apply readNextValue_none in E. destruct E as [_ ->].
    apply bind_ok in H. destruct H as (e & E2 & H).
    destruct e as [r2|].
    + apply on_end_statics in E2. apply IH in H. eapply same_statics_trans; eauto.
    + inversion H; subst. split; auto using src_gets_refl.
Qed.

(* When read_one reports the end, the reader is at the end, not looping *)
Lemma read_one_none : forall fuel ch r r',
  read_one fuel ch r = Ok (None, r') ->
  at_end r' = true /\ r_loop r' = LNone /\ r' <| r_cfst := 0 |> = r' /\ r_dual r' = false.
Proof.
  induction fuel as [|fuel IH]; intros ch r r' H; [discriminate|].
  cbn [read_one] in H.
  apply bind_ok in H. destruct H as ([o1 r1] & E & H).
  destruct o1; [discriminate|].
  apply readNextValue_none in E. destruct E as [E ->].
  apply bind_ok in H. destruct H as (e & E2 & H).
  destruct e as [r2|].
  - eapply IH; eauto.
  - apply on_end_none in E2. inversion H; subst. cbn.
    unfold at_end in *. cbn. destruct (r_dual r) eqn:D; [discriminate|].
    auto.
Qed.

Lemma read_channels_statics : forall fuel todo ch r o r',
  read_channels fuel todo ch r = Ok (o, r') -> same_statics r r'.
Proof.
  intros fuel. induction todo as [|todo IH]; intros ch r o r' H.
  - inversion H; subst. apply same_statics_refl.
  - cbn [read_channels] in H.
    apply bind_ok in H. destruct H as ([o1 r1] & E & H).
    apply read_one_statics in E.
    destruct o1.
    + apply bind_ok in H. destruct H as ([o2 r2] & E2 & H). inversion H; subst.
      apply IH in E2. eapply same_statics_trans; eauto.
    + inversion H; subst. auto.
Qed.

Lemma read_channels_none : forall fuel todo ch r r',
  read_channels fuel todo ch r = Ok (None, r') ->
  at_end r' = true /\ r_loop r' = LNone /\ r' <| r_cfst := 0 |> = r' /\ r_dual r' = false.
Proof.
  intros fuel. induction todo as [|todo IH]; intros ch r r' H; [discriminate|].
  cbn [read_channels] in H.
  apply bind_ok in H. destruct H as ([o1 r1] & E & H).
  destruct o1.
  - apply bind_ok in H. destruct H as ([o2 r2] & E2 & H).
    destruct o2; inversion H; subst. eapply IH; eauto.
  - inversion H; subst. eapply read_one_none; eauto.
Qed.

Lemma read_channels_length : forall fuel todo ch r l r',
  read_channels fuel todo ch r = Ok (Some l, r') -> length l = todo.
Proof.
  intros fuel. induction todo as [|todo IH]; intros ch r l r' H.
  - inversion H; subst. reflexivity.
  - cbn [read_channels] in H.
    apply bind_ok in H. destruct H as ([o1 r1] & E & H).
    destruct o1; [|discriminate].
    apply bind_ok in H. destruct H as ([o2 r2] & E2 & H).
    destruct o2; inversion H; subst. cbn. f_equal. eauto.
Qed.

Lemma updateCrossfade_statics : forall r r',
  updateCrossfade r = Ok r' -> same_statics r r'.
Proof.
  intros r r' H. unfold updateCrossfade in H. cbv zeta in H.
  repeat match type of H with
  | context [if ?b then _ else _] => destruct b
  end; try discriminate; inversion H; subst; split; auto using src_gets_refl.
Qed.

Lemma advance_statics : forall r r', advance r = Ok r' -> same_statics r r'.
Proof.
  intros r r' H. unfold advance in H.
  apply bind_ok in H. destruct H as (d & _ & H).
  apply bind_ok in H. destruct H as (s & _ & H).
  apply bind_ok in H. destruct H as (p & _ & H).
  destruct (_ =? _).
  - inversion H; subst. split; auto using src_gets_refl.
  - apply bind_ok in H. destruct H as (p2 & _ & H).
    inversion H; subst. split; auto using src_gets_refl.
Qed.

Lemma read_frame_statics : forall fuel r o r',
  read_frame fuel r = Ok (o, r') -> same_statics r r'.
Proof.
  intros fuel r o r' H. unfold read_frame in H.
  apply bind_ok in H. destruct H as (r1 & E1 & H).
  assert (S1 : same_statics r r1).
  { destruct (r_dual r); [eapply updateCrossfade_statics; eauto|].
    inversion E1; subst; apply same_statics_refl. }
  apply bind_ok in H. destruct H as ([o2 r2] & E2 & H).
  apply read_channels_statics in E2.
  destruct o2.
  - apply bind_ok in H. destruct H as (r3 & E3 & H). inversion H; subst.
    apply advance_statics in E3.
    eapply same_statics_trans; [eauto|]. eapply same_statics_trans; eauto.
  - inversion H; subst. eapply same_statics_trans; eauto.
Qed.

Lemma read_loop_statics : forall ifuel fuel r n l r',
  read_loop ifuel fuel r n = Ok (l, r') -> same_statics r r'.
Proof.
  intros ifuel. induction fuel as [|fuel IH]; intros r n l r' H; cbn [read_loop] in H.
  - destruct (n <=? 0); [|discriminate]. inversion H; subst. apply same_statics_refl.
  - destruct (n <=? 0); [inversion H; subst; apply same_statics_refl|].
    apply bind_ok in H. destruct H as ([o r1] & E & H).
    apply read_frame_statics in E.
    destruct o; [|inversion H; subst; auto].
    destruct (r_nch r =? 0).
    + apply IH in H. eapply same_statics_trans; eauto.
    + apply bind_ok in H. destruct H as ([l2 r2] & E2 & H). inversion H; subst.
      apply IH in E2. eapply same_statics_trans; eauto.
Qed.

Lemma r_read_statics : forall fuel r n l r',
  r_read fuel r n = Ok (l, r') -> same_statics r r'.
Proof.
  intros fuel r n l r' H. unfold r_read in H.
  destruct (negb _); [inversion H; subst; apply same_statics_refl|].
  destruct (_ <? 0); [discriminate|]. eapply read_loop_statics; eauto.
Qed.

Ltac statics_field H :=
  let E := fresh in destruct H as [E _];
  match goal with
  | |- ?f _ = ?f _ => apply (f_equal f) in E; exact E
  end.

Lemma statics_nch : forall r r', same_statics r r' -> r_nch r = r_nch r'.
Proof. intros r r' H. statics_field H. Qed.
Lemma statics_playing : forall r r', same_statics r r' -> r_playing r = r_playing r'.
Proof. intros r r' H. statics_field H. Qed.
Lemma statics_loop : forall r r', same_statics r r' -> r_loop r = r_loop r'.
Proof. intros r r' H. statics_field H. Qed.
Lemma statics_dual : forall r r', same_statics r r' -> r_dual r = r_dual r'.
Proof. intros r r' H. statics_field H. Qed.
Lemma statics_kind : forall r r', same_statics r r' -> r_kind r = r_kind r'.
Proof. intros r r' H. statics_field H. Qed.

(* ------------------------------------------------------------------ *)
(* Fuel                                                                *)

Lemma read_one_fuel : forall f1 f2 ch r x,
  (f1 <= f2)%nat -> read_one f1 ch r = Ok x -> read_one f2 ch r = Ok x.
Proof.
  induction f1 as [|f1 IH]; intros f2 ch r x L H; [discriminate|].
  destruct f2 as [|f2]; [lia|]. cbn [read_one] in *.
  destruct (readNextValue r ch) as [[o r1]| |]; cbn [bind] in *; try discriminate.
  destruct o; auto.
  destruct (on_end r1) as [e| |]; cbn [bind] in *; try discriminate.
  destruct e; auto. eapply IH; [|eauto]. lia.
Qed.

Lemma read_channels_fuel : forall f1 f2 todo ch r x,
  (f1 <= f2)%nat -> read_channels f1 todo ch r = Ok x -> read_channels f2 todo ch r = Ok x.
Proof.
  intros f1 f2. induction todo as [|todo IH]; intros ch r x L H; auto.
  cbn [read_channels] in *.
  apply bind_ok in H. destruct H as ([o1 r1] & E & H).
  rewrite (read_one_fuel _ _ _ _ _ L E). cbn [bind].
  destruct o1; auto.
  apply bind_ok in H. destruct H as ([o2 r2] & E2 & H).
  rewrite (IH _ _ _ L E2). auto.
Qed.

Lemma read_frame_fuel : forall f1 f2 r x,
  (f1 <= f2)%nat -> read_frame f1 r = Ok x -> read_frame f2 r = Ok x.
Proof.
  intros f1 f2 r x L H. unfold read_frame in *.
  destruct (if r_dual r then _ else _) as [r1| |]; cbn [bind] in *; try discriminate.
  apply bind_ok in H. destruct H as ([o1 r2] & E & H).
  rewrite (read_channels_fuel _ _ _ _ _ _ L E). auto.
Qed.

Lemma read_loop_fuel : forall i1 i2 f1 f2 r n x,
  (i1 <= i2)%nat -> (f1 <= f2)%nat ->
  read_loop i1 f1 r n = Ok x -> read_loop i2 f2 r n = Ok x.
Proof.
  intros i1 i2. induction f1 as [|f1 IH]; intros f2 r n x Li Lf H.
  - cbn [read_loop] in H. destruct f2; cbn [read_loop]; destruct (n <=? 0); auto; discriminate.
  - destruct f2 as [|f2]; [lia|]. cbn [read_loop] in *.
    destruct (n <=? 0); auto.
    apply bind_ok in H. destruct H as ([o r1] & E & H).
    rewrite (read_frame_fuel _ _ _ _ Li E). cbn [bind].
    destruct o; auto.
    destruct (r_nch r =? 0).
    + eapply IH; eauto. lia.
    + apply bind_ok in H. destruct H as ([l2 r2] & E2 & H).
      rewrite (IH f2 _ _ _ Li ltac:(lia) E2). auto.
Qed.

Lemma r_read_fuel : forall f1 f2 r n x,
  (f1 <= f2)%nat -> r_read f1 r n = Ok x -> r_read f2 r n = Ok x.
Proof.
  intros f1 f2 r n x L H. unfold r_read in *.
  destruct (negb _); auto. destruct (_ <? 0); auto.
  eapply read_loop_fuel; eauto.
Qed.

(* ------------------------------------------------------------------ *)
(* Splitting                                                           *)

(* After an early end a further read delivers nothing and changes nothing *)
Lemma read_frame_none : forall fuel r r',
  read_frame fuel r = Ok (None, r') ->
  at_end r' = true /\ r_loop r' = LNone /\ r' <| r_cfst := 0 |> = r' /\ r_dual r' = false
  /\ r_nch r = r_nch r' /\ (0 < Z.to_nat (r_nch r))%nat.
Proof.
  intros fuel r r' H. pose proof (read_frame_statics _ _ _ _ H) as S.
  unfold read_frame in H.
  apply bind_ok in H. destruct H as (r1 & E1 & H).
  assert (S1 : same_statics r r1).
  { destruct (r_dual r); [eapply updateCrossfade_statics; eauto|].
    inversion E1; subst; apply same_statics_refl. }
  apply bind_ok in H. destruct H as ([o2 r2] & E2 & H).
  destruct o2; [apply bind_ok in H; destruct H as (r3 & E3 & H); discriminate|].
  inversion H; subst.
  pose proof (read_channels_none _ _ _ _ _ E2) as (A & B & C & D).
  repeat split; auto.
  - now apply statics_nch.
  - rewrite (statics_nch _ _ S1). destruct (Z.to_nat (r_nch r1)); [discriminate|lia].
Qed.

Lemma read_loop_at_end : forall ifuel fuel r n,
  at_end r = true -> r_loop r = LNone -> r <| r_cfst := 0 |> = r -> r_dual r = false ->
  (0 < Z.to_nat (r_nch r))%nat -> (0 < ifuel)%nat -> (0 < fuel)%nat ->
  read_loop ifuel fuel r n = Ok ([], r).
Proof.
  intros ifuel fuel r n A L C D N I F.
  destruct fuel as [|fuel]; [lia|]. cbn [read_loop].
  destruct (n <=? 0); auto.
  unfold read_frame. rewrite D. cbn [bind].
  destruct (Z.to_nat (r_nch r)) as [|k]; [lia|]. cbn [read_channels].
  destruct ifuel as [|ifuel]; [lia|]. cbn [read_one].
  unfold readNextValue. rewrite A. cbn [bind].
  unfold on_end. cbn. rewrite L. cbn. now rewrite C.
Qed.

Lemma read_loop_len : forall ifuel fuel r n l r',
  read_loop ifuel fuel r n = Ok (l, r') -> Z.of_nat (length l) <= Z.max 0 n.
Proof.
  intros ifuel. induction fuel as [|fuel IH]; intros r n l r' H; cbn [read_loop] in H.
  - destruct (n <=? 0); [|discriminate]. inversion H; subst. cbn. lia.
  - destruct (Z.leb_spec n 0); [inversion H; subst; cbn; lia|].
    apply bind_ok in H. destruct H as ([o r1] & E & H).
    destruct o; [|inversion H; subst; cbn; lia].
    destruct (r_nch r =? 0); [eauto|].
    apply bind_ok in H. destruct H as ([l2 r2] & E2 & H). inversion H; subst.
    apply IH in E2. cbn [length]. lia.
Qed.

Lemma read_loop_split : forall ifuel f2 m l2 r2 fuel r n l1 r1,
  0 <= n -> 0 <= m -> (0 < ifuel)%nat ->
  read_loop ifuel fuel r n = Ok (l1, r1) ->
  read_loop ifuel f2 r1 m = Ok (l2, r2) ->
  read_loop ifuel (fuel + f2) r (n + m) = Ok (l1 ++ l2, r2).
Proof.
  intros ifuel f2 m l2 r2.
  induction fuel as [|fuel IH]; intros r n l1 r1 Hn Hm Hi H1 H2; cbn [read_loop] in H1.
  - destruct (Z.leb_spec n 0); [|discriminate]. inversion H1; subst.
    replace (n + m) with m by lia. exact H2.
  - destruct (Z.leb_spec n 0).
    + inversion H1; subst. replace (n + m) with m by lia.
      eapply read_loop_fuel; [| |exact H2]; lia.
    + cbn [Nat.add read_loop]. destruct (Z.leb_spec (n + m) 0); [lia|].
      apply bind_ok in H1. destruct H1 as ([o ra] & E & H1). rewrite E. cbn [bind].
      destruct o as [vs|].
      * destruct (r_nch r =? 0); [now apply IH with (r1 := r1)|].
        apply bind_ok in H1. destruct H1 as ([l3 r3] & E2 & H1). inversion H1; subst.
        replace (n + m - 1) with (n - 1 + m) by lia.
        rewrite (IH ra (n - 1) l3 r1 ltac:(lia) Hm Hi E2 H2). reflexivity.
      * inversion H1; subst.
        apply read_frame_none in E. destruct E as (A & B & C & D & N & P).
        destruct f2 as [|f2].
        -- cbn [read_loop] in H2. destruct (m <=? 0); inversion H2; subst; reflexivity.
        -- rewrite read_loop_at_end in H2; auto; lia.
Qed.

(* Conversely a long read factors through its first n frames *)
Lemma read_loop_unsplit : forall ifuel m l r2 fuel r n,
  0 <= n -> 0 <= m ->
  read_loop ifuel fuel r (n + m) = Ok (l, r2) ->
  exists l1 r1 l2, read_loop ifuel fuel r n = Ok (l1, r1) /\
    read_loop ifuel (S fuel) r1 m = Ok (l2, r2) /\ l = l1 ++ l2.
Proof.
  intros ifuel m l r2 fuel. revert l.
  induction fuel as [|fuel IH]; intros l r n Hn Hm H; pose proof H as H0; cbn [read_loop] in H.
  - destruct (Z.leb_spec (n + m) 0); [|discriminate]. inversion H; subst.
    exists [], r2, []. cbn [read_loop]. destruct (Z.leb_spec n 0); [|lia].
    destruct (Z.leb_spec m 0); [|lia]. auto.
  - destruct (Z.leb_spec (n + m) 0).
    + inversion H; subst. exists [], r2, []. cbn [read_loop].
      destruct (Z.leb_spec n 0); [|lia]. destruct (Z.leb_spec m 0); [|lia]. auto.
    + destruct (Z.leb_spec n 0).
      * exists [], r, l. replace (n + m) with m in H0 by lia.
        cbn [read_loop]. destruct (Z.leb_spec n 0); [|lia]. split; auto. split; auto.
        eapply (read_loop_fuel ifuel ifuel (S fuel) (S (S fuel))); eauto; lia.
      * apply bind_ok in H. destruct H as ([o ra] & E & H).
        destruct o as [vs|].
        -- destruct (r_nch r =? 0) eqn:Z0.
           ++ destruct (IH _ _ _ Hn Hm H) as (l1 & r1 & l2 & A & B & C).
              exists l1, r1, l2. repeat split; auto.
              ** cbn [read_loop]. destruct (Z.leb_spec n 0); [lia|]. rewrite E. cbn [bind].
                 rewrite Z0. exact A.
              ** eapply (read_loop_fuel ifuel ifuel (S fuel) (S (S fuel))); eauto; lia.
           ++ apply bind_ok in H. destruct H as ([l3 r3] & E2 & H). inversion H; subst.
              replace (n + m - 1) with (n - 1 + m) in E2 by lia.
              destruct (IH _ _ (n - 1) ltac:(lia) Hm E2) as (l1 & r1 & l2 & A & B & C).
              exists (vs :: l1), r1, l2. repeat split.
              ** cbn [read_loop]. destruct (Z.leb_spec n 0); [lia|]. rewrite E. cbn [bind].
                 rewrite Z0. rewrite A. reflexivity.
              ** eapply (read_loop_fuel ifuel ifuel (S fuel) (S (S fuel))); eauto; lia.
              ** subst. reflexivity.
        -- inversion H; subst.
           pose proof (read_frame_none _ _ _ E) as (A & B & C & D & N & P).
           assert (I : (0 < ifuel)%nat).
           { destruct ifuel; [|lia]. exfalso. clear - E P.
             unfold read_frame in E.
             apply bind_ok in E. destruct E as (rx & E1 & E).
             assert (NN : r_nch r = r_nch rx).
             { destruct (r_dual r); [apply updateCrossfade_statics in E1; now apply statics_nch|].
               inversion E1; reflexivity. }
             rewrite <- NN in E. destruct (Z.to_nat (r_nch r)); [lia|].
             cbn in E. discriminate. }
           exists [], r2, []. repeat split; auto.
           ++ cbn [read_loop]. destruct (Z.leb_spec n 0); [lia|]. rewrite E. reflexivity.
           ++ apply read_loop_at_end; auto; try lia.
Qed.

Lemma r_read_split : forall fuel r n m l1 r1 l2 r2,
  0 <= n -> 0 <= m ->
  r_read fuel r n = Ok (l1, r1) -> r_read fuel r1 m = Ok (l2, r2) ->
  exists fuel', r_read fuel' r (n + m) = Ok (l1 ++ l2, r2).
Proof.
  intros fuel r n m l1 r1 l2 r2 Hn Hm H1 H2.
  pose proof (r_read_statics _ _ _ _ _ H1) as SS.
  pose proof (statics_playing _ _ SS) as SP. pose proof (statics_nch _ _ SS) as SN.
  unfold r_read in *. rewrite <- SP, <- SN in H2.
  destruct (negb (r_playing r)) eqn:P.
  - inversion H1; inversion H2; subst. exists O. reflexivity.
  - destruct (r_nch r <? 0); [discriminate|].
    exists (S fuel + S fuel)%nat.
    eapply (read_loop_fuel (S fuel) _ (S fuel + fuel)); [| |eapply read_loop_split]; eauto; try lia.
    + eapply (read_loop_fuel fuel _ fuel); [| |exact H1]; lia.
    + eapply (read_loop_fuel fuel _ fuel); [| |exact H2]; lia.
Qed.

Lemma r_read_unsplit : forall fuel r n m l r2,
  0 <= n -> 0 <= m ->
  r_read fuel r (n + m) = Ok (l, r2) ->
  exists fuel' l1 r1 l2, r_read fuel' r n = Ok (l1, r1) /\ r_read fuel' r1 m = Ok (l2, r2) /\
    l = l1 ++ l2.
Proof.
  intros fuel r n m l r2 Hn Hm H. unfold r_read in H.
  destruct (negb (r_playing r)) eqn:P.
  - inversion H; subst. exists O, [], r2, []. unfold r_read. rewrite P. auto.
  - destruct (r_nch r <? 0) eqn:N; [discriminate|].
    destruct (read_loop_unsplit _ _ _ _ _ _ _ Hn Hm H) as (l1 & r1 & l2 & A & B & C).
    exists (S fuel), l1, r1, l2.
    pose proof (read_loop_statics _ _ _ _ _ _ A) as SS.
    pose proof (statics_playing _ _ SS) as SP. pose proof (statics_nch _ _ SS) as SN.
    unfold r_read. rewrite <- SP, <- SN, P, N. repeat split; auto.
    + eapply (read_loop_fuel fuel _ fuel); [| |exact A]; lia.
    + eapply (read_loop_fuel fuel _ (S fuel)); [| |exact B]; lia.
Qed.
