(* The play position does not depend on the samples, on misses, on reloads or on the
   interpolator (C81). *)

From Coq Require Import ZArith Lia List Bool.
From RecordUpdate Require Import RecordUpdate.
From Flocq Require Import IEEE754.BinarySingleNaN.
From Verif Require Import Machine Floats WavModel InterpModel CacheModel ReaderModel ReaderFacts CacheFacts CacheSpec FileSpec MirrorSpec.
Import ListNotations.
Local Open Scope Z_scope.

Lemma quiet_timeline : forall r s, quiet r s -> timeline s = timeline r.
Proof.
  intros r s [E _]. pose proof (f_equal (fun x => x <| r_kind := KArray |> <| r_interp := INone |>) E) as H. symmetry. exact H.
Qed.

(* A function of the timeline only *)
Lemma tl_eq : forall {A} (p : reader -> A), (forall r, p (timeline r) = p r) -> forall r s, timeline s = timeline r -> p s = p r.
Proof. intros A p P r s E. rewrite <- (P r), <- (P s). now rewrite E. Qed.
Lemma tl_set : forall (g : reader -> reader), (forall r, timeline (g r) = g (timeline r)) -> forall r s, timeline s = timeline r -> timeline (g s) = timeline (g r).
Proof. intros g G r s E. rewrite !G. now rewrite E. Qed.

Lemma on_end_tl : forall r, match on_end r with
  | Ok (Some r1) => on_end (timeline r) = Ok (Some (timeline r1))
  | Ok None => on_end (timeline r) = Ok None
  | UB u => on_end (timeline r) = UB u
  | NoFuel => on_end (timeline r) = NoFuel end.
Proof.
  intro r. unfold on_end. cbv zeta. change (timeline r <| r_cfst := 0 |>) with (timeline (r <| r_cfst := 0 |>)).
  set (r1 := r <| r_cfst := 0 |>). clearbody r1.
  change (r_loop (timeline r1)) with (r_loop r1). change (r_rate (timeline r1)) with (r_rate r1).
  change (r_lf (timeline r1)) with (r_lf r1). change (r_nch (timeline r1)) with (r_nch r1). change (r_ls (timeline r1)) with (r_ls r1).
  change (r_pstart (timeline r1)) with (r_pstart r1). change (r_hdr (timeline r1)) with (r_hdr r1).
  assert (P : forall n, spos (timeline r1) n = spos r1 n) by reflexivity. rewrite !P.
  destruct (r_loop r1); [reflexivity| |]; destruct (dle d0 (r_rate r1)); try reflexivity;
    match goal with |- context [bind ?x _] => destruct x as [n|u|]; cbn [bind]; rewrite ?P; reflexivity end.
Qed.
Lemma on_end_same : forall r s, timeline s = timeline r -> forall o p, on_end r = Ok o -> on_end s = Ok p ->
  match o, p with Some r1, Some s1 => timeline s1 = timeline r1 | None, None => True | _, _ => False end.
Proof.
  intros r s T o p Er Es. pose proof (on_end_tl r) as A. pose proof (on_end_tl s) as B. rewrite Er in A. rewrite Es in B. rewrite T in B.
  destruct o, p; rewrite A in B; try discriminate; auto. apply Ok_inj in B. congruence.
Qed.

Lemma one_same : forall ch fuel1 fuel2 r s o r1 p s1, timeline s = timeline r ->
  read_one fuel1 ch r = Ok (o, r1) -> read_one fuel2 ch s = Ok (p, s1) ->
  timeline s1 = timeline r1 /\ (o = None <-> p = None).
Proof.
  intros ch. induction fuel1 as [|fuel1 IH]; intros fuel2 r s o r1 p s1 T Er Es; cbn [read_one] in Er; [discriminate|].
  destruct fuel2 as [|fuel2]; cbn [read_one] in Es; [discriminate|].
  apply bind_ok in Er. destruct Er as ([v r2] & E1 & Er). apply bind_ok in Es. destruct Es as ([w s2] & E2 & Es).
  pose proof (tl_eq at_end (fun _ => eq_refl) r s T) as AE.
  destruct v as [v|], w as [w|].
  - apply readNextValue_some in E1. apply readNextValue_some in E2. destruct E1 as [_ Q1], E2 as [_ Q2].
    apply Ok_inj, pair_equal_spec in Er. destruct Er as [<- <-]. apply Ok_inj, pair_equal_spec in Es. destruct Es as [<- <-].
    rewrite (quiet_timeline _ _ Q1), (quiet_timeline _ _ Q2). split; [exact T|]. split; discriminate.
  - apply readNextValue_some in E1. apply readNextValue_none in E2. destruct E1 as [E1 _], E2 as [E2 _]. congruence.
  - apply readNextValue_none in E1. apply readNextValue_some in E2. destruct E1 as [E1 _], E2 as [E2 _]. congruence.
  - apply readNextValue_none in E1. apply readNextValue_none in E2. destruct E1 as [_ ->], E2 as [_ ->].
    apply bind_ok in Er. destruct Er as (e1 & X1 & Er). apply bind_ok in Es. destruct Es as (e2 & X2 & Es).
    pose proof (on_end_same r s T e1 e2 X1 X2) as OE. destruct e1 as [r3|], e2 as [s3|]; try contradiction.
    + exact (IH fuel2 r3 s3 o r1 p s1 OE Er Es).
    + apply Ok_inj, pair_equal_spec in Er. destruct Er as [<- <-]. apply Ok_inj, pair_equal_spec in Es. destruct Es as [<- <-].
      split; [|tauto]. apply (tl_set (fun r => r <| r_cfst := 0 |>)); auto.
Qed.

Lemma channels_same : forall f1 f2 todo ch r s o r1 p s1, timeline s = timeline r ->
  read_channels f1 todo ch r = Ok (o, r1) -> read_channels f2 todo ch s = Ok (p, s1) ->
  timeline s1 = timeline r1 /\ option_map (@length Z) o = option_map (@length Z) p.
Proof.
  intros f1 f2. induction todo as [|todo IH]; intros ch r s o r1 p s1 T Er Es; cbn [read_channels] in Er, Es.
  - apply Ok_inj, pair_equal_spec in Er. destruct Er as [<- <-]. apply Ok_inj, pair_equal_spec in Es. destruct Es as [<- <-]. auto.
  - apply bind_ok in Er. destruct Er as ([v r2] & E1 & Er). apply bind_ok in Es. destruct Es as ([w s2] & E2 & Es).
    destruct (one_same ch f1 f2 r s v r2 w s2 T E1 E2) as [T2 [N1 N2]].
    destruct v as [v|], w as [w|]; [|discriminate (N2 eq_refl)|discriminate (N1 eq_refl)|].
    + apply bind_ok in Er. destruct Er as ([o2 r3] & E3 & Er). apply bind_ok in Es. destruct Es as ([p2 s3] & E4 & Es).
      apply Ok_inj, pair_equal_spec in Er. destruct Er as [<- <-]. apply Ok_inj, pair_equal_spec in Es. destruct Es as [<- <-].
      destruct (IH (ch + 1) r2 s2 o2 r3 p2 s3 T2 E3 E4) as [T3 L]. split; [exact T3|].
      destruct o2, p2; cbn in *; try discriminate; congruence.
    + apply Ok_inj, pair_equal_spec in Er. destruct Er as [<- <-]. apply Ok_inj, pair_equal_spec in Es. destruct Es as [<- <-]. auto.
Qed.

Definition agreeT (x y : res reader) : Prop := forall a b, x = Ok a -> y = Ok b -> timeline b = timeline a.
Lemma agreeT_ok : forall r s, timeline s = timeline r -> agreeT (Ok r) (Ok s).
Proof. intros r s T a b A B. apply Ok_inj in A, B. congruence. Qed.
Lemma tl_spos : forall r s n, timeline s = timeline r -> spos s n = spos r n.
Proof. intros r s n T. exact (tl_eq (fun r => spos r n) (fun _ => eq_refl) r s T). Qed.
Lemma tl_sts : forall r s n, timeline s = timeline r -> sts s n = sts r n.
Proof. intros r s n T. exact (tl_eq (fun r => sts r n) (fun _ => eq_refl) r s T). Qed.
Lemma tl_pos2_cfst : forall p c r s, timeline s = timeline r -> timeline (s <| r_pos2 := p |> <| r_cfst := c |>) = timeline (r <| r_pos2 := p |> <| r_cfst := c |>).
Proof. intros p c. apply (tl_set (fun r => r <| r_pos2 := p |> <| r_cfst := c |>)). reflexivity. Qed.
Lemma tl_pos1_cfst : forall p c r s, timeline s = timeline r -> timeline (s <| r_pos1 := p |> <| r_cfst := c |>) = timeline (r <| r_pos1 := p |> <| r_cfst := c |>).
Proof. intros p c. apply (tl_set (fun r => r <| r_pos1 := p |> <| r_cfst := c |>)). reflexivity. Qed.
Lemma tl_neg : forall r s, timeline s = timeline r -> timeline (s <| r_rate := dneg (r_rate s) |>) = timeline (r <| r_rate := dneg (r_rate r) |>).
Proof. apply (tl_set (fun r => r <| r_rate := dneg (r_rate r) |>)). reflexivity. Qed.
Lemma tl_cf : forall x r s, timeline s = timeline r -> timeline (s <| r_cf := x |>) = timeline (r <| r_cf := x |>).
Proof. intro x. apply (tl_set (fun r => r <| r_cf := x |>)). reflexivity. Qed.

Lemma fade_same : forall r s, timeline s = timeline r -> agreeT (updateCrossfade r) (updateCrossfade s).
Proof.
  intros r s T. unfold updateCrossfade. cbv zeta.
  rewrite (tl_eq r_loop (fun _ => eq_refl) r s T), (tl_eq r_rate (fun _ => eq_refl) r s T), (tl_eq r_cfst (fun _ => eq_refl) r s T),
    (tl_eq r_lf (fun _ => eq_refl) r s T), (tl_eq r_ls (fun _ => eq_refl) r s T), (tl_eq r_cfdur (fun _ => eq_refl) r s T),
    (tl_eq r_pos1 (fun _ => eq_refl) r s T), !(tl_spos r s _ T).
  set (pp := loop_eqb (r_loop r) LPingpong).
  set (r1 := if dle d0 (r_rate r) then _ else _). set (s1 := if dle d0 (r_rate r) then _ else _).
  assert (T1 : timeline s1 = timeline r1).
  { unfold s1, r1. destruct (dle d0 (r_rate r)); (destruct (_ && _); [|exact T]); now apply tl_pos2_cfst. }
  clearbody r1 s1. clear T.
  rewrite (tl_eq r_cfst (fun _ => eq_refl) r1 s1 T1), (tl_eq r_ls (fun _ => eq_refl) r1 s1 T1), (tl_eq r_lf (fun _ => eq_refl) r1 s1 T1),
    (tl_eq r_cfdur (fun _ => eq_refl) r1 s1 T1), (tl_eq r_nch (fun _ => eq_refl) r1 s1 T1), (tl_eq r_rate (fun _ => eq_refl) r1 s1 T1),
    (tl_eq r_pos2 (fun _ => eq_refl) r1 s1 T1), !(tl_spos r1 s1 _ T1), !(tl_sts r1 s1 _ T1).
  destruct (r_cfst r1 =? 1); [|now apply agreeT_ok].
  pose proof (tl_pos1_cfst (r_pos2 r1) 0 r1 s1 T1) as TF.
  set (r2 := r1 <| r_pos1 := r_pos2 r1 |> <| r_cfst := 0 |>) in *. set (s2 := s1 <| r_pos1 := r_pos2 r1 |> <| r_cfst := 0 |>) in *.
  assert (FIN : agreeT (Ok (if pp then r2 <| r_rate := dneg (r_rate r2) |> else r2)) (Ok (if pp then s2 <| r_rate := dneg (r_rate s2) |> else s2))).
  { apply agreeT_ok. clearbody r2 s2. destruct pp; [now apply tl_neg|exact TF]. }
  clearbody r2 s2.
  assert (GAIN : forall x, agreeT
    (if u32 (r_nch r1) =? 0 then UB UbDivZero else Ok (r1 <| r_cf := dsub d1 (ddiv (d_of_Z (u32 x / u32 (r_nch r1))) (d_of_Z (r_cfdur r1))) |>))
    (if u32 (r_nch r1) =? 0 then UB UbDivZero else Ok (s1 <| r_cf := dsub d1 (ddiv (d_of_Z (u32 x / u32 (r_nch r1))) (d_of_Z (r_cfdur r1))) |>))).
  { intro x. destruct (_ =? 0); [intros a b E; discriminate|]. apply agreeT_ok. now apply tl_cf. }
  destruct (xorb pp _).
  - destruct (_ <? _); [exact FIN|apply GAIN].
  - destruct (_ <? _); [exact FIN|apply GAIN].
Qed.
Lemma advance_tl : forall r, match advance r with
  | Ok r1 => advance (timeline r) = Ok (timeline r1) | UB u => advance (timeline r) = UB u | NoFuel => advance (timeline r) = NoFuel end.
Proof.
  intro r. unfold advance. cbv zeta.
  change (r_loop (timeline r)) with (r_loop r). change (r_rate (timeline r)) with (r_rate r). change (r_cfst (timeline r)) with (r_cfst r).
  change (r_rem (timeline r)) with (r_rem r). change (r_nch (timeline r)) with (r_nch r). change (r_pos1 (timeline r)) with (r_pos1 r).
  change (r_pos2 (timeline r)) with (r_pos2 r).
  destruct (d_to_s32 _) as [dl| |]; cbn [bind]; try reflexivity. destruct (chk32 (dl * _)) as [st| |]; cbn [bind]; try reflexivity.
  destruct (chk32 (r_pos1 r + st)) as [p1| |]; cbn [bind]; try reflexivity. destruct (r_cfst r =? 0); [reflexivity|].
  match goal with |- context [bind ?y _] => destruct y as [p2| |] end; cbn [bind]; reflexivity.
Qed.

Lemma tl_fun : forall (h : reader -> res reader),
  (forall r, match h r with Ok r1 => h (timeline r) = Ok (timeline r1) | UB u => h (timeline r) = UB u | NoFuel => h (timeline r) = NoFuel end) ->
  forall r s r1 s1, timeline s = timeline r -> h r = Ok r1 -> h s = Ok s1 -> timeline s1 = timeline r1.
Proof.
  intros h H r s r1 s1 T Er Es. pose proof (H r) as A. pose proof (H s) as B. rewrite Er in A. rewrite Es, T in B. rewrite A in B.
  apply Ok_inj in B. congruence.
Qed.

Lemma frame_same : forall f1 f2 r s o r1 p s1, timeline s = timeline r -> read_frame f1 r = Ok (o, r1) -> read_frame f2 s = Ok (p, s1) ->
  timeline s1 = timeline r1 /\ option_map (@length Z) o = option_map (@length Z) p.
Proof.
  intros f1 f2 r s o r1 p s1 T Er Es. unfold read_frame in *.
  apply bind_ok in Er. destruct Er as (r2 & E1 & Er). apply bind_ok in Es. destruct Es as (s2 & E2 & Es).
  assert (T2 : timeline s2 = timeline r2).
  { rewrite (tl_eq r_dual (fun _ => eq_refl) r s T) in E2. destruct (r_dual r).
    - exact (fade_same r s T r2 s2 E1 E2).
    - apply Ok_inj in E1, E2. congruence. }
  clear E1 E2 T. rewrite (tl_eq r_nch (fun _ => eq_refl) r2 s2 T2) in Es.
  apply bind_ok in Er. destruct Er as ([o3 r3] & E1 & Er). apply bind_ok in Es. destruct Es as ([p3 s3] & E2 & Es).
  destruct (channels_same _ _ _ _ _ _ _ _ _ _ T2 E1 E2) as [T3 L].
  destruct o3 as [o3|], p3 as [p3|]; cbn in L; try discriminate.
  - apply bind_ok in Er. destruct Er as (r4 & E3 & Er). apply bind_ok in Es. destruct Es as (s4 & E4 & Es).
    apply Ok_inj, pair_equal_spec in Er. destruct Er as [<- <-]. apply Ok_inj, pair_equal_spec in Es. destruct Es as [<- <-].
    split; [|exact L]. eapply (tl_fun advance advance_tl); eauto.
  - apply Ok_inj, pair_equal_spec in Er. destruct Er as [<- <-]. apply Ok_inj, pair_equal_spec in Es. destruct Es as [<- <-]. auto.
Qed.

Lemma loop_same : forall i1 i2 f1 f2 r s n o r1 p s1, timeline s = timeline r -> read_loop i1 f1 r n = Ok (o, r1) -> read_loop i2 f2 s n = Ok (p, s1) ->
  timeline s1 = timeline r1 /\ map (@length Z) o = map (@length Z) p.
Proof.
  intros i1 i2. induction f1 as [|f1 IH]; intros f2 r s n o r1 p s1 T Er Es.
  - cbn [read_loop] in Er. destruct (n <=? 0) eqn:N; [|discriminate].
    assert (Es' : Ok ([], s) = Ok (p, s1)) by (rewrite <- Es; destruct f2; cbn [read_loop]; now rewrite N).
    apply Ok_inj, pair_equal_spec in Er. destruct Er as [<- <-]. apply Ok_inj, pair_equal_spec in Es'. destruct Es' as [<- <-]. auto.
  - cbn [read_loop] in Er. destruct (n <=? 0) eqn:N.
    + assert (Es' : Ok ([], s) = Ok (p, s1)) by (rewrite <- Es; destruct f2; cbn [read_loop]; now rewrite N).
      apply Ok_inj, pair_equal_spec in Er. destruct Er as [<- <-]. apply Ok_inj, pair_equal_spec in Es'. destruct Es' as [<- <-]. auto.
    + destruct f2 as [|f2]; cbn [read_loop] in Es; rewrite N in Es; [discriminate|].
      apply bind_ok in Er. destruct Er as ([o2 r2] & E1 & Er). apply bind_ok in Es. destruct Es as ([p2 s2] & E2 & Es).
      destruct (frame_same _ _ _ _ _ _ _ _ T E1 E2) as [T2 L].
      destruct o2 as [o2|], p2 as [p2|]; cbn in L; try discriminate.
      * rewrite (tl_eq r_nch (fun _ => eq_refl) r s T) in Es. destruct (r_nch r =? 0); [exact (IH _ _ _ _ _ _ _ _ T2 Er Es)|].
        apply bind_ok in Er. destruct Er as ([o3 r3] & E3 & Er). apply bind_ok in Es. destruct Es as ([p3 s3] & E4 & Es).
        apply Ok_inj, pair_equal_spec in Er. destruct Er as [<- <-]. apply Ok_inj, pair_equal_spec in Es. destruct Es as [<- <-].
        destruct (IH _ _ _ _ _ _ _ _ T2 E3 E4) as [T3 L3]. split; [exact T3|]. cbn [map]. congruence.
      * apply Ok_inj, pair_equal_spec in Er. destruct Er as [<- <-]. apply Ok_inj, pair_equal_spec in Es. destruct Es as [<- <-]. auto.
Qed.

Lemma read_same : forall f1 f2 r s n o r1 p s1, timeline s = timeline r -> r_read f1 r n = Ok (o, r1) -> r_read f2 s n = Ok (p, s1) ->
  timeline s1 = timeline r1 /\ map (@length Z) o = map (@length Z) p.
Proof.
  intros f1 f2 r s n o r1 p s1 T Er Es. unfold r_read in *.
  rewrite (tl_eq r_playing (fun _ => eq_refl) r s T), (tl_eq r_nch (fun _ => eq_refl) r s T) in Es.
  destruct (negb _).
  - apply Ok_inj, pair_equal_spec in Er. destruct Er as [<- <-]. apply Ok_inj, pair_equal_spec in Es. destruct Es as [<- <-]. auto.
  - destruct (_ <? 0); [discriminate|]. eapply loop_same; eauto.
Qed.

(* ---- sessions ------------------------------------------------------------------------ *)

Lemma rate_tl : forall x r, match setPlaybackRate r x with
  | Ok r1 => setPlaybackRate (timeline r) x = Ok (timeline r1) | UB u => setPlaybackRate (timeline r) x = UB u | NoFuel => setPlaybackRate (timeline r) x = NoFuel end.
Proof.
  intros x r. unfold setPlaybackRate. cbv zeta. change (timeline r <| r_rate := x |>) with (timeline (r <| r_rate := x |>)).
  set (r1 := r <| r_rate := x |>). clearbody r1.
  change (r_dual (timeline r1)) with (r_dual r1). change (r_cf (timeline r1)) with (r_cf r1).
  change (r_pos1 (timeline r1)) with (r_pos1 r1). change (r_hdr (timeline r1)) with (r_hdr r1).
  change (r_pstart (timeline r1)) with (r_pstart r1). change (r_fsamples (timeline r1)) with (r_fsamples r1).
  change (r_lf (timeline r1)) with (r_lf r1). change (r_ls (timeline r1)) with (r_ls r1).
  assert (SP : forall n, spos (timeline r1) n = spos r1 n) by reflexivity. rewrite !SP.
  repeat match goal with |- context [if ?b then _ else _] => destruct b end; try reflexivity;
    match goal with |- context [bind ?y _] => destruct y as [n| |]; cbn [bind]; rewrite ?SP; reflexivity end.
Qed.
Lemma here_tl : forall n r, match r_loop_from_here r n with
  | Ok r1 => r_loop_from_here (timeline r) n = Ok (timeline r1) | UB u => r_loop_from_here (timeline r) n = UB u | NoFuel => r_loop_from_here (timeline r) n = NoFuel end.
Proof.
  intros n r. unfold r_loop_from_here. cbv zeta. change (r_cf (timeline r)) with (r_cf r). change (r_pos1 (timeline r)) with (r_pos1 r).
  change (r_pos2 (timeline r)) with (r_pos2 r). change (r_nch (timeline r)) with (r_nch r).
  destruct (sdiv32 _ _); cbn [bind]; reflexivity.
Qed.

Lemma type_tl : forall r l, timeline (setLoopType r l) = timeline r <| r_loop := l |>.
Proof. intros r l. unfold setLoopType. destruct (r_src r); reflexivity. Qed.
Lemma lstart_tl : forall r v, timeline (setLoopStart r v) = timeline r <| r_ls := s32 v |>.
Proof. intros r v. unfold setLoopStart. cbv zeta. change (r_src (r <| r_ls := s32 v |>)) with (r_src r). destruct (r_src r); reflexivity. Qed.
Lemma lfinish_tl : forall r v, timeline (setLoopFinish r v) = timeline r <| r_lf := s32 v |>.
Proof. intros r v. unfold setLoopFinish. cbv zeta. change (r_src (r <| r_lf := s32 v |>)) with (r_src r). destruct (r_src r); reflexivity. Qed.
Lemma reload_tl : forall fuel r r', r_triggerReload fuel r = Ok r' -> timeline r' = timeline r.
Proof.
  intros fuel r r' E. unfold r_triggerReload in E. destruct (r_src r); try (apply Ok_inj in E; now subst).
  apply bind_ok in E. destruct E as (f' & _ & E). apply Ok_inj in E. now subst.
Qed.

Lemma untimed_same : forall fuel o r b r', timed o = false -> sop_run fuel o r = Ok (b, r') -> b = [] /\ timeline r' = timeline r.
Proof.
  intros fuel o r b r' U E. destruct o; try discriminate; cbn [sop_run] in E; apply bind_ok in E; destruct E as (r1 & E1 & E);
    apply Ok_inj, pair_equal_spec in E; destruct E as [<- <-]; split; auto.
  - eapply reload_tl; eauto.
  - apply Ok_inj in E1. now subst.
Qed.

Lemma op_same : forall f1 f2 o r s b r1 d s1, timeline s = timeline r -> sop_run f1 o r = Ok (b, r1) -> sop_run f2 o s = Ok (d, s1) ->
  timeline s1 = timeline r1 /\ map (@length Z) b = map (@length Z) d.
Proof.
  intros f1 f2 o r s b r1 d s1 T Er Es. destruct o; cbn [sop_run] in Er, Es; [eapply read_same; eauto|..];
    apply bind_ok in Er; destruct Er as (r2 & E1 & Er); apply bind_ok in Es; destruct Es as (s2 & E2 & Es);
    apply Ok_inj, pair_equal_spec in Er; destruct Er as [<- <-]; apply Ok_inj, pair_equal_spec in Es; destruct Es as [<- <-]; (split; [|reflexivity]).
  - apply reload_tl in E1, E2. congruence.
  - exact (tl_fun (fun r => setPlaybackRate r x) (rate_tl x) r s r2 s2 T E1 E2).
  - apply Ok_inj in E1, E2. subst. rewrite !type_tl. now rewrite T.
  - apply Ok_inj in E1, E2. subst. rewrite !lstart_tl. now rewrite T.
  - apply Ok_inj in E1, E2. subst. rewrite !lfinish_tl. now rewrite T.
  - exact (tl_fun (fun r => r_loop_from_here r n) (here_tl n) r s r2 s2 T E1 E2).
  - apply Ok_inj in E1, E2. subst. apply (tl_set (fun r => setUseDualPlaybackHead r b0)); auto.
  - apply Ok_inj in E1, E2. subst. apply (tl_set (fun r => setCrossfadeDuration r n)); auto.
  - apply Ok_inj in E1, E2. subst. exact T.
  - apply Ok_inj in E1, E2. subst. apply (tl_set (fun r => setHeaderSizeInBytes r n)); auto.
  - apply Ok_inj in E1, E2. subst. apply (tl_set (fun r => setPlayStart r p v)); auto.
Qed.

Lemma session_cons : forall fuel r o os bs r', session fuel r (o :: os) = Ok (bs, r') ->
  exists b r1 bs1, sop_run fuel o r = Ok (b, r1) /\ session fuel r1 os = Ok (bs1, r') /\ bs = b :: bs1.
Proof.
  intros fuel r o os bs r' E. cbn [session] in E. apply bind_ok in E. destruct E as ([b r1] & E1 & E).
  apply bind_ok in E. destruct E as ([bs1 r2] & E2 & E). apply Ok_inj, pair_equal_spec in E. destruct E as [<- <-]. eauto 6.
Qed.

Lemma session_untimed : forall fuel os r bs r', filter timed os = [] -> session fuel r os = Ok (bs, r') -> concat bs = [] /\ timeline r' = timeline r.
Proof.
  intros fuel. induction os as [|o os IH]; intros r bs r' F E.
  - cbn in E. apply Ok_inj, pair_equal_spec in E. destruct E as [<- <-]. auto.
  - apply session_cons in E. destruct E as (b & r1 & bs1 & E1 & E2 & ->). cbn in F. destruct (timed o) eqn:U; [discriminate|].
    destruct (untimed_same _ _ _ _ _ U E1) as [-> T]. destruct (IH _ _ _ F E2) as [C T2]. split; [exact C|congruence].
Qed.

Theorem timeline_session : forall f1 f2 os os' r s bs r' ds s', timeline s = timeline r -> filter timed os = filter timed os' ->
  session f1 r os = Ok (bs, r') -> session f2 s os' = Ok (ds, s') ->
  timeline s' = timeline r' /\ map (@length Z) (concat bs) = map (@length Z) (concat ds).
Proof.
  intros f1 f2. induction os as [|o os IH]; intros os' r s bs r' ds s' T F Er Es.
  - cbn in F. cbn in Er. apply Ok_inj, pair_equal_spec in Er. destruct Er as [<- <-].
    destruct (session_untimed _ _ _ _ _ (eq_sym F) Es) as [-> T2]. split; [congruence|reflexivity].
  - apply session_cons in Er. destruct Er as (b & r1 & bs1 & E1 & E2 & ->). cbn [filter] in F. destruct (timed o) eqn:U.
    + revert s ds T F Es. induction os' as [|o' os' IH']; intros s ds T F Es; [discriminate|].
      apply session_cons in Es. destruct Es as (d & s1 & ds1 & X1 & X2 & ->). cbn [filter] in F. destruct (timed o') eqn:U'.
      * injection F as <- F. destruct (op_same _ _ _ _ _ _ _ _ _ T E1 X1) as [T1 L].
        destruct (IH os' r1 s1 bs1 r' ds1 s' T1 F E2 X2) as [T2 L2]. split; [exact T2|]. cbn [concat]. rewrite !map_app. congruence.
      * destruct (untimed_same _ _ _ _ _ U' X1) as [-> T1]. destruct (IH' s1 ds1) as [T2 L2]; auto. congruence.
    + destruct (untimed_same _ _ _ _ _ U E1) as [-> T1]. destruct (IH os' r1 s bs1 r' ds s') as [T2 L2]; auto. congruence.
Qed.
