(* A reader of a file and the same reader of an array holding the file's bytes:
   as long as every sample fetched is buffered they do the same (C79). *)

From Coq Require Import ZArith Lia List Bool.
From RecordUpdate Require Import RecordUpdate.
From Flocq Require Import IEEE754.BinarySingleNaN.
From Verif Require Import Machine Floats WavModel InterpModel CacheModel ReaderModel ReaderFacts CacheFacts CacheSpec CacheProofs FileSpec MirrorSpec.
Import ListNotations.
Local Open Scope Z_scope.

Definition src_set (r : reader) (k : rkind) (s : source) : reader := r <| r_kind := k |> <| r_src := s |>.

(* A sample fetched from array memory *)
Definition mem_sample (m : mem) (off i : Z) : option Z :=
  if (0 <=? off + 2 * i) && (off + 2 * i + 2 <=? msize m) then Some (le16 (mbyte m) (off + 2 * i)) else None.

Section Mirror.
Variables (m : mem) (off : Z) (kd : rkind).
(* what is known of the file, and what makes the comparison void *)
Variables (good : ifile -> Prop) (bad : source -> Prop).
Hypothesis bad_gets : forall s t, src_gets s t -> bad s -> bad t.
Hypothesis hit : forall f i v, good f -> mem_sample m off i = Some v ->
  (fst (if_get f i) = v /\ good (snd (if_get f i))) \/ bad (SFile (snd (if_get f i))).

(* ra reads the array, rf the file *)
Definition mir (ra rf : reader) : Prop :=
  r_src ra = SArr m off /\ exists f, good f /\ rf = src_set ra kd (SFile f).

Definition Bad {A} (y : res (A * reader)) : Prop :=
  (exists s, bad s) /\ match y with Ok (_, rf) => bad (r_src rf) | _ => True end.
Definition agree {A} (x y : res (A * reader)) : Prop :=
  forall a ra, x = Ok (a, ra) -> (exists rf, y = Ok (a, rf) /\ mir ra rf) \/ Bad y.
Definition Bad1 (y : res reader) : Prop :=
  (exists s, bad s) /\ match y with Ok rf => bad (r_src rf) | _ => True end.
Definition agree1 (x y : res reader) : Prop :=
  forall ra, x = Ok ra -> (exists rf, y = Ok rf /\ mir ra rf) \/ Bad1 y.

Definition keeps {A} (k : reader -> res (A * reader)) : Prop := forall r c s, k r = Ok (c, s) -> src_gets (r_src r) (r_src s).
Definition keeps1 (k : reader -> res reader) : Prop := forall r s, k r = Ok s -> src_gets (r_src r) (r_src s).

Lemma agree_ok : forall A (a : A) ra rf, mir ra rf -> agree (Ok (a, ra)) (Ok (a, rf)).
Proof. intros A a ra rf M b rb E. inversion E; subst. left. eauto. Qed.
Lemma agree1_ok : forall ra rf, mir ra rf -> agree1 (Ok ra) (Ok rf).
Proof. intros ra rf M rb E. inversion E; subst. left. eauto. Qed.

Lemma agree_bind : forall A B (x y : res (A * reader)) (k k' : A * reader -> res (B * reader)), agree x y ->
  (forall a ra rf, mir ra rf -> agree (k (a, ra)) (k' (a, rf))) -> (forall a, keeps (fun r => k' (a, r))) ->
  agree (x' <- x ;; k x') (y' <- y ;; k' y').
Proof.
  intros A B x y k k' H K KP c rc E. apply bind_ok in E. destruct E as ([a ra] & X & E).
  destruct (H a ra X) as [(rf & -> & M)|[X1 X2]]; [exact (K a ra rf M c rc E)|].
  right. split; [exact X1|]. destruct y as [[b rf]| |]; cbn; auto. destruct (k' (b, rf)) as [[d rd]| |] eqn:K'; auto.
  eapply bad_gets; [eapply (KP b); exact K'|exact X2].
Qed.
Lemma agree_bind1 : forall A (x y : res reader) (k k' : reader -> res (A * reader)), agree1 x y ->
  (forall ra rf, mir ra rf -> agree (k ra) (k' rf)) -> keeps k' -> agree (x' <- x ;; k x') (y' <- y ;; k' y').
Proof.
  intros A x y k k' H K KP c rc E. apply bind_ok in E. destruct E as (ra & X & E).
  destruct (H ra X) as [(rf & -> & M)|[X1 X2]]; [exact (K ra rf M c rc E)|].
  right. split; [exact X1|]. destruct y as [rf| |]; cbn; auto. destruct (k' rf) as [[d rd]| |] eqn:K'; auto.
  eapply bad_gets; [eapply KP; exact K'|exact X2].
Qed.
Lemma agree1_bind : forall A (x y : res (A * reader)) (k k' : A * reader -> res reader), agree x y ->
  (forall a ra rf, mir ra rf -> agree1 (k (a, ra)) (k' (a, rf))) -> (forall a, keeps1 (fun r => k' (a, r))) ->
  agree1 (x' <- x ;; k x') (y' <- y ;; k' y').
Proof.
  intros A x y k k' H K KP rc E. apply bind_ok in E. destruct E as ([a ra] & X & E).
  destruct (H a ra X) as [(rf & -> & M)|[X1 X2]]; [exact (K a ra rf M rc E)|].
  right. split; [exact X1|]. destruct y as [[b rf]| |]; cbn; auto. destruct (k' (b, rf)) as [rd| |] eqn:K'; auto.
  eapply bad_gets; [eapply (KP b); exact K'|exact X2].
Qed.
Lemma agree1_bind1 : forall (x y : res reader) (k k' : reader -> res reader), agree1 x y ->
  (forall ra rf, mir ra rf -> agree1 (k ra) (k' rf)) -> keeps1 k' -> agree1 (x' <- x ;; k x') (y' <- y ;; k' y').
Proof.
  intros x y k k' H K KP rc E. apply bind_ok in E. destruct E as (ra & X & E).
  destruct (H ra X) as [(rf & -> & M)|[X1 X2]]; [exact (K ra rf M rc E)|].
  right. split; [exact X1|]. destruct y as [rf| |]; cbn; auto. destruct (k' rf) as [rd| |] eqn:K'; auto.
  eapply bad_gets; [eapply KP; exact K'|exact X2].
Qed.
Lemma agree_pure : forall A B (x : res A) (k k' : A -> res (B * reader)), (forall a, x = Ok a -> agree (k a) (k' a)) ->
  agree (a <- x ;; k a) (a <- x ;; k' a).
Proof. intros A B [a|u|] k k' K; cbn; auto; intros b rb E; discriminate. Qed.
Lemma agree1_pure : forall A (x : res A) (k k' : A -> res reader), (forall a, x = Ok a -> agree1 (k a) (k' a)) ->
  agree1 (a <- x ;; k a) (a <- x ;; k' a).
Proof. intros A [a|u|] k k' K; cbn; auto; intros rb E; discriminate. Qed.

(* What is on both sides the same *)
Lemma mir_eq : forall {A} (p : reader -> A) ra rf, (forall r k s, p (src_set r k s) = p r) -> mir ra rf -> p rf = p ra.
Proof. intros A p ra rf P (_ & f & _ & ->). apply P. Qed.
Lemma mir_set : forall (g : reader -> reader) ra rf, (forall r k s, g (src_set r k s) = src_set (g r) k s) -> (forall r, r_src (g r) = r_src r) ->
  mir ra rf -> mir (g ra) (g rf).
Proof. intros g ra rf G S (E & f & H & ->). split; [now rewrite S|]. exists f. split; [exact H|apply G]. Qed.

Lemma mir_get : forall ra rf i, mir ra rf -> agree (getSourceBufferValue ra i) (getSourceBufferValue rf i).
Proof.
  intros ra rf i (S & f & G & ->) v ra' E. unfold getSourceBufferValue in *. rewrite S in E. cbn [src_set r_src set] in *.
  pose proof (hit f i) as HI. unfold mem_sample in HI.
  destruct (_ && _); [|discriminate]. apply Ok_inj, pair_equal_spec in E. destruct E as [<- <-].
  specialize (HI _ G eq_refl). change (r_src (src_set ra kd (SFile f))) with (SFile f). cbv iota.
  destruct (if_get f i) as [w f']. cbn [fst snd] in HI. destruct HI as [[-> G']|B].
  - left. eexists. split; [reflexivity|]. split; [exact S|]. exists f'. split; [exact G'|reflexivity].
  - right. split; [eauto|]. exact B.
Qed.
Lemma mir_getAt : forall ra rf p o c, mir ra rf -> agree (getAt ra p o c) (getAt rf p o c).
Proof.
  intros ra rf p o c H. unfold getAt. rewrite (mir_eq r_nch ra rf (fun _ _ _ => eq_refl) H).
  apply agree_pure. intros i1 _. apply agree_pure. intros i _. now apply mir_get.
Qed.

Lemma mir_add : forall ra rf c y, mir ra rf -> agree1 (addPoint ra c y) (addPoint rf c y).
Proof.
  intros ra rf c y (S & f & G & ->). unfold addPoint.
  change (r_interp (src_set ra kd (SFile f))) with (r_interp ra).
  destruct (r_interp ra); [apply agree1_ok; split; [exact S|eauto]| |];
    (apply agree1_pure; intros u _; apply agree1_ok; split; [exact S|]; exists f; split; [exact G|reflexivity]).
Qed.

(* ---- continuations only fetch ------------------------------------------------ *)
Lemma getAt_gets : forall r p o c v s, getAt r p o c = Ok (v, s) -> src_gets (r_src r) (r_src s).
Proof. intros r p o c v s E. apply getAt_quiet in E. destruct E as [[_ Q] _]. exact Q. Qed.
Lemma add_gets : forall r c y s, addPoint r c y = Ok s -> src_gets (r_src r) (r_src s).
Proof. intros r c y s E. apply addPoint_quiet in E. destruct E as [_ Q]. exact Q. Qed.
Lemma push_gets : forall n fwd r c s, push_points n fwd r c = Ok s -> src_gets (r_src r) (r_src s).
Proof. intros n fwd r c s E. apply push_points_quiet in E. destruct E as [_ Q]. exact Q. Qed.
Lemma linear_gets : forall r c v w s, linear_value r c v = Ok (w, s) -> src_gets (r_src r) (r_src s).
Proof. intros r c v w s E. apply linear_value_quiet in E. destruct E as [_ Q]. exact Q. Qed.
Lemma quadratic_gets : forall r c v w s, quadratic_value r c v = Ok (w, s) -> src_gets (r_src r) (r_src s).
Proof. intros r c v w s E. apply quadratic_value_quiet in E. destruct E as [_ Q]. exact Q. Qed.
Lemma one_gets : forall fuel ch r o s, read_one fuel ch r = Ok (o, s) -> src_gets (r_src r) (r_src s).
Proof. intros fuel ch r o s E. apply read_one_statics in E. destruct E as [_ Q]. exact Q. Qed.
Lemma channels_gets : forall fuel todo ch r o s, read_channels fuel todo ch r = Ok (o, s) -> src_gets (r_src r) (r_src s).
Proof. intros fuel todo ch r o s E. apply read_channels_statics in E. destruct E as [_ Q]. exact Q. Qed.
Lemma advance_gets : forall r s, advance r = Ok s -> src_gets (r_src r) (r_src s).
Proof. intros r s E. apply advance_statics in E. destruct E as [_ Q]. exact Q. Qed.
Lemma loop_gets : forall ifuel fuel r n l s, read_loop ifuel fuel r n = Ok (l, s) -> src_gets (r_src r) (r_src s).
Proof. intros ifuel fuel r n l s E. apply read_loop_statics in E. destruct E as [_ Q]. exact Q. Qed.
Lemma on_end_gets : forall r s, on_end r = Ok (Some s) -> src_gets (r_src r) (r_src s).
Proof. intros r s E. apply on_end_statics in E. destruct E as [_ Q]. exact Q. Qed.

Ltac inv_ok :=
  repeat match goal with
  | H : bind _ _ = Ok _ |- _ => let a := fresh "a" in let E := fresh "E" in
      apply bind_ok in H; destruct H as (a & E & H); try (destruct a as [? ?]); cbv beta iota in H
  | H : Ok (_, _) = Ok (_, _) |- _ => apply Ok_inj, pair_equal_spec in H; destruct H; subst
  | H : Ok _ = Ok _ |- _ => apply Ok_inj in H; subst
  | H : (if ?b then _ else _) = Ok _ |- _ => destruct b
  | H : match ?b with Some _ => _ | None => _ end = Ok _ |- _ => destruct b
  | H : _ = Ok _ |- _ => discriminate H
  end.
Ltac chase :=
  repeat match goal with
  | H : getAt _ _ _ _ = Ok _ |- _ => apply getAt_gets in H
  | H : addPoint _ _ _ = Ok _ |- _ => apply add_gets in H
  | H : push_points _ _ _ _ = Ok _ |- _ => apply push_gets in H
  | H : linear_value _ _ _ = Ok _ |- _ => apply linear_gets in H
  | H : quadratic_value _ _ _ = Ok _ |- _ => apply quadratic_gets in H
  | H : read_one _ _ _ = Ok _ |- _ => apply one_gets in H
  | H : read_channels _ _ _ _ = Ok _ |- _ => apply channels_gets in H
  | H : advance _ = Ok _ |- _ => apply advance_gets in H
  | H : read_loop _ _ _ _ = Ok _ |- _ => apply loop_gets in H
  end.
Ltac kept := unfold keeps, keeps1; intros; inv_ok; chase; cbn in *;
  repeat match goal with
  | |- src_gets ?a ?a => apply src_gets_refl
  | H : src_gets ?a ?b |- src_gets ?a ?b => exact H
  | H : src_gets ?a ?b |- src_gets ?a _ => refine (src_gets_trans _ _ _ H _); clear H
  end; auto.

Lemma mir_fetch : forall ra rf c, mir ra rf -> agree (fetch_value ra c) (fetch_value rf c).
Proof.
  intros ra rf c H. unfold fetch_value.
  rewrite (mir_eq r_dual ra rf (fun _ _ _ => eq_refl) H), (mir_eq r_cfst ra rf (fun _ _ _ => eq_refl) H),
    (mir_eq r_cf ra rf (fun _ _ _ => eq_refl) H), (mir_eq r_pos1 ra rf (fun _ _ _ => eq_refl) H), (mir_eq r_pos2 ra rf (fun _ _ _ => eq_refl) H).
  destruct (negb (r_dual ra) || (r_cfst ra =? 0)); [now apply mir_getAt|].
  destruct (deq (r_cf ra) d0); [now apply mir_getAt|].
  apply agree_bind; [now apply mir_getAt| |intro; kept]. intros v1 r1 s1 H1.
  apply agree_bind; [now apply mir_getAt| |intro; kept].
  intros v2 r2 s2 H2. apply agree_pure. intros v _. now apply agree_ok.
Qed.

Ltac sync :=
  match goal with
  | |- agree (if ?b then _ else _) (if ?b then _ else _) => destruct b
  | |- agree1 (if ?b then _ else _) (if ?b then _ else _) => destruct b
  | |- agree (bind ?x _) (bind ?x _) => apply agree_pure; intros ? ?
  | |- agree1 (bind ?x _) (bind ?x _) => apply agree1_pure; intros ? ?
  | H : mir ?a ?b |- agree1 (Ok ?a) (Ok ?b) => now apply agree1_ok
  | H : mir ?a ?b |- agree (Ok (_, ?a)) (Ok (_, ?b)) => now apply agree_ok
  end.

Lemma mir_y1 : forall ra rf c w, mir ra rf ->
  mir (ra <| r_pts := upd (r_pts ra) c (r_pts ra c <| y1 := w |>) |>) (rf <| r_pts := upd (r_pts rf) c (r_pts rf c <| y1 := w |>) |>).
Proof. intros ra rf c w (S & f & G & ->). split; [exact S|]. exists f. split; [exact G|reflexivity]. Qed.

Lemma mir_linear : forall ra rf c v, mir ra rf -> agree (linear_value ra c v) (linear_value rf c v).
Proof.
  intros ra rf c v H. unfold linear_value. cbv zeta.
  rewrite (mir_eq r_rem ra rf (fun _ _ _ => eq_refl) H), (mir_eq r_rate ra rf (fun _ _ _ => eq_refl) H), (mir_eq r_dual ra rf (fun _ _ _ => eq_refl) H),
    (mir_eq r_pos1 ra rf (fun _ _ _ => eq_refl) H), (mir_eq r_nch ra rf (fun _ _ _ => eq_refl) H), (mir_eq r_hdr ra rf (fun _ _ _ => eq_refl) H),
    (mir_eq r_npts ra rf (fun _ _ _ => eq_refl) H).
  sync.
  - apply agree_bind1; [| |kept].
    + repeat sync.
      * apply agree1_bind1; [|intros; now apply mir_add|kept]. repeat sync.
        apply agree1_bind; [now apply mir_getAt| |intro; kept]. intros w r2 s2 G. apply agree1_ok. now apply mir_y1.
      * apply agree1_bind1; [|intros; now apply mir_add|kept]. repeat sync.
        apply agree1_bind; [now apply mir_getAt| |intro; kept]. intros w r2 s2 G. apply agree1_ok. now apply mir_y1.
    + intros r1 s1 H1. sync. rewrite (mir_eq r_npts r1 s1 (fun _ _ _ => eq_refl) H1), (mir_eq r_pts r1 s1 (fun _ _ _ => eq_refl) H1). repeat sync.
  - apply agree_bind1; [now apply mir_add| |kept]. intros r1 s1 H1. rewrite (mir_eq r_pts r1 s1 (fun _ _ _ => eq_refl) H1). now apply agree_ok.
Qed.

Lemma mir_push : forall fwd c n ra rf, mir ra rf -> agree1 (push_points n fwd ra c) (push_points n fwd rf c).
Proof.
  intros fwd c. induction n as [|n IH]; intros ra rf H; cbn [push_points]; [now apply agree1_ok|].
  rewrite (mir_eq r_pos1 ra rf (fun _ _ _ => eq_refl) H). apply agree1_bind; [now apply mir_getAt| |].
  - intros v r1 s1 H1.
    rewrite (mir_eq r_dual ra rf (fun _ _ _ => eq_refl) H), (mir_eq r_cfst ra rf (fun _ _ _ => eq_refl) H), (mir_eq r_loop ra rf (fun _ _ _ => eq_refl) H),
      (mir_eq r_cf ra rf (fun _ _ _ => eq_refl) H), (mir_eq r_pos2 ra rf (fun _ _ _ => eq_refl) H).
    apply agree1_bind.
    + destruct (r_dual ra && negb (r_cfst ra =? 0)); [|now apply agree_ok].
      apply agree_bind; [now apply mir_getAt| |intro; kept]. intros w r2 s2 H2. repeat sync.
    + intros y r2 s2 H2. apply agree1_bind1; [now apply mir_add|exact IH|kept].
    + intro; kept.
  - intro; kept.
Qed.

Lemma mir_quadratic : forall ra rf c v, mir ra rf -> agree (quadratic_value ra c v) (quadratic_value rf c v).
Proof.
  intros ra rf c v H. unfold quadratic_value. cbv zeta.
  rewrite (mir_eq r_rem ra rf (fun _ _ _ => eq_refl) H), (mir_eq r_rate ra rf (fun _ _ _ => eq_refl) H).
  apply agree_bind1; [| |kept].
  - repeat sync; now apply mir_push.
  - intros r1 s1 H1. sync. rewrite (mir_eq r_npts r1 s1 (fun _ _ _ => eq_refl) H1), (mir_eq r_pts r1 s1 (fun _ _ _ => eq_refl) H1). repeat sync.
Qed.

Lemma mir_next : forall ra rf c, mir ra rf -> agree (readNextValue ra c) (readNextValue rf c).
Proof.
  intros ra rf c H. unfold readNextValue. rewrite (mir_eq at_end ra rf (fun _ _ _ => eq_refl) H), (mir_eq r_interp ra rf (fun _ _ _ => eq_refl) H).
  sync; [sync|]. apply agree_bind; [now apply mir_fetch| |intro; destruct (r_interp ra); kept]. intros v r1 s1 H1.
  apply agree_bind; [|intros w r2 s2 H2; now apply agree_ok|intro; kept].
  destruct (r_interp ra); [now apply agree_ok|now apply mir_linear|now apply mir_quadratic].
Qed.

Lemma mir_on_end : forall ra rf, mir ra rf -> forall o, on_end ra = Ok o ->
  match o with None => on_end rf = Ok None | Some ra1 => exists rf1, on_end rf = Ok (Some rf1) /\ mir ra1 rf1 end.
Proof.
  intros ra rf (S & f & G & ->) o E. unfold on_end in *. cbv zeta in *.
  change (src_set ra kd (SFile f) <| r_cfst := 0 |>) with (src_set (ra <| r_cfst := 0 |>) kd (SFile f)).
  assert (S1 : r_src (ra <| r_cfst := 0 |>) = SArr m off) by exact S.
  set (r1 := ra <| r_cfst := 0 |>) in *. clearbody r1.
  change (r_loop (src_set r1 kd (SFile f))) with (r_loop r1). change (r_rate (src_set r1 kd (SFile f))) with (r_rate r1).
  change (r_lf (src_set r1 kd (SFile f))) with (r_lf r1). change (r_nch (src_set r1 kd (SFile f))) with (r_nch r1).
  change (r_ls (src_set r1 kd (SFile f))) with (r_ls r1). change (r_pstart (src_set r1 kd (SFile f))) with (r_pstart r1).
  change (r_hdr (src_set r1 kd (SFile f))) with (r_hdr r1).
  assert (P : forall n, spos (src_set r1 kd (SFile f)) n = spos r1 n) by reflexivity. rewrite P.
  destruct (r_loop r1); [apply Ok_inj in E; subst; reflexivity| |].
  - destruct (dle d0 (r_rate r1)).
    + apply Ok_inj in E. subst o. eexists. split; [reflexivity|]. split; [exact S1|]. exists f. split; [exact G|reflexivity].
    + apply bind_ok in E. destruct E as (n & -> & E). apply Ok_inj in E. subst o. cbn [bind]. rewrite P.
      eexists. split; [reflexivity|]. split; [exact S1|]. exists f. split; [exact G|reflexivity].
  - destruct (dle d0 (r_rate r1)).
    + apply bind_ok in E. destruct E as (n & -> & E). apply Ok_inj in E. subst o. cbn [bind]. rewrite P.
      eexists. split; [reflexivity|]. split; [exact S1|]. exists f. split; [exact G|reflexivity].
    + apply Ok_inj in E. subst o. eexists. split; [reflexivity|]. split; [exact S1|]. exists f. split; [exact G|reflexivity].
Qed.

Lemma one_tail_keeps : forall fuel ch (o : option Z), keeps (fun r => match o with
  | Some v => Ok (Some v, r)
  | None => e <- on_end r ;; match e with None => Ok (None, r <| r_cfst := 0 |>) | Some r2 => read_one fuel ch r2 end end).
Proof.
  intros fuel ch [v|] r c s E; [kept|]. apply bind_ok in E. destruct E as ([r2|] & E2 & E).
  - apply on_end_gets in E2. apply one_gets in E. eapply src_gets_trans; eauto.
  - kept.
Qed.

Lemma mir_one : forall c fuel ra rf, mir ra rf -> agree (read_one fuel c ra) (read_one fuel c rf).
Proof.
  intros c. induction fuel as [|fuel IH]; intros ra rf H; cbn [read_one]; [intros a r E; discriminate|].
  apply agree_bind; [now apply mir_next| |intro; apply one_tail_keeps]. intros [v|] r1 s1 H1; [now apply agree_ok|].
  intros a r2 E. apply bind_ok in E. destruct E as (o & E1 & E). pose proof (mir_on_end r1 s1 H1 o E1) as G.
  destruct o as [t|].
  - destruct G as (t' & -> & M). cbn [bind]. now apply (IH t t' M).
  - rewrite G. cbn [bind]. revert E. apply agree_ok.
    apply (mir_set (fun r => r <| r_cfst := 0 |>)); [reflexivity|reflexivity|exact H1].
Qed.

Lemma mir_channels : forall fuel todo c ra rf, mir ra rf -> agree (read_channels fuel todo c ra) (read_channels fuel todo c rf).
Proof.
  intros fuel. induction todo as [|todo IH]; intros c ra rf H; cbn [read_channels]; [now apply agree_ok|].
  apply agree_bind; [now apply mir_one| |intro; kept]. intros [v|] r1 s1 H1; [|now apply agree_ok].
  apply agree_bind; [now apply IH| |intro; kept]. intros o r2 s2 H2. now apply agree_ok.
Qed.

Lemma mir_spos : forall ra rf n, mir ra rf -> spos rf n = spos ra n.
Proof. intros ra rf n (_ & f & _ & ->). reflexivity. Qed.
Lemma mir_sts : forall ra rf n, mir ra rf -> sts rf n = sts ra n.
Proof. intros ra rf n (_ & f & _ & ->). reflexivity. Qed.
Ltac remir H := let S := fresh in let f := fresh in let G := fresh in destruct H as (S & f & G & ->); split; [exact S|exists f; split; [exact G|reflexivity]].

Lemma mir_fade : forall ra rf, mir ra rf -> agree1 (updateCrossfade ra) (updateCrossfade rf).
Proof.
  intros r s H. unfold updateCrossfade. cbv zeta.
  rewrite (mir_eq r_loop r s (fun _ _ _ => eq_refl) H), (mir_eq r_rate r s (fun _ _ _ => eq_refl) H), (mir_eq r_cfst r s (fun _ _ _ => eq_refl) H),
    (mir_eq r_lf r s (fun _ _ _ => eq_refl) H), (mir_eq r_ls r s (fun _ _ _ => eq_refl) H), (mir_eq r_cfdur r s (fun _ _ _ => eq_refl) H), (mir_eq r_pos1 r s (fun _ _ _ => eq_refl) H).
  rewrite !(mir_spos r s _ H). set (pp := loop_eqb (r_loop r) LPingpong).
  set (r1 := if dle d0 (r_rate r) then _ else _). set (s1 := if dle d0 (r_rate r) then _ else _).
  assert (S1 : mir r1 s1).
  { unfold r1, s1. destruct (dle d0 (r_rate r)); (destruct (_ && _); [|exact H]); remir H. }
  clearbody r1 s1. clear H.
  rewrite (mir_eq r_cfst r1 s1 (fun _ _ _ => eq_refl) S1), (mir_eq r_ls r1 s1 (fun _ _ _ => eq_refl) S1), (mir_eq r_lf r1 s1 (fun _ _ _ => eq_refl) S1),
    (mir_eq r_cfdur r1 s1 (fun _ _ _ => eq_refl) S1), (mir_eq r_nch r1 s1 (fun _ _ _ => eq_refl) S1), (mir_eq r_rate r1 s1 (fun _ _ _ => eq_refl) S1),
    (mir_eq r_pos2 r1 s1 (fun _ _ _ => eq_refl) S1), !(mir_spos r1 s1 _ S1), !(mir_sts r1 s1 _ S1).
  destruct (Z.eqb_spec (r_cfst r1) 1) as [C|C]; [|now apply agree1_ok].
  assert (FIN : agree1
    (Ok (if pp then (r1 <| r_pos1 := r_pos2 r1 |> <| r_cfst := 0 |>) <| r_rate := dneg (r_rate (r1 <| r_pos1 := r_pos2 r1 |> <| r_cfst := 0 |>)) |>
         else r1 <| r_pos1 := r_pos2 r1 |> <| r_cfst := 0 |>))
    (Ok (if pp then (s1 <| r_pos1 := r_pos2 r1 |> <| r_cfst := 0 |>) <| r_rate := dneg (r_rate (s1 <| r_pos1 := r_pos2 r1 |> <| r_cfst := 0 |>)) |>
         else s1 <| r_pos1 := r_pos2 r1 |> <| r_cfst := 0 |>))).
  { apply agree1_ok. destruct pp; remir S1. }
  assert (GAIN : forall x, agree1
    (if u32 (r_nch r1) =? 0 then UB UbDivZero else Ok (r1 <| r_cf := dsub d1 (ddiv (d_of_Z (u32 x / u32 (r_nch r1))) (d_of_Z (r_cfdur r1))) |>))
    (if u32 (r_nch r1) =? 0 then UB UbDivZero else Ok (s1 <| r_cf := dsub d1 (ddiv (d_of_Z (u32 x / u32 (r_nch r1))) (d_of_Z (r_cfdur r1))) |>))).
  { intro x. destruct (_ =? 0); [intros a E; discriminate|]. apply agree1_ok. remir S1. }
  destruct (xorb pp _).
  - destruct (_ <? _); [exact FIN|apply GAIN].
  - destruct (_ <? _); [exact FIN|apply GAIN].
Qed.

Lemma mir_advance : forall ra rf, mir ra rf -> agree1 (advance ra) (advance rf).
Proof.
  intros r s H. unfold advance. cbv zeta.
  rewrite (mir_eq r_rem r s (fun _ _ _ => eq_refl) H), (mir_eq r_rate r s (fun _ _ _ => eq_refl) H), (mir_eq r_nch r s (fun _ _ _ => eq_refl) H),
    (mir_eq r_pos1 r s (fun _ _ _ => eq_refl) H), (mir_eq r_pos2 r s (fun _ _ _ => eq_refl) H), (mir_eq r_cfst r s (fun _ _ _ => eq_refl) H), (mir_eq r_loop r s (fun _ _ _ => eq_refl) H).
  sync. sync. sync. sync; [|sync]; apply agree1_ok; remir H.
Qed.

Lemma frame_gets : forall fuel r o s, read_frame fuel r = Ok (o, s) -> src_gets (r_src r) (r_src s).
Proof. intros fuel r o s E. apply read_frame_statics in E. destruct E as [_ Q]. exact Q. Qed.

Lemma mir_frame : forall fuel ra rf, mir ra rf -> agree (read_frame fuel ra) (read_frame fuel rf).
Proof.
  intros fuel r s H. unfold read_frame. apply agree_bind1.
  - rewrite (mir_eq r_dual r s (fun _ _ _ => eq_refl) H). destruct (r_dual r); [now apply mir_fade|now apply agree1_ok].
  - intros r1 s1 H1. rewrite (mir_eq r_nch r1 s1 (fun _ _ _ => eq_refl) H1). apply agree_bind; [now apply mir_channels| |intro; kept].
    intros [vs|] r2 s2 H2; [|now apply agree_ok]. apply agree_bind1; [now apply mir_advance| |kept]. intros r3 s3 H3. now apply agree_ok.
  - kept.
Qed.

Lemma mir_loop : forall ifuel fuel ra rf n, mir ra rf -> agree (read_loop ifuel fuel ra n) (read_loop ifuel fuel rf n).
Proof.
  intros ifuel. induction fuel as [|fuel IH]; intros r s n H; cbn [read_loop].
  - destruct (n <=? 0); [now apply agree_ok|intros a ra E; discriminate].
  - destruct (n <=? 0); [now apply agree_ok|].
    rewrite (mir_eq r_nch r s (fun _ _ _ => eq_refl) H).
    apply agree_bind; [now apply mir_frame| |intro; kept]. intros [vs|] r1 s1 H1; [|now apply agree_ok].
    destruct (r_nch r =? 0); [now apply IH|]. apply agree_bind; [now apply IH| |intro; kept].
    intros l r2 s2 H2. now apply agree_ok.
Qed.

Lemma mir_read : forall fuel ra rf n, mir ra rf -> agree (r_read fuel ra n) (r_read fuel rf n).
Proof.
  intros fuel r s n H. unfold r_read. rewrite (mir_eq r_playing r s (fun _ _ _ => eq_refl) H), (mir_eq r_nch r s (fun _ _ _ => eq_refl) H).
  destruct (negb _); [now apply agree_ok|]. destruct (_ <? 0); [intros a ra E; discriminate|]. now apply mir_loop.
Qed.
End Mirror.
