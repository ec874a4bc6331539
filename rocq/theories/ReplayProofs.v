(* Replay on a used object: a simulation between two readers. *)

From Coq Require Import ZArith Lia List Bool.
From RecordUpdate Require Import RecordUpdate.
From Flocq Require Import IEEE754.BinarySingleNaN.
From Verif Require Import Machine Floats WavModel InterpModel CacheModel ReaderModel CacheFacts ReplaySpec.
Import ListNotations.
Local Open Scope Z_scope.

Definition pts_agree (i : interp) (n : Z) (p q : quad) : Prop :=
  match i with
  | INone => True
  | ILinear => y1 q = y1 p /\ (1 <= n -> y0 q = y0 p)
  | IQuadratic => (1 <= n -> y3 q = y3 p) /\ (2 <= n -> y2 q = y2 p) /\ (3 <= n -> y1 q = y1 p) /\ (4 <= n -> y0 q = y0 p)
  end.

(* i: the interpolation type *)
Record sim (i : interp) (r s : reader) : Prop := mkSim {
  sm_kind : r_kind s = r_kind r; sm_playing : r_playing s = r_playing r; sm_hdr : r_hdr s = r_hdr r;
  sm_rate : r_rate s = r_rate r; sm_rem : r_rem s = r_rem r; sm_loop : r_loop s = r_loop r; sm_pstart : r_pstart s = r_pstart r;
  sm_pos1 : r_pos1 s = r_pos1 r; sm_cf : r_cf s = r_cf r; sm_dual : r_dual s = r_dual r; sm_cfdur : r_cfdur s = r_cfdur r;
  sm_cfst : r_cfst s = r_cfst r; sm_ls : r_ls s = r_ls r; sm_lf : r_lf s = r_lf r; sm_fs : r_fsamples s = r_fsamples r;
  sm_nch : r_nch s = r_nch r; sm_src : r_src s = r_src r; sm_ir : r_interp r = i; sm_is : r_interp s = i;
  sm_pos2 : r_cfst r <> 0 -> r_pos2 s = r_pos2 r;
  sm_npts : forall c, 0 <= c < 8 -> r_npts s c = r_npts r c;
  sm_pts : forall c, 0 <= c < 8 -> pts_agree i (r_npts r c) (r_pts r c) (r_pts s c) }.

Definition agree {A} i (x y : res (A * reader)) : Prop :=
  match x, y with
  | Ok (a, r), Ok (b, s) => b = a /\ sim i r s
  | UB u, UB v => v = u
  | NoFuel, NoFuel => True
  | _, _ => False
  end.
Definition agree1 i (x y : res reader) : Prop :=
  match x, y with Ok r, Ok s => sim i r s | UB u, UB v => v = u | NoFuel, NoFuel => True | _, _ => False end.

Lemma agree_bind : forall i A B (x y : res (A * reader)) (k k' : A * reader -> res (B * reader)), agree i x y ->
  (forall a r s, sim i r s -> agree i (k (a, r)) (k' (a, s))) -> agree i (x' <- x ;; k x') (y' <- y ;; k' y').
Proof.
  intros i A B [[a r]|u|] [[b s]|v|] k k' H K; cbn in H; try contradiction; cbn [bind]; auto.
  destruct H as [-> S]. now apply K.
Qed.
Lemma agree_bind1 : forall i A (x y : res reader) (k k' : reader -> res (A * reader)), agree1 i x y ->
  (forall r s, sim i r s -> agree i (k r) (k' s)) -> agree i (x' <- x ;; k x') (y' <- y ;; k' y').
Proof. intros i A [r|u|] [s|v|] k k' H K; cbn in H; try contradiction; cbn [bind]; auto. Qed.
Lemma agree1_bind : forall i A (x y : res (A * reader)) (k k' : A * reader -> res reader), agree i x y ->
  (forall a r s, sim i r s -> agree1 i (k (a, r)) (k' (a, s))) -> agree1 i (x' <- x ;; k x') (y' <- y ;; k' y').
Proof.
  intros i A [[a r]|u|] [[b s]|v|] k k' H K; cbn in H; try contradiction; cbn [bind]; auto.
  destruct H as [-> S]. now apply K.
Qed.
Lemma agree1_bind1 : forall i (x y : res reader) (k k' : reader -> res reader), agree1 i x y ->
  (forall r s, sim i r s -> agree1 i (k r) (k' s)) -> agree1 i (x' <- x ;; k x') (y' <- y ;; k' y').
Proof. intros i [r|u|] [s|v|] k k' H K; cbn in H; try contradiction; cbn [bind]; auto. Qed.
Lemma agree_pure : forall i A B (x : res A) (k k' : A -> res (B * reader)), (forall a, x = Ok a -> agree i (k a) (k' a)) ->
  agree i (a <- x ;; k a) (a <- x ;; k' a).
Proof. intros i A B [a|u|] k k' K; cbn; auto. Qed.
Lemma agree1_pure : forall i A (x : res A) (k k' : A -> res reader), (forall a, x = Ok a -> agree1 i (k a) (k' a)) ->
  agree1 i (a <- x ;; k a) (a <- x ;; k' a).
Proof. intros i A [a|u|] k k' K; cbn; auto. Qed.

Lemma sim_get : forall t r s i, sim t r s -> agree t (getSourceBufferValue r i) (getSourceBufferValue s i).
Proof.
  intros t r s i H. unfold getSourceBufferValue. rewrite (sm_src _ _ _ H), (sm_kind _ _ _ H).
  destruct (r_src r) as [|m off|f]; [destruct (r_kind r); cbn; auto| |].
  - destruct (_ && _); cbn; auto.
  - destruct (if_get f i) as [v f']. cbn. split; [reflexivity|]. destruct H. constructor; cbn; auto.
Qed.
Lemma sim_getAt : forall t r s p o c, sim t r s -> agree t (getAt r p o c) (getAt s p o c).
Proof.
  intros t r s p o c H. unfold getAt. rewrite (sm_nch _ _ _ H). apply agree_pure. intros i1 _. apply agree_pure. intros i _.
  now apply sim_get.
Qed.

Lemma chan_range : forall c u, chan_ok c = Ok u -> 0 <= c < 8.
Proof. intros c u H. unfold chan_ok in H. destruct (Z.leb_spec 0 c), (Z.ltb_spec c 8); try discriminate. lia. Qed.

Lemma upd_at : forall A (f : Z -> A) c v x, upd f c v x = if x =? c then v else f x.
Proof. reflexivity. Qed.

Lemma sim_add : forall i r s c y, sim i r s -> agree1 i (addPoint r c y) (addPoint s c y).
Proof.
  intros i r s c y H. unfold addPoint. rewrite (sm_ir _ _ _ H), (sm_is _ _ _ H).
  pose proof H as [? ? ? ? ? ? ? ? ? ? ? ? ? ? ? ? ? ? ? ? HN HP].
  destruct i; [exact H| |]; (apply agree1_pure; intros u C; apply chan_range in C; pose proof (HN c C) as N; pose proof (HP c C) as P;
     cbn [pts_agree] in P; constructor; cbn; auto).
  - intros x X. rewrite !upd_at. rewrite N. destruct (x =? c); auto.
  - intros x X. rewrite !upd_at. destruct (Z.eqb_spec x c) as [->|]; [|now apply HP].
    cbn. split; [reflexivity|]. intro. apply P.
  - intros x X. rewrite !upd_at. rewrite N. destruct (x =? c); auto.
  - intros x X. rewrite !upd_at. destruct (Z.eqb_spec x c) as [->|]; [|now apply HP].
    cbn. destruct P as (P1 & P2 & P3 & P4). destruct (Z.ltb_spec (r_npts r c) 4); (split; [reflexivity|]; repeat split; intros; [apply P1|apply P2|apply P3]; lia).
Qed.

Lemma sim_y1 : forall r s c w, sim ILinear r s -> 0 <= c < 8 ->
  sim ILinear (r <| r_pts := upd (r_pts r) c (r_pts r c <| y1 := w |>) |>) (s <| r_pts := upd (r_pts s) c (r_pts s c <| y1 := w |>) |>).
Proof.
  intros r s c w H C. pose proof H as [? ? ? ? ? ? ? ? ? ? ? ? ? ? ? ? ? ? ? ? HN HP]. constructor; cbn; auto.
  intros x X. rewrite !upd_at. destruct (Z.eqb_spec x c) as [->|]; [|now apply HP].
  specialize (HP c C). cbn in *. split; [reflexivity|]. apply HP.
Qed.

Lemma sim_fetch : forall i r s c, sim i r s -> agree i (fetch_value r c) (fetch_value s c).
Proof.
  intros i r s c H. unfold fetch_value. rewrite (sm_dual _ _ _ H), (sm_cfst _ _ _ H), (sm_cf _ _ _ H), (sm_pos1 _ _ _ H).
  destruct (negb (r_dual r) || (r_cfst r =? 0)) eqn:D; [now apply sim_getAt|].
  assert (P2 : r_pos2 s = r_pos2 r).
  { apply (sm_pos2 _ _ _ H). apply orb_false_iff in D. destruct D as [_ D]. now apply Z.eqb_neq. }
  rewrite P2. destruct (deq (r_cf r) d0); [now apply sim_getAt|].
  apply agree_bind; [now apply sim_getAt|]. intros v1 r1 s1 H1. apply agree_bind; [now apply sim_getAt|].
  intros v2 r2 s2 H2. apply agree_pure. intros v _. split; auto.
Qed.

Ltac sync :=
  match goal with
  | |- agree _ (if ?b then _ else _) (if ?b then _ else _) => destruct b
  | |- agree1 _ (if ?b then _ else _) (if ?b then _ else _) => destruct b
  | |- agree _ (bind ?x _) (bind ?x _) => apply agree_pure; intros ? ?
  | |- agree1 _ (bind ?x _) (bind ?x _) => apply agree1_pure; intros ? ?
  end.

Lemma sim_linear : forall r s c v, sim ILinear r s -> agree ILinear (linear_value r c v) (linear_value s c v).
Proof.
  intros r s c v H. unfold linear_value. cbv zeta.
  rewrite (sm_rem _ _ _ H), (sm_rate _ _ _ H), (sm_dual _ _ _ H), (sm_pos1 _ _ _ H), (sm_nch _ _ _ H), (sm_hdr _ _ _ H).
  sync.
  - apply agree_bind1.
    + sync; sync; try exact H; try sync; try exact H.
      * apply agree1_bind1; [|intros; now apply sim_add]. sync; [exact H|]. sync. match goal with K : chan_ok c = _ |- _ => apply chan_range in K; rename K into C end.
        rewrite (sm_npts _ _ _ H c C). sync; [|exact H]. sync. sync. sync; [|exact H].
        apply agree1_bind; [now apply sim_getAt|]. intros w r2 s2 G. now apply sim_y1.
      * apply agree1_bind1; [|intros; now apply sim_add]. sync; [exact H|]. sync. match goal with K : chan_ok c = _ |- _ => apply chan_range in K; rename K into C end.
        rewrite (sm_npts _ _ _ H c C). sync; [|exact H].
        apply agree1_bind; [now apply sim_getAt|]. intros w r2 s2 G. now apply sim_y1.
    + intros r1 s1 H1. sync. match goal with K : chan_ok c = _ |- _ => apply chan_range in K; rename K into C end.
      rewrite (sm_npts _ _ _ H1 c C). pose proof (sm_pts _ _ _ H1 c C) as P. cbn in P.
      destruct (Z.ltb_spec 1 (r_npts r1 c)) as [L|L]; [|split; auto].
      destruct P as [-> P]. rewrite P by lia. sync. split; auto.
  - unfold addPoint. rewrite (sm_ir _ _ _ H), (sm_is _ _ _ H). destruct (chan_ok c) as [u| |] eqn:C; cbn [bind agree]; auto.
    pose proof (sim_add ILinear r s c v H) as G. unfold addPoint in G. rewrite (sm_ir _ _ _ H), (sm_is _ _ _ H), C in G. cbn [bind agree1] in G.
    apply chan_range in C. split; [|exact G]. cbn. unfold upd. rewrite Z.eqb_refl. cbn. exact (proj1 (sm_pts _ _ _ H c C)).
Qed.

Lemma sim_push : forall fwd c n r s, sim IQuadratic r s -> agree1 IQuadratic (push_points n fwd r c) (push_points n fwd s c).
Proof.
  intros fwd c. induction n as [|n IH]; intros r s H; cbn [push_points]; [exact H|].
  rewrite (sm_pos1 _ _ _ H). apply agree1_bind; [now apply sim_getAt|]. intros v r1 s1 H1.
  rewrite (sm_dual _ _ _ H), (sm_cfst _ _ _ H), (sm_loop _ _ _ H), (sm_cf _ _ _ H).
  apply agree1_bind.
  - destruct (r_dual r && negb (r_cfst r =? 0)) eqn:D; [|split; auto].
    rewrite (sm_pos2 _ _ _ H). 2:{ apply andb_prop in D. destruct D as [_ D]. apply negb_true_iff in D. now apply Z.eqb_neq. }
    apply agree_bind; [now apply sim_getAt|]. intros w r2 s2 H2. sync. split; auto.
  - intros y r2 s2 H2. apply agree1_bind1; [now apply sim_add|]. exact IH.
Qed.

Lemma sim_quadratic : forall r s c v, sim IQuadratic r s -> agree IQuadratic (quadratic_value r c v) (quadratic_value s c v).
Proof.
  intros r s c v H. unfold quadratic_value. cbv zeta. rewrite (sm_rem _ _ _ H), (sm_rate _ _ _ H).
  apply agree_bind1.
  - sync; sync; try exact H; try sync; try exact H; try sync; now apply sim_push.
  - intros r1 s1 H1. sync. match goal with K : chan_ok c = _ |- _ => apply chan_range in K; rename K into C end.
    rewrite (sm_npts _ _ _ H1 c C). pose proof (sm_pts _ _ _ H1 c C) as P. cbn in P. destruct P as (P1 & P2 & P3 & P4).
    destruct (Z.leb_spec 4 (r_npts r1 c)) as [L|L]; [|split; auto].
    rewrite P1, P2, P3, P4 by lia. sync. split; auto.
Qed.

Lemma sim_end : forall i r s, sim i r s -> at_end s = at_end r.
Proof.
  intros i r s H. unfold at_end, spos, sts.
  rewrite (sm_dual _ _ _ H), (sm_rate _ _ _ H), (sm_loop _ _ _ H), (sm_hdr _ _ _ H), (sm_fs _ _ _ H), (sm_nch _ _ _ H),
    (sm_pos1 _ _ _ H), (sm_lf _ _ _ H), (sm_ls _ _ _ H), (sm_pstart _ _ _ H). reflexivity.
Qed.

Lemma sim_next : forall i r s c, sim i r s -> agree i (readNextValue r c) (readNextValue s c).
Proof.
  intros i r s c H. unfold readNextValue. rewrite (sim_end _ _ _ H), (sm_ir _ _ _ H), (sm_is _ _ _ H).
  destruct (at_end r); [split; auto|]. apply agree_bind; [now apply sim_fetch|]. intros v r1 s1 H1.
  apply agree_bind; [|intros w r2 s2 H2; split; auto].
  destruct i; [split; auto|now apply sim_linear|now apply sim_quadratic].
Qed.

Definition agree_opt i (x y : res (option reader)) : Prop :=
  match x, y with Ok (Some r), Ok (Some s) => sim i r s | Ok None, Ok None => True | UB u, UB v => v = u | NoFuel, NoFuel => True | _, _ => False end.

Ltac resim H := destruct H; constructor; cbn in *; auto; try congruence; try (intro; contradiction).

Lemma sim_cfst0 : forall i r s, sim i r s -> sim i (r <| r_cfst := 0 |>) (s <| r_cfst := 0 |>).
Proof. intros i r s H. resim H. Qed.
Lemma sim_pos : forall i r s p, sim i r s -> sim i (r <| r_pos1 := p |>) (s <| r_pos1 := p |>).
Proof. intros i r s p H. resim H. Qed.
Lemma sim_setrate : forall i r s x, sim i r s -> sim i (r <| r_rate := x |>) (s <| r_rate := x |>).
Proof. intros i r s x H. resim H. Qed.
Lemma sim_spos : forall i r s n, sim i r s -> spos s n = spos r n.
Proof. intros i r s n H. unfold spos, sts. now rewrite (sm_hdr _ _ _ H), (sm_nch _ _ _ H). Qed.
Lemma sim_sts : forall i r s n, sim i r s -> sts s n = sts r n.
Proof. intros i r s n H. unfold sts. now rewrite (sm_hdr _ _ _ H), (sm_nch _ _ _ H). Qed.

Lemma sim_on_end : forall i r s, sim i r s -> agree_opt i (on_end r) (on_end s).
Proof.
  intros i r s H0. unfold on_end. cbv zeta. apply sim_cfst0 in H0. revert H0.
  set (r1 := r <| r_cfst := 0 |>). set (s1 := s <| r_cfst := 0 |>). clearbody r1 s1. intro H.
  rewrite (sm_loop _ _ _ H), (sm_rate _ _ _ H), (sm_lf _ _ _ H), (sm_nch _ _ _ H), (sm_ls _ _ _ H), (sm_pstart _ _ _ H), (sm_hdr _ _ _ H).
  destruct (r_loop r1); [exact I| |].
  - destruct (dle d0 (r_rate r1)).
    + cbn. rewrite (sim_spos _ _ _ _ H). now apply sim_pos.
    + destruct (chk32 _) as [n| |]; cbn; auto. rewrite (sim_spos _ _ _ _ H). now apply sim_pos.
  - destruct (dle d0 (r_rate r1)).
    + destruct (chk32 _) as [n| |]; cbn; auto. rewrite (sim_spos _ _ _ _ H). now apply sim_setrate, sim_pos.
    + cbn. rewrite (sim_spos _ _ _ _ H). destruct (r_pstart r1); now apply sim_setrate, sim_pos.
Qed.

Lemma sim_one : forall i c fuel r s, sim i r s -> agree i (read_one fuel c r) (read_one fuel c s).
Proof.
  intros i c. induction fuel as [|fuel IH]; intros r s H; cbn [read_one]; [exact I|].
  apply agree_bind; [now apply sim_next|]. intros [v|] r1 s1 H1; [split; auto|].
  pose proof (sim_on_end _ _ _ H1) as G.
  destruct (on_end r1) as [[r2|]| |], (on_end s1) as [[s2|]| |]; cbn in G; try contradiction; cbn [bind]; auto.
  split; [reflexivity|]. now apply sim_cfst0.
Qed.

Lemma sim_channels : forall i fuel todo c r s, sim i r s -> agree i (read_channels fuel todo c r) (read_channels fuel todo c s).
Proof.
  intros i fuel. induction todo as [|todo IH]; intros c r s H; cbn [read_channels]; [split; auto|].
  apply agree_bind; [now apply sim_one|]. intros [v|] r1 s1 H1; [|split; auto].
  apply agree_bind; [now apply IH|]. intros o r2 s2 H2. split; auto.
Qed.

Lemma sim_fade : forall i r s, sim i r s -> agree1 i (updateCrossfade r) (updateCrossfade s).
Proof.
  intros i r s H. unfold updateCrossfade. cbv zeta.
  rewrite (sm_loop _ _ _ H), (sm_rate _ _ _ H), (sm_cfst _ _ _ H), (sm_lf _ _ _ H), (sm_ls _ _ _ H), (sm_cfdur _ _ _ H), (sm_pos1 _ _ _ H).
  rewrite !(sim_spos _ _ _ _ H). set (pp := loop_eqb (r_loop r) LPingpong).
  set (r1 := if dle d0 (r_rate r) then _ else _). set (s1 := if dle d0 (r_rate r) then _ else _).
  assert (S1 : sim i r1 s1).
  { unfold r1, s1. destruct (dle d0 (r_rate r)); (destruct (_ && _); [|exact H]); resim H. }
  assert (LP : r_loop r1 = r_loop r).
  { unfold r1. destruct (dle d0 (r_rate r)); destruct (_ && _); reflexivity. }
  clearbody r1 s1. rewrite (sm_cfst _ _ _ S1). destruct (Z.eqb_spec (r_cfst r1) 1) as [C|C]; [|exact S1].
  pose proof (sm_pos2 _ _ _ S1 ltac:(lia)) as P2. rewrite P2.
  rewrite (sm_ls _ _ _ S1), (sm_lf _ _ _ S1), (sm_cfdur _ _ _ S1), (sm_nch _ _ _ S1), (sm_rate _ _ _ S1).
  rewrite !(sim_spos _ _ _ _ S1), !(sim_sts _ _ _ _ S1).
  assert (FIN : agree1 i
    (Ok (if pp then (r1 <| r_pos1 := r_pos2 r1 |> <| r_cfst := 0 |>) <| r_rate := dneg (r_rate (r1 <| r_pos1 := r_pos2 r1 |> <| r_cfst := 0 |>)) |>
         else r1 <| r_pos1 := r_pos2 r1 |> <| r_cfst := 0 |>))
    (Ok (if pp then (s1 <| r_pos1 := r_pos2 r1 |> <| r_cfst := 0 |>) <| r_rate := dneg (r_rate (s1 <| r_pos1 := r_pos2 r1 |> <| r_cfst := 0 |>)) |>
         else s1 <| r_pos1 := r_pos2 r1 |> <| r_cfst := 0 |>))).
  { destruct pp; cbn; resim S1. }
  assert (GAIN : forall x, agree1 i
    (if u32 (r_nch r1) =? 0 then UB UbDivZero else Ok (r1 <| r_cf := dsub d1 (ddiv (d_of_Z (u32 x / u32 (r_nch r1))) (d_of_Z (r_cfdur r1))) |>))
    (if u32 (r_nch r1) =? 0 then UB UbDivZero else Ok (s1 <| r_cf := dsub d1 (ddiv (d_of_Z (u32 x / u32 (r_nch r1))) (d_of_Z (r_cfdur r1))) |>))).
  { intro x. destruct (_ =? 0); [reflexivity|]. cbn. resim S1. }
  destruct (xorb pp _).
  - destruct (_ <? _); [exact FIN|apply GAIN].
  - destruct (_ <? _); [exact FIN|apply GAIN].
Qed.

Lemma sim_advance : forall i r s, sim i r s -> agree1 i (advance r) (advance s).
Proof.
  intros i r s H. unfold advance. cbv zeta.
  rewrite (sm_rem _ _ _ H), (sm_rate _ _ _ H), (sm_nch _ _ _ H), (sm_pos1 _ _ _ H), (sm_cfst _ _ _ H), (sm_loop _ _ _ H).
  sync. sync. sync. destruct (Z.eqb_spec (r_cfst r) 0) as [C|C].
  - cbn. resim H.
  - rewrite (sm_pos2 _ _ _ H C). sync. cbn. resim H.
Qed.

Lemma sim_frame : forall i fuel r s, sim i r s -> agree i (read_frame fuel r) (read_frame fuel s).
Proof.
  intros i fuel r s H. unfold read_frame. apply agree_bind1.
  - rewrite (sm_dual _ _ _ H). destruct (r_dual r); [now apply sim_fade|exact H].
  - intros r1 s1 H1. rewrite (sm_nch _ _ _ H1). apply agree_bind; [now apply sim_channels|].
    intros [vs|] r2 s2 H2; [|split; auto]. apply agree_bind1; [now apply sim_advance|]. intros r3 s3 H3. split; auto.
Qed.

Lemma sim_loop : forall i ifuel fuel r s n, sim i r s -> agree i (read_loop ifuel fuel r n) (read_loop ifuel fuel s n).
Proof.
  intros i ifuel. induction fuel as [|fuel IH]; intros r s n H; cbn [read_loop].
  - destruct (n <=? 0); [split; auto|exact I].
  - destruct (n <=? 0); [split; auto|]. apply agree_bind; [now apply sim_frame|]. intros [vs|] r1 s1 H1; [|split; auto].
    rewrite (sm_nch _ _ _ H). destruct (r_nch r =? 0); [now apply IH|]. apply agree_bind; [now apply IH|].
    intros l r2 s2 H2. split; auto.
Qed.

Lemma sim_read : forall i fuel r s n, sim i r s -> agree i (r_read fuel r n) (r_read fuel s n).
Proof.
  intros i fuel r s n H. unfold r_read. rewrite (sm_playing _ _ _ H), (sm_nch _ _ _ H). destruct (negb _); [split; auto|].
  destruct (_ <? 0); [reflexivity|]. now apply sim_loop.
Qed.

Lemma sim_reload : forall i fuel r s, sim i r s -> agree1 i (r_triggerReload fuel r) (r_triggerReload fuel s).
Proof.
  intros i fuel r s H. unfold r_triggerReload. rewrite (sm_src _ _ _ H), (sm_rate _ _ _ H), ?(sm_kind _ _ _ H).
  destruct (r_src r) as [|m o|f]; cbn; auto; try (destruct (r_kind r); cbn; auto; fail).
  apply agree1_pure. intros f' _. cbn. destruct H. constructor; cbn; auto.
Qed.

Lemma sim_reads : forall i fuel ns r s, sim i r s -> reads fuel s ns = reads fuel r ns.
Proof.
  intros i fuel. induction ns as [|[n b] ns IH]; intros r s H; cbn [reads]; [reflexivity|].
  pose proof (sim_read i fuel r s n H) as G.
  destruct (r_read fuel r n) as [[l r1]| |], (r_read fuel s n) as [[l' s1]| |]; cbn in G; try contradiction; cbn [bind]; auto; [|now rewrite G].
  destruct G as [-> G].
  assert (G2 : agree1 i (if b then r_triggerReload fuel r1 else Ok r1) (if b then r_triggerReload fuel s1 else Ok s1)).
  { destruct b; [now apply sim_reload|exact G]. }
  destruct (if b then r_triggerReload fuel r1 else Ok r1) as [r2|u|], (if b then r_triggerReload fuel s1 else Ok s1) as [s2|v|];
    cbn in G2; try contradiction; cbn [bind]; auto; [|now rewrite G2]. now rewrite (IH _ _ G2).
Qed.

(* ---- play() ---- *)

Record base (i : interp) (r s : reader) : Prop := mkBase {
  ba_kind : r_kind s = r_kind r; ba_cfg : r_cfg s = r_cfg r; ba_playing : r_playing s = r_playing r; ba_rate : r_rate s = r_rate r;
  ba_rem : r_rem s = r_rem r; ba_loop : r_loop s = r_loop r; ba_pstart : r_pstart s = r_pstart r; ba_pbstart : r_pbstart s = r_pbstart r;
  ba_dual : r_dual s = r_dual r; ba_cfdur : r_cfdur s = r_cfdur r; ba_src : r_src s = r_src r; ba_ir : r_interp r = i; ba_is : r_interp s = i;
  ba_fsize : r_fsize s = r_fsize r; ba_bounds : r_loop r <> LNone -> r_ls s = r_ls r /\ r_lf s = r_lf r;
  ba_lin : i = ILinear -> forall c, y1 (r_pts s c) = y1 (r_pts r c) }.

Definition hdr_same (r s : reader) : Prop := r_hdr s = r_hdr r /\ r_fsamples s = r_fsamples r /\ r_nch s = r_nch r.
Definition bounds_same (r s : reader) : Prop := r_ls s = r_ls r /\ r_lf s = r_lf r.

Lemma reset_agree : forall i r s, base i r s -> hdr_same r s -> bounds_same r s -> agree1 i (r_reset r) (r_reset s).
Proof.
  intros i r s B (H1 & H2 & H3) (L1 & L2). destruct B. unfold r_reset, spos, sts.
  rewrite ba_rate0, ba_pstart0, ba_pbstart0, ba_fsize0, H1, H3, L1, L2.
  apply agree1_pure. intros p _. cbn. constructor; cbn; auto; try congruence.
  - intros c C. destruct (Z.leb_spec 0 c), (Z.ltb_spec c 8); cbn; lia.
  - intros c C. destruct (Z.leb_spec 0 c), (Z.ltb_spec c 8); try lia. cbn.
    destruct i; cbn; auto; [|repeat split; intros; lia]. split; [now apply ba_lin0|intros; lia].
Qed.

Lemma sim_playing : forall i r s b, sim i r s -> sim i (r <| r_playing := b |>) (s <| r_playing := b |>).
Proof. intros i r s b []. constructor; cbn; auto. Qed.

Lemma raw_agree : forall r s m off len nch, same_settings r s -> same_leftovers r s ->
  agree1 (r_interp r) (playRaw_array r m off len nch) (playRaw_array s m off len nch).
Proof.
  intros r s m off len nch (K & C & RT & LP & PS & PB & D & CF & I) (RM & LI). unfold playRaw_array. cbv zeta.
  apply agree1_bind1; [|intros a b S; now apply sim_playing].
  apply reset_agree; [constructor|split; [|split]|split]; cbn; auto.
Qed.

Lemma starts_agree1 : forall i fuel (x y : res reader) ns, agree1 i x y ->
  starts fuel (r <- y ;; Ok (true, r)) ns = starts fuel (r <- x ;; Ok (true, r)) ns.
Proof.
  intros i fuel x y ns H. unfold starts. destruct x as [r|u|], y as [s|v|]; cbn in H; try contradiction; cbn [bind]; auto; [|now rewrite H].
  now rewrite (sim_reads _ _ _ _ _ H).
Qed.

Theorem replay_raw : forall fuel r s m off len nch ns, same_settings r s -> same_leftovers r s ->
  starts fuel (x <- playRaw_array s m off len nch ;; Ok (true, x)) ns = starts fuel (x <- playRaw_array r m off len nch ;; Ok (true, x)) ns.
Proof. intros. eapply starts_agree1. now apply raw_agree. Qed.

Theorem replay_wav : forall fuel r s m ns, same_settings r s -> same_leftovers r s ->
  starts fuel (playWav_array s m) ns = starts fuel (playWav_array r m) ns.
Proof.
  intros fuel r s m ns S L. unfold playWav_array. cbv zeta.
  destruct (readWaveHeaderFromBuffer _ _ _) as [[ok h]| |]; cbn [bind]; [|reflexivity..].
  destruct (negb ok); [reflexivity|].
  destruct (readInfoTags _ _) as [[n|]| |]; cbn [bind]; [|reflexivity..].
  destruct (readDataHeader _ _) as [[db|]| |]; cbn [bind]; [|reflexivity..].
  destruct (_ =? 0); [reflexivity|]. now apply replay_raw.
Qed.

(* files *)
Definition agree_hdr i (x y : res (option Z * reader)) : Prop :=
  match x, y with
  | Ok (Some p, r), Ok (Some q, s) => q = p /\ base i r s /\ hdr_same r s
  | Ok (None, _), Ok (None, _) => True
  | UB u, UB v => v = u
  | NoFuel, NoFuel => True
  | _, _ => False
  end.

Lemma header_agree : forall i r s f stack, base i r s -> agree_hdr i (play_header r f stack) (play_header s f stack).
Proof.
  intros i r s f stack B. unfold play_header. rewrite (ba_cfg _ _ _ B). cbv zeta.
  destruct (readWaveHeaderFromBuffer _ _ _) as [[ok h]| |]; cbn [bind]; [|reflexivity..].
  destruct (negb _); [exact I|]. destruct (readInfoTags _ _) as [[n|]| |]; cbn [bind]; [|reflexivity..].
  destruct (readDataHeader _ _) as [[db|]| |]; cbn [bind]; [|reflexivity..].
  cbn [agree_hdr]. destruct B. split; [reflexivity|]. split; [constructor; cbn; auto|]. repeat split.
Qed.

Definition all_same i (r s : reader) : Prop := base i r s /\ hdr_same r s /\ bounds_same r s.
Lemma type_agree : forall i r s l, all_same i r s -> l = r_loop r -> all_same i (setLoopType r l) (setLoopType s l).
Proof.
  intros i r s l (B & (H1 & H2 & H3) & (L1 & L2)) ->. destruct B. unfold setLoopType. rewrite ba_src0.
  destruct (r_src r) eqn:SR; repeat split; cbn; auto; congruence.
Qed.
Lemma lstart_agree : forall i r s v, all_same i r s -> all_same i (setLoopStart r v) (setLoopStart s v).
Proof.
  intros i r s v (B & (H1 & H2 & H3) & (L1 & L2)). destruct B. unfold setLoopStart, spos, sts. cbv zeta. cbn [r_src r_hdr r_ls r_nch].
  change (r_src (s <| r_ls := s32 v |>)) with (r_src s). change (r_src (r <| r_ls := s32 v |>)) with (r_src r). rewrite ba_src0.
  destruct (r_src r) eqn:SR; repeat split; cbn; auto; congruence.
Qed.
Lemma lfinish_agree : forall i r s v, all_same i r s -> all_same i (setLoopFinish r v) (setLoopFinish s v).
Proof.
  intros i r s v (B & (H1 & H2 & H3) & (L1 & L2)). destruct B. unfold setLoopFinish, spos, sts. cbv zeta.
  change (r_src (s <| r_lf := s32 v |>)) with (r_src s). change (r_src (r <| r_lf := s32 v |>)) with (r_src r). rewrite ba_src0.
  destruct (r_src r) eqn:SR; repeat split; cbn; auto; congruence.
Qed.

Lemma copy_agree : forall i r s, all_same i r s -> all_same i (copy_loop r) (copy_loop s).
Proof.
  intros i r s A. unfold copy_loop. cbv zeta. rewrite (ba_loop _ _ _ (proj1 A)).
  pose proof (type_agree _ _ _ (r_loop r) A eq_refl) as A1. set (a := setLoopType r _) in *. set (b := setLoopType s _) in *.
  assert (E1 : r_ls b = r_ls a) by apply A1. rewrite E1.
  pose proof (lstart_agree _ _ _ (r_ls a) A1) as A2. set (a2 := setLoopStart a _) in *. set (b2 := setLoopStart b _) in *.
  assert (E2 : r_lf b2 = r_lf a2) by apply A2. rewrite E2. now apply lfinish_agree.
Qed.

Lemma start_agree : forall i r s, base i r s -> hdr_same r s -> bounds_same r s ->
  agree i (start_file r) (start_file s).
Proof.
  intros i r s B H L. unfold start_file. apply agree_bind1; [now apply reset_agree|]. intros a b S.
  rewrite (sm_src _ _ _ S), (sm_pos1 _ _ _ S), (sm_rate _ _ _ S). destruct (r_src a) as [|m off|g]; [reflexivity..|].
  destruct (preLoadBuffers _ _ _) as [[z g']| |]; cbn [bind]; [|reflexivity..]. cbn. split; [reflexivity|].
  destruct S. constructor; cbn; auto.
Qed.

Definition agree_start i (x y : res (bool * reader)) : Prop :=
  match x, y with
  | Ok (true, r), Ok (true, s) => sim i r s
  | Ok (false, _), Ok (false, _) => True
  | UB u, UB v => v = u
  | NoFuel, NoFuel => True
  | _, _ => False
  end.
Lemma agree_is_start : forall i x y, agree i x y -> agree_start i x y.
Proof. intros i [[[] r]| |] [[[] s]| |]; cbn; try tauto; intros []; congruence. Qed.
Lemma starts_agree : forall i fuel x y ns, agree_start i x y -> starts fuel y ns = starts fuel x ns.
Proof.
  intros i fuel x y ns H. unfold starts. destruct x as [[[] r]|u|], y as [[[] s]|v|]; cbn in H; try contradiction; cbn [bind]; auto; [|now rewrite H].
  now rewrite (sim_reads _ _ _ _ _ H).
Qed.

Lemma open_agree : forall i r s f p g, base i r s -> hdr_same r s ->
  agree_start i (play_open r f p g) (play_open s f p g).
Proof.
  intros i r s f p g B (H1 & H2 & H3). unfold play_open. rewrite (ba_fsize _ _ _ B), H1, H2, H3.
  destruct (_ <=? _); [exact I|]. destruct (sdiv32 _ _) as [fs| |]; cbn [bind]; [|reflexivity..].
  apply agree_is_start. assert (X : let a := open_src r fs f p g in let b := open_src s fs f p g in base i a b /\ hdr_same a b /\ bounds_same a b).
  { cbv zeta. unfold open_src. rewrite (ba_loop _ _ _ B), (ba_cfg _ _ _ B).
    destruct B. destruct (r_loop r) eqn:LP; (split; [constructor; cbn; auto; try congruence|split; [repeat split; cbn; auto|]]);
      try (split; cbn; auto; fail); try (split; cbn; apply ba_bounds0; congruence).
    all: intro; cbn; apply ba_bounds0; congruence. }
  cbv zeta in X. destruct X as (X1 & X2 & X3). destruct (copy_agree i (open_src r fs f p g) (open_src s fs f p g)) as (Y1 & Y2 & Y3); [exact (conj X1 (conj X2 X3))|]. now apply start_agree.
Qed.

Theorem replay_file : forall fuel r s fo isw nraw stack g ns, same_settings r s -> same_leftovers r s -> same_bounds r s ->
  (isw = false -> r_hdr s = r_hdr r) ->
  starts fuel (r_play_file s fo isw nraw stack g) ns = starts fuel (r_play_file r fo isw nraw stack g) ns.
Proof.
  intros fuel r s fo isw nraw stack g ns (K & C & RT & LP & PS & PB & D & CF & I) (RM & LI) BO HD.
  apply (starts_agree (r_interp r)). unfold r_play_file. cbv zeta.
  assert (E : r_kind (r_close r) = r_kind r /\ r_kind (r_close s) = r_kind r).
  { unfold r_close. rewrite K. destruct (r_kind r) eqn:KR; cbn; rewrite ?K; auto. }
  assert (E' : forall x, r_kind ((if isw then x else setNumChannels x nraw) <| r_fname := true |> <| r_live := r_live (if isw then x else setNumChannels x nraw) + 1 |>) = r_kind x).
  { intro x. destruct isw; reflexivity. }
  rewrite !E'. destruct E as [-> ->]. destruct (r_kind r) eqn:KR; [exact Logic.I|..];
    (destruct fo as [f|]; [|exact Logic.I]);
    (destruct isw;
     [ match goal with |- agree_start _ (bind (play_header ?x ?f ?st) _) (bind (play_header ?y _ _) _) =>
         assert (H : agree_hdr (r_interp r) (play_header x f st) (play_header y f st)) end;
       [ apply header_agree; unfold r_close; rewrite K, KR; constructor; cbn; auto; congruence
       | destruct (play_header _ f stack) as [[[p|] x]| |], (play_header _ f stack) as [[[q|] y]| |]; cbn in H; try contradiction; cbn [bind]; auto;
         destruct H as (-> & B & H); now apply open_agree ]
     | cbn [bind]; unfold r_close; rewrite K, KR; apply open_agree; [constructor; cbn; auto; congruence|repeat split; cbn; auto] ]).
Qed.

(* ---- whole-number rates leave no fraction behind ---- *)
From Coq Require Import Reals Lra.
From Flocq Require Import Core.Core.
From Verif Require Import FloatFacts ReaderFacts LifeProofs.
Local Open Scope Z_scope.

Lemma d_of_Z_neg : forall k, k <> 0 -> Z.abs k < 2 ^ 31 -> dneg (d_of_Z k) = d_of_Z (- k).
Proof.
  intros k K B. destruct (d_of_Z_ok k) as [A F]; [lia|]. destruct (d_of_Z_ok (- k)) as [A' F']; [lia|].
  apply B2R_inj.
  - apply is_finite_strict_B2R. rewrite R64_neg, A. rewrite <- opp_IZR. apply IZR_neq. lia.
  - apply is_finite_strict_B2R. rewrite A'. apply IZR_neq. lia.
  - rewrite R64_neg, A, A'. now rewrite opp_IZR.
Qed.

Lemma d0_plus : forall k, k <> 0 -> Z.abs k < 2 ^ 31 -> dadd d0 (d_of_Z k) = d_of_Z k.
Proof.
  intros k K B. destruct (d_of_Z_ok k) as [A F]; [lia|].
  assert (NZ : R64 (d_of_Z k) <> 0%R) by (rewrite A; apply IZR_neq; lia).
  destruct (dadd_ok d0 (d_of_Z k) fin_d0 F) as [S1 S2].
  { rewrite R64_d0, Rplus_0_l, A, <- abs_IZR. rewrite bpow_IZR by lia. apply IZR_le.
    apply Z.le_trans with (2 ^ 31); [lia|]. apply Z.pow_le_mono_r; lia. }
  rewrite R64_d0, Rplus_0_l, (rnd64_id _ (fmt64_R64 _)) in S1.
  apply B2R_inj; [|now apply is_finite_strict_B2R|exact S1].
  apply is_finite_strict_B2R. now rewrite S1.
Qed.

Lemma dsub_self : forall x, fin64 x = true -> dsub x x = d0.
Proof.
  intros x F. destruct (dsub_ok x x F F) as [S1 S2].
  { rewrite Rminus_diag_eq by reflexivity. rewrite Rabs_R0. apply bpow_ge_0. }
  rewrite Rminus_diag_eq in S1 by reflexivity. unfold dsub in *.
  pose proof (Bminus_correct 53 1024 _ _ mode_NE x x F F) as C.
  rewrite Rminus_diag_eq, round_0, Rabs_R0 in C by (reflexivity || typeclasses eauto).
  rewrite Rlt_bool_true in C by apply bpow_gt_0. destruct C as (C1 & C2 & C3).
  rewrite Rcompare_Eq in C3 by reflexivity. cbn in C3.
  unfold fin64 in *.
  destruct (Bminus mode_NE x x) as [s|s| |s m e H]; cbn in C1, C2, C3; try discriminate.
  - subst s. now destruct (Bsign x).
  - exfalso. destruct s; revert C1.
    + intro C1. assert (F2R (Float radix2 (Z.neg m) e) < 0)%R by (now apply F2R_lt_0). cbn in *. lra.
    + intro C1. assert (0 < F2R (Float radix2 (Z.pos m) e))%R by (now apply F2R_gt_0). cbn in *. lra.
Qed.

(* x: the rate, as long as nothing turns it round *)
Definition clean (x : b64) (r : reader) : Prop := r_rem r = d0 /\ whole_rate r /\ (r_loop r <> LPingpong -> r_rate r = x).

Lemma quiet_clean : forall x r r', quiet r r' -> clean x r -> clean x r'.
Proof.
  intros x r r' [E _] (C1 & C2 & C4). pose proof (f_equal r_rem E) as E1. pose proof (f_equal r_loop E) as E3. pose proof (f_equal r_rate E) as E2. unfold erase in E1, E2, E3. cbn in E1, E2, E3.
  split; [congruence|]. split; [|rewrite <- E2, <- E3; exact C4]. destruct C2 as (k & K1 & K2 & K3). exists k. repeat split; auto. congruence.
Qed.
Lemma whole_neg : forall r, whole_rate r -> whole_rate (r <| r_rate := dneg (r_rate r) |>).
Proof.
  intros r (k & K1 & K2 & K3). exists (- k). split; [lia|]. split; [lia|]. cbn. rewrite K3. now apply d_of_Z_neg.
Qed.
Lemma on_end_clean : forall x r r', on_end r = Ok (Some r') -> clean x r -> clean x r'.
Proof.
  intros x r r' H (C1 & C2 & C4). unfold on_end in H. cbv zeta in H. cbn [r_loop] in H.
  change (r_loop (r <| r_cfst := 0 |>)) with (r_loop r) in H. change (r_rate (r <| r_cfst := 0 |>)) with (r_rate r) in H.
  pose proof (whole_neg r C2) as C3. unfold whole_rate in *. cbn in C3.
  destruct (r_loop r) eqn:LP; [discriminate| |]; destruct (dle d0 (r_rate r)).
  - apply Ok_inj in H. injection H as <-. split; [exact C1|split; [assumption|cbn; rewrite LP; try (intros []; reflexivity); intro; apply C4; discriminate]].
  - apply bind_ok in H. destruct H as (n & _ & H). apply Ok_inj in H. injection H as <-. split; [exact C1|split; [assumption|cbn; rewrite LP; try (intros []; reflexivity); intro; apply C4; discriminate]].
  - apply bind_ok in H. destruct H as (n & _ & H). apply Ok_inj in H. injection H as <-. split; [exact C1|split; [assumption|cbn; rewrite LP; try (intros []; reflexivity); intro; apply C4; discriminate]].
  - apply Ok_inj in H. injection H as <-. split; [exact C1|split; [assumption|cbn; rewrite LP; try (intros []; reflexivity); intro; apply C4; discriminate]].
Qed.
Lemma read_one_clean : forall x fuel ch r o r', read_one fuel ch r = Ok (o, r') -> clean x r -> clean x r'.
Proof.
  intro x. induction fuel as [|fuel IH]; intros ch r o r' H C; [discriminate|]. cbn [read_one] in H.
  apply bind_ok in H. destruct H as ([[v|] r1] & E & H).
  - injection H as _ <-. apply readNextValue_some in E. eapply quiet_clean; [apply E|exact C].
  - apply readNextValue_none in E. destruct E as [_ ->]. apply bind_ok in H. destruct H as ([r2|] & E2 & H).
    + eapply IH; eauto. eapply on_end_clean; eauto.
    + injection H as _ <-. destruct C as (C1 & C2 & C4). split; auto.
Qed.
Lemma read_channels_clean : forall x fuel todo ch r o r', read_channels fuel todo ch r = Ok (o, r') -> clean x r -> clean x r'.
Proof.
  intros x fuel. induction todo as [|todo IH]; intros ch r o r' H C; cbn [read_channels] in H.
  - injection H as _ <-. exact C.
  - apply bind_ok in H. destruct H as ([[v|] r1] & E & H).
    + apply bind_ok in H. destruct H as ([o2 r2] & E2 & H). injection H as _ <-. eapply IH; eauto. eapply read_one_clean; eauto.
    + injection H as _ <-. eapply read_one_clean; eauto.
Qed.
Lemma fade_clean : forall x r r', updateCrossfade r = Ok r' -> clean x r -> clean x r'.
Proof.
  intros x r r' H (C1 & C2 & C4). pose proof (whole_neg r C2) as C3. unfold whole_rate in C3. cbn in C3. unfold updateCrossfade in H. cbv zeta in H.
  repeat match type of H with context [if ?b then _ else _] => destruct b eqn:? end; try discriminate; apply Ok_inj in H; subst r';
    (split; [exact C1|split; [assumption|cbn; try exact C4]]).
  all: intro NP; destruct (r_loop r); discriminate || (exfalso; apply NP; reflexivity).
Qed.
Lemma advance_clean : forall x r r', advance r = Ok r' -> clean x r -> clean x r'.
Proof.
  intros x r r' H (C1 & (k & K1 & K2 & K3) & C4). unfold advance in H. cbv zeta in H. rewrite C1, K3, d0_plus in H by auto.
  destruct (d_of_Z_ok k) as [A F]; [lia|].
  rewrite d_to_s32_ok in H; [|exact F|rewrite A, Ztrunc_IZR; unfold in_s32; lia]. rewrite A, Ztrunc_IZR in H. cbn [bind] in H.
  rewrite dsub_self in H by exact F.
  apply bind_ok in H. destruct H as (s & _ & H). apply bind_ok in H. destruct H as (p & _ & H).
  destruct (_ =? _).
  - apply Ok_inj in H. subst r'. split; [reflexivity|]. split; [exists k; auto|exact C4].
  - apply bind_ok in H. destruct H as (p2 & _ & H). apply Ok_inj in H. subst r'. split; [reflexivity|]. split; [exists k; auto|exact C4].
Qed.
Lemma frame_clean : forall x fuel r o r', read_frame fuel r = Ok (o, r') -> clean x r -> clean x r'.
Proof.
  intros x fuel r o r' H C. unfold read_frame in H. apply bind_ok in H. destruct H as (r1 & E1 & H).
  assert (C1 : clean x r1). { destruct (r_dual r); [eapply fade_clean; eauto|]. apply Ok_inj in E1. now subst. }
  apply bind_ok in H. destruct H as ([[vs|] r2] & E2 & H); apply (read_channels_clean x) in E2; auto.
  - apply bind_ok in H. destruct H as (r3 & E3 & H). injection H as _ <-. eapply advance_clean; eauto.
  - injection H as _ <-. exact E2.
Qed.
Lemma loop_clean : forall x ifuel fuel r n l r', read_loop ifuel fuel r n = Ok (l, r') -> clean x r -> clean x r'.
Proof.
  intros x ifuel. induction fuel as [|fuel IH]; intros r n l r' H C; cbn [read_loop] in H.
  - destruct (n <=? 0); [|discriminate]. injection H as _ <-. exact C.
  - destruct (n <=? 0); [injection H as _ <-; exact C|].
    apply bind_ok in H. destruct H as ([o r1] & E & H). apply (frame_clean x) in E; auto.
    destruct o; [|injection H as _ <-; auto]. destruct (r_nch r =? 0); [eauto|].
    apply bind_ok in H. destruct H as ([l2 r2] & E2 & H). injection H as _ <-. eauto.
Qed.
Lemma read_clean : forall x fuel r n l r', r_read fuel r n = Ok (l, r') -> clean x r -> clean x r'.
Proof.
  intros x fuel r n l r' H C. unfold r_read in H. destruct (negb _); [injection H as _ <-; exact C|].
  destruct (_ <? 0); [discriminate|]. eapply loop_clean; eauto.
Qed.

(* what play(), read() and servicing keep *)
Definition settings (r : reader) := (r_kind r, r_cfg r, r_loop r, r_pstart r, r_pbstart r, r_dual r, r_cfdur r, r_interp r).
Definition keeps (r s : reader) : Prop := settings s = settings r /\ r_rate s = r_rate r /\ r_rem s = r_rem r.
Lemma keeps_refl : forall r, keeps r r.
Proof. intro; repeat split. Qed.
Lemma keeps_trans : forall a b c, keeps a b -> keeps b c -> keeps a c.
Proof. intros a b c (A & B & C) (D & E & F). repeat split; congruence. Qed.

Lemma reset_keeps : forall r s, r_reset r = Ok s -> keeps r s.
Proof. intros r s H. unfold r_reset in H. apply bind_ok in H. destruct H as (p & _ & H). apply Ok_inj in H. subst s. repeat split. Qed.
Lemma setup_keeps : forall r m off len nch, keeps r (raw_setup r m off len nch).
Proof. intros; repeat split. Qed.
Lemma raw_keeps : forall r m off len nch s, playRaw_array r m off len nch = Ok s -> keeps r s.
Proof.
  intros r m off len nch s H. rewrite playRaw_setup in H. pose proof (setup_keeps r m off len nch) as K.
  set (r2 := raw_setup r m off len nch) in *. clearbody r2. apply bind_ok in H. destruct H as (a & E & H).
  apply reset_keeps in E. apply Ok_inj in H. subst s. eapply keeps_trans; [exact K|]. eapply keeps_trans; [exact E|]. repeat split.
Qed.
Lemma wav_keeps : forall r m b s, playWav_array r m = Ok (b, s) -> keeps r s.
Proof.
  intros r m b s H. unfold playWav_array in H. cbv zeta in H. apply bind_ok in H. destruct H as ([ok h] & _ & H).
  destruct (negb ok); [injection H as _ <-; apply keeps_refl|]. apply bind_ok in H. destruct H as ([n|] & _ & H); [|injection H as _ <-; apply keeps_refl].
  apply bind_ok in H. destruct H as ([db|] & _ & H); [|injection H as _ <-; apply keeps_refl]. destruct (_ =? 0); [discriminate|].
  apply bind_ok in H. destruct H as (a & E & H). injection H as _ <-. now apply raw_keeps in E.
Qed.
Lemma close_keeps : forall r, keeps r (r_close r).
Proof. intro r. unfold r_close. destruct (r_kind r) eqn:K; repeat split; cbn; unfold settings; cbn; now rewrite K. Qed.
Lemma header_keeps : forall r f st o s, play_header r f st = Ok (o, s) -> keeps r s.
Proof.
  intros r f st o s H. unfold play_header in H. cbv zeta in H. apply bind_ok in H. destruct H as ([ok h] & _ & H).
  destruct (negb _); [injection H as _ <-; apply keeps_refl|]. apply bind_ok in H. destruct H as ([n|] & _ & H); [|injection H as _ <-; repeat split].
  apply bind_ok in H. destruct H as ([db|] & _ & H); injection H as _ <-; repeat split.
Qed.
Lemma lstart_keeps : forall r v, keeps r (setLoopStart r v).
Proof. intros r v. unfold setLoopStart. cbv zeta. destruct (r_src (r <| r_ls := s32 v |>)); repeat split. Qed.
Lemma lfinish_keeps : forall r v, keeps r (setLoopFinish r v).
Proof. intros r v. unfold setLoopFinish. cbv zeta. destruct (r_src (r <| r_lf := s32 v |>)); repeat split. Qed.
Lemma copy_keeps : forall r, keeps r (copy_loop r).
Proof.
  intros r. unfold copy_loop. cbv zeta. eapply keeps_trans; [|apply lfinish_keeps]. eapply keeps_trans; [|apply lstart_keeps].
  unfold setLoopType. destruct (r_src r); repeat split.
Qed.
Lemma start_keeps : forall r b s, start_file r = Ok (b, s) -> keeps r s.
Proof.
  intros r b s H. unfold start_file in H. apply bind_ok in H. destruct H as (a & E & H). apply reset_keeps in E.
  destruct (r_src a) as [| |g]; try discriminate. apply bind_ok in H. destruct H as ([z g'] & _ & H). injection H as _ <-.
  eapply keeps_trans; [exact E|]. repeat split.
Qed.
Lemma file_keeps : forall r fo isw n st g b s, r_play_file r fo isw n st g = Ok (b, s) -> keeps r s.
Proof.
  intros r fo isw n st g b s H. unfold r_play_file in H. cbv zeta in H.
  pose proof (close_keeps r) as K. set (c := r_close r) in *. clearbody c.
  set (a := (if isw then c else setNumChannels c n) <| r_fname := true |> <| r_live := _ |>) in H.
  assert (K1 : keeps r a). { eapply keeps_trans; [exact K|]. unfold a. destruct isw; repeat split. }
  clearbody a. destruct (match r_kind a with KArray => None | _ => fo end) as [f|].
  2: { injection H as _ <-. eapply keeps_trans; [exact K1|]. repeat split. }
  apply bind_ok in H. destruct H as ([o a1] & E & H).
  assert (K2 : keeps r a1).
  { eapply keeps_trans; [exact K1|]. destruct isw.
    - apply header_keeps in E. eapply keeps_trans; [|exact E]. repeat split.
    - injection E as _ <-. repeat split. }
  destruct o as [p|]; [|injection H as _ <-; exact K2]. unfold play_open in H.
  destruct (_ <=? _); [injection H as _ <-; eapply keeps_trans; [exact K2|]; repeat split|].
  apply bind_ok in H. destruct H as (fs & _ & H). apply start_keeps in H. eapply keeps_trans; [|exact H].
  eapply keeps_trans; [|apply copy_keeps]. eapply keeps_trans; [exact K2|]. unfold open_src. destruct (r_loop a1) eqn:LP; repeat split; unfold settings; cbn; now rewrite LP.
Qed.
Lemma reload_keeps : forall fuel r s, r_triggerReload fuel r = Ok s -> keeps r s.
Proof.
  intros fuel r s H. unfold r_triggerReload in H. destruct (r_src r); try discriminate; try (apply Ok_inj in H; subst s; apply keeps_refl).
  apply bind_ok in H. destruct H as (f' & _ & H). apply Ok_inj in H. subst s. repeat split.
Qed.
Lemma keeps_clean : forall x r s, keeps r s -> clean x r -> clean x s.
Proof.
  intros x r s (S & R & M) (C1 & (k & K1 & K2 & K3) & C3). split; [congruence|]. split; [exists k; repeat split; congruence|].
  unfold settings in S. injection S as _ _ L _ _ _ _ _. rewrite L, R. exact C3.
Qed.
Lemma statics_settings : forall r s, same_statics r s -> settings s = settings r.
Proof.
  intros r s [E _]. unfold settings.
  pose proof (f_equal r_kind E) as E1. pose proof (f_equal r_cfg E) as E2. pose proof (f_equal r_loop E) as E3. pose proof (f_equal r_pstart E) as E4.
  pose proof (f_equal r_pbstart E) as E5. pose proof (f_equal r_dual E) as E6. pose proof (f_equal r_cfdur E) as E7. pose proof (f_equal r_interp E) as E8.
  unfold statics, erase in *. cbn in *. congruence.
Qed.

Lemma used_clean : forall fuel ok r s, used fuel ok r s -> clean (r_rate r) r -> settings s = settings r /\ clean (r_rate r) s.
Proof.
  intros fuel ok r s U C. induction U as [|s m off len nch t U IH E|s m b t U IH E|s fo isw n st g b t U IH OK E|s n l t U IH E|s t U IH E|s U IH|s U IH]; [split; auto|..];
    destruct IH as [IS IC].
  - apply raw_keeps in E. split; [rewrite <- IS; apply E|eapply keeps_clean; eauto].
  - apply wav_keeps in E. split; [rewrite <- IS; apply E|eapply keeps_clean; eauto].
  - apply file_keeps in E. split; [rewrite <- IS; apply E|eapply keeps_clean; eauto].
  - split; [|eapply read_clean; eauto]. apply r_read_statics in E. rewrite <- IS. now apply statics_settings.
  - apply reload_keeps in E. split; [rewrite <- IS; apply E|eapply keeps_clean; eauto].
  - split; [exact IS|]. exact IC.
  - pose proof (close_keeps s) as E. split; [rewrite <- IS; apply E|eapply keeps_clean; eauto].
Qed.

Lemma used_settings : forall fuel ok r s, used fuel ok r s -> settings s = settings r.
Proof.
  intros fuel ok r s U. induction U as [|s m off len nch t U IH E|s m b t U IH E|s fo isw n st g b t U IH OK E|s n l t U IH E|s t U IH E|s U IH|s U IH]; auto.
  - apply raw_keeps in E. rewrite <- IH. apply E.
  - apply wav_keeps in E. rewrite <- IH. apply E.
  - apply file_keeps in E. rewrite <- IH. apply E.
  - apply r_read_statics in E. rewrite <- IH. now apply statics_settings.
  - apply reload_keeps in E. rewrite <- IH. apply E.
  - rewrite <- IH. apply close_keeps.
Qed.

Lemma used_same : forall fuel ok r s, used fuel ok r s -> r_rem r = d0 -> whole_rate r -> r_loop r <> LPingpong -> r_interp r <> ILinear ->
  same_settings r s /\ same_leftovers r s.
Proof.
  intros fuel ok r s U C1 C2 NP NL. destruct (used_clean fuel ok r s U) as [S (D1 & D2 & D3)]; [repeat split; auto|].
  unfold settings in S. injection S as S1 S2 S3 S4 S5 S6 S7 S8. split.
  - repeat split; auto. apply D3. congruence.
  - split; [congruence|]. intro. contradiction.
Qed.

Theorem replay_whole_array : forall fuel ok r s m off len nch ns, used fuel ok r s -> r_rem r = d0 -> whole_rate r ->
  r_loop r <> LPingpong -> r_interp r <> ILinear ->
  starts fuel (x <- playRaw_array s m off len nch ;; Ok (true, x)) ns = starts fuel (x <- playRaw_array r m off len nch ;; Ok (true, x)) ns /\
  starts fuel (playWav_array s m) ns = starts fuel (playWav_array r m) ns.
Proof.
  intros. destruct (used_same fuel ok r s) as [A B]; auto. split; [now apply replay_raw|now apply replay_wav].
Qed.
Theorem replay_whole_file : forall fuel ok r s fo n stack g ns, used fuel ok r s -> r_rem r = d0 -> whole_rate r ->
  r_loop r <> LPingpong -> r_interp r <> ILinear -> same_bounds r s ->
  starts fuel (r_play_file s fo true n stack g) ns = starts fuel (r_play_file r fo true n stack g) ns.
Proof. intros. destruct (used_same fuel ok r s) as [A B]; auto. apply replay_file; auto. discriminate. Qed.

(* ---- the header offset ---- *)

Lemma reset_hdr : forall r s, r_reset r = Ok s -> r_hdr s = r_hdr r.
Proof. intros r s E. unfold r_reset in E. apply bind_ok in E. destruct E as (p & _ & E). apply Ok_inj in E. subst s. reflexivity. Qed.
Lemma setup_hdr : forall r m off len nch, r_hdr (raw_setup r m off len nch) = 0. Proof. reflexivity. Qed.
Lemma raw_hdr : forall r m off len nch s, playRaw_array r m off len nch = Ok s -> r_hdr s = 0.
Proof.
  intros r m off len nch s H. rewrite playRaw_setup in H. pose proof (setup_hdr r m off len nch) as K.
  set (r2 := raw_setup r m off len nch) in *. clearbody r2. apply bind_ok in H. destruct H as (a & E & H).
  apply reset_hdr in E. apply Ok_inj in H. subst s. change (r_hdr a = 0). congruence.
Qed.
Lemma wav_array_hdr : forall r m b s, playWav_array r m = Ok (b, s) -> s = r \/ r_hdr s = 0.
Proof.
  intros r m b s H. unfold playWav_array in H. cbv zeta in H. apply bind_ok in H. destruct H as ([ok h] & _ & H).
  destruct (negb ok); [injection H as _ <-; auto|]. apply bind_ok in H. destruct H as ([n|] & _ & H); [|injection H as _ <-; auto].
  apply bind_ok in H. destruct H as ([db|] & _ & H); [|injection H as _ <-; auto]. destruct (_ =? 0); [discriminate|].
  apply bind_ok in H. destruct H as (a & E & H). injection H as _ <-. apply raw_hdr in E. auto.
Qed.
Lemma copy_hdr : forall r, r_hdr (copy_loop r) = r_hdr r.
Proof.
  intros r. unfold copy_loop. cbv zeta.
  assert (A : forall x v, r_hdr (setLoopFinish x v) = r_hdr x).
  { intros x v. unfold setLoopFinish. cbv zeta. destruct (r_src (x <| r_lf := s32 v |>)); reflexivity. }
  assert (B : forall x v, r_hdr (setLoopStart x v) = r_hdr x).
  { intros x v. unfold setLoopStart. cbv zeta. destruct (r_src (x <| r_ls := s32 v |>)); reflexivity. }
  rewrite A, B. unfold setLoopType. destruct (r_src r); reflexivity.
Qed.
Lemma start_hdr : forall r b s, start_file r = Ok (b, s) -> r_hdr s = r_hdr r.
Proof.
  intros r b s H. unfold start_file in H. apply bind_ok in H. destruct H as (a & E & H). apply reset_hdr in E.
  destruct (r_src a) as [| |g1]; try discriminate. apply bind_ok in H. destruct H as ([z g'] & _ & H). injection H as _ <-. exact E.
Qed.
Lemma osrc_hdr : forall r fs f p g, r_hdr (open_src r fs f p g) = r_hdr r.
Proof. intros. unfold open_src. destruct (r_loop r); reflexivity. Qed.
Lemma open_hdr : forall r f p g b s, play_open r f p g = Ok (b, s) -> r_hdr s = r_hdr r.
Proof.
  intros r f p g b s H. unfold play_open in H. destruct (_ <=? _); [injection H as _ <-; reflexivity|].
  apply bind_ok in H. destruct H as (fs & _ & H). apply start_hdr in H. rewrite copy_hdr, osrc_hdr in H. exact H.
Qed.
Lemma close_hdr : forall r, r_hdr (r_close r) = r_hdr r.
Proof. intro r. unfold r_close. destruct (r_kind r); reflexivity. Qed.
Lemma rawfile_hdr : forall r fo n st g b s, r_play_file r fo false n st g = Ok (b, s) -> r_hdr s = r_hdr r.
Proof.
  intros r fo n st g b s H. unfold r_play_file in H. cbv zeta in H.
  rewrite <- (close_hdr r). set (c := r_close r) in *. clearbody c.
  destruct (match r_kind _ with KArray => None | _ => fo end) as [f|]; [|injection H as _ <-; reflexivity].
  cbn [bind] in H. apply open_hdr in H. rewrite H. reflexivity.
Qed.

Lemma used_hdr : forall fuel r s, used fuel raw_only r s -> r_hdr r = 0 -> r_hdr s = 0.
Proof.
  intros fuel r s U H. induction U as [|s m off len nch t U IH E|s m b t U IH E|s fo isw n st g b t U IH OK E|s n l t U IH E|s t U IH E|s U IH|s U IH]; auto.
  - now apply raw_hdr in E.
  - apply wav_array_hdr in E. destruct E as [->|E]; auto.
  - unfold raw_only in OK. subst isw. apply rawfile_hdr in E. congruence.
  - apply r_read_statics in E. destruct E as [E _]. apply (f_equal r_hdr) in E. unfold statics, erase in E. cbn in E. congruence.
  - unfold r_triggerReload in E. destruct (r_src s); try discriminate; try (apply Ok_inj in E; subst t; exact IH).
    apply bind_ok in E. destruct E as (f' & _ & E). apply Ok_inj in E. subst t. exact IH.
  - unfold r_close. destruct (r_kind s); exact IH.
Qed.
