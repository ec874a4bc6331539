(* Forward playback with one head, frame by frame: which samples the next frame
   fetches, and that a reader with just these samples does the same. *)

From Coq Require Import ZArith Lia List Bool Reals Lra.
From RecordUpdate Require Import RecordUpdate.
From Flocq Require Import Core.Core IEEE754.BinarySingleNaN.
From Verif Require Import Machine Floats FloatFacts WavModel InterpModel CacheModel ReaderModel ReaderFacts ReaderSpec Sessions StreamFacts Walk
  CacheFacts CacheSpec FadeProofs QuadProofs InterpSafe WindowProofs MirrorSpec MirrorProofs.
Import ListNotations.
Local Open Scope Z_scope.

(* How many frames before the play position the next frame fetches from, forwards *)
Definition reach (r : reader) : Z :=
  match r_interp r with
  | INone => 0
  | ILinear => if dlt d1 (r_rate r) && dlt d0 (dabs (r_rem r)) then 1 else 0
  | IQuadratic =>
      if dlt (dsub (r_rem r) (r_rate r)) d0 then
        match d_to_s32 (dneg (dfloor (dsub (r_rem r) (r_rate r)))) with Ok n => Z.max 0 (Z.min n 4 - 1) | _ => 0 end
      else 0
  end.

Section Part.
Variables (m m' : mem) (off off' lo hi : Z).
Hypothesis SAME : forall i v, lo <= i < hi -> mem_sample m off i = Some v -> mem_sample m' off' i = Some v.

Definition re (r : reader) : reader := r <| r_src := SArr m' off' |>.

Lemma re_get : forall r p o c v r1, r_src r = SArr m off -> getAt r p o c = Ok (v, r1) -> lo <= p + o * r_nch r + c < hi ->
  r1 = r /\ getAt (re r) p o c = Ok (v, re r).
Proof.
  intros r p o c v r1 S E B. unfold getAt in *. change (r_nch (re r)) with (r_nch r).
  apply bind_ok in E. destruct E as (i1 & E1 & E). apply bind_ok in E. destruct E as (i & E2 & E).
  rewrite E1. cbn [bind]. rewrite E2. cbn [bind]. apply Machine.chk32_inv in E1, E2. destruct E1 as [E1 _], E2 as [E2 _]. subst i i1.
  unfold getSourceBufferValue in *. rewrite S in E. change (r_src (re r)) with (SArr m' off'). cbv iota zeta.
  pose proof (SAME (p + o * r_nch r + c)) as X. unfold mem_sample in X.
  destruct ((0 <=? off + 2 * (p + o * r_nch r + c)) && _); [|discriminate]. apply Ok_inj, pair_equal_spec in E. destruct E as [<- <-].
  split; [reflexivity|]. specialize (X _ B eq_refl). destruct ((0 <=? off' + _) && _); [|discriminate]. apply Some_inj in X. rewrite X. reflexivity.
Qed.

Lemma re_add : forall r c y r1, addPoint r c y = Ok r1 -> addPoint (re r) c y = Ok (re r1) /\ exists P n, r1 = wp r P n.
Proof.
  intros r c y r1 E. unfold addPoint in *. change (r_interp (re r)) with (r_interp r). destruct (r_interp r).
  - apply Ok_inj in E. subst r1. split; [reflexivity|]. exists (r_pts r), (r_npts r). now rewrite wp_id.
  - apply bind_ok in E. destruct E as (u & -> & E). apply Ok_inj in E. subst r1. cbn [bind]. split; [reflexivity|]. do 2 eexists. reflexivity.
  - apply bind_ok in E. destruct E as (u & -> & E). apply Ok_inj in E. subst r1. cbn [bind]. split; [reflexivity|]. do 2 eexists. reflexivity.
Qed.

Lemma re_push : forall i r c r1, r_src r = SArr m off -> r_dual r = false -> lo <= r_pos1 r - (Z.of_nat i - 1) * r_nch r + c -> r_pos1 r + c < hi -> 0 <= r_nch r ->
  push_points i true r c = Ok r1 -> push_points i true (re r) c = Ok (re r1) /\ exists P n, r1 = wp r P n.
Proof.
  induction i as [|i IH]; intros r c r1 S D L H N E.
  - cbn in E. apply Ok_inj in E. subst r1. split; [reflexivity|]. exists (r_pts r), (r_npts r). now rewrite wp_id.
  - cbn [push_points] in *. apply bind_ok in E. destruct E as ([v r2] & G & E).
    destruct (re_get _ _ _ _ _ _ S G) as [-> G']; [nia|]. change (r_pos1 (re r)) with (r_pos1 r). rewrite G'. cbn [bind].
    change (r_dual (re r)) with (r_dual r). rewrite D in *. cbn [andb bind] in *.
    apply bind_ok in E. destruct E as (r3 & A & E). destruct (re_add _ _ _ _ A) as (A' & P & n & ->). rewrite A'. cbn [bind].
    destruct (IH (wp r P n) c r1 S D) as (X & P2 & n2 & ->); auto; [cbn; nia|]. split; [exact X|]. exists P2, n2. now rewrite wp_wp.
Qed.

Lemma re_quad : forall r c v w r1, r_src r = SArr m off -> r_dual r = false -> 0 <= r_nch r -> dlt (r_rate r) d0 = false -> r_interp r = IQuadratic ->
  lo <= r_pos1 r - reach r * r_nch r + c -> r_pos1 r + c < hi -> quadratic_value r c v = Ok (w, r1) ->
  quadratic_value (re r) c v = Ok (w, re r1) /\ exists P n, r1 = wp r P n.
Proof.
  intros r c v w r1 S D N RT QI L H E. unfold reach in L. rewrite QI in L. unfold quadratic_value in *. cbv zeta in *.
  change (r_rate (re r)) with (r_rate r). change (r_rem (re r)) with (r_rem r). rewrite RT in *.
  apply bind_ok in E. destruct E as (r2 & X & E).
  match goal with |- (r1 <- ?e ;; _) = _ /\ _ => assert (Y : e = Ok (re r2) /\ exists P n, r2 = wp r P n) end.
  { assert (ID : forall z, Ok r = Ok z -> Ok (re r) = Ok (re z) /\ exists P n, z = wp r P n).
    { intros z Z. apply Ok_inj in Z. subst z. split; [reflexivity|]. exists (r_pts r), (r_npts r). now rewrite wp_id. }
    destruct (dlt d0 (r_rate r)); [|auto]. destruct (dlt (dsub (r_rem r) (r_rate r)) d0); [|auto].
    apply bind_ok in X. destruct X as (n & X1 & X). rewrite X1 in *. cbn [bind]. eapply re_push; eauto. destruct (Z.le_gt_cases 1 n); nia. }
  destruct Y as (Y & P & n & ->). rewrite Y. cbn [bind] in *.
  apply bind_ok in E. destruct E as (u & -> & E). cbn [bind].
  change (r_npts (re (wp r P n)) c) with (r_npts (wp r P n) c). change (r_pts (re (wp r P n)) c) with (r_pts (wp r P n) c).
  destruct (4 <=? _).
  - apply bind_ok in E. destruct E as (z & -> & E). apply Ok_inj, pair_equal_spec in E. destruct E as [<- <-]. cbn [bind]. split; [reflexivity|eauto].
  - apply Ok_inj, pair_equal_spec in E. destruct E as [<- <-]. split; [reflexivity|eauto].
Qed.

Lemma re_lin : forall r c v w r1, r_src r = SArr m off -> r_dual r = false -> 0 <= r_nch r -> dlt (r_rate r) d0 = false -> r_interp r = ILinear ->
  lo <= r_pos1 r - reach r * r_nch r + c -> r_pos1 r + c < hi -> linear_value r c v = Ok (w, r1) ->
  linear_value (re r) c v = Ok (w, re r1) /\ exists P n, r1 = wp r P n.
Proof.
  intros r c v w r1 S D N RT QI L H E. unfold reach in L. rewrite QI in L. unfold linear_value in *. cbv zeta in *.
  change (r_rate (re r)) with (r_rate r). change (r_rem (re r)) with (r_rem r). change (r_dual (re r)) with (r_dual r).
  change (r_npts (re r)) with (r_npts r). change (r_pos1 (re r)) with (r_pos1 r). change (r_nch (re r)) with (r_nch r). change (r_hdr (re r)) with (r_hdr r).
  rewrite RT, D in *. destruct (dlt d0 (dabs (r_rem r))) eqn:AR.
  - apply bind_ok in E. destruct E as (r2 & X & E).
    match goal with |- (r1 <- ?e ;; _) = _ /\ _ => assert (Y : e = Ok (re r2) /\ exists P n, r2 = wp r P n) end.
    { assert (ID : forall z, Ok r = Ok z -> Ok (re r) = Ok (re z) /\ exists P n, z = wp r P n).
      { intros z Z. apply Ok_inj in Z. subst z. split; [reflexivity|]. exists (r_pts r), (r_npts r). now rewrite wp_id. }
      destruct (dlt d0 (r_rate r)); [|auto]. destruct (dlt (dsub (r_rem r) (r_rate r)) d0); [|auto].
      apply bind_ok in X. destruct X as (r3 & X1 & X).
      match goal with |- (r' <- ?e ;; _) = _ /\ _ => assert (Y : e = Ok (re r3) /\ exists P n, r3 = wp r P n) end.
      { apply bind_ok in X1. destruct X1 as (u & -> & X1). cbn [bind].
        destruct (r_npts r c <? 2); [|cbn [andb] in *; auto]. destruct (dlt d1 (r_rate r)) eqn:D1; [|cbn [andb] in *; auto]. cbn [andb] in *.
        apply bind_ok in X1. destruct X1 as (pm & -> & X1). cbn [bind]. apply bind_ok in X1. destruct X1 as (h2 & -> & X1). cbn [bind].
        destruct (h2 <? pm); [|auto]. apply bind_ok in X1. destruct X1 as ([z r4] & G & X1).
        destruct (re_get _ _ _ _ _ _ S G) as [-> G']; [nia|]. change (getAt (re r) (r_pos1 r) (-1) c) with (getAt (re r) (r_pos1 r) (-1) c). rewrite G'. cbn [bind].
        apply Ok_inj in X1. subst r3. split; [reflexivity|]. exists (upd (r_pts r) c (r_pts r c <| y1 := z |>)), (r_npts r). destruct r; reflexivity. }
      destruct Y as (-> & P & n & ->). cbn [bind]. destruct (re_add _ _ _ _ X) as (A & P2 & n2 & ->). rewrite A. split; [reflexivity|]. exists P2, n2. now rewrite wp_wp. }
    destruct Y as (Y & P & n & ->). rewrite Y. cbn [bind] in *.
    apply bind_ok in E. destruct E as (u & -> & E). cbn [bind].
    change (r_npts (re (wp r P n)) c) with (r_npts (wp r P n) c). change (r_pts (re (wp r P n)) c) with (r_pts (wp r P n) c).
    destruct (1 <? _).
    + apply bind_ok in E. destruct E as (z & -> & E). apply Ok_inj, pair_equal_spec in E. destruct E as [<- <-]. cbn [bind]. split; [reflexivity|eauto].
    + apply Ok_inj, pair_equal_spec in E. destruct E as [<- <-]. split; [reflexivity|eauto].
  - apply bind_ok in E. destruct E as (r2 & X & E). destruct (re_add _ _ _ _ X) as (A & P2 & n2 & ->). rewrite A. cbn [bind].
    apply Ok_inj, pair_equal_spec in E. destruct E as [<- <-]. split; [reflexivity|eauto].
Qed.

Lemma reach_nonneg : forall r, 0 <= reach r.
Proof.
  intros r. unfold reach. destruct (r_interp r); [lia|destruct (_ && _); lia|]. destruct (dlt _ _); [|lia]. destruct (d_to_s32 _); lia.
Qed.

(* the samples of the next frame *)
Definition inside (r : reader) : Prop := lo <= r_pos1 r - reach r * r_nch r /\ r_pos1 r + r_nch r <= hi.

Lemma re_next : forall r c o r1, r_src r = SArr m off -> r_dual r = false -> dlt (r_rate r) d0 = false -> 0 <= c < r_nch r -> inside r ->
  at_end r = false -> readNextValue r c = Ok (o, r1) -> readNextValue (re r) c = Ok (o, re r1) /\ exists P n, r1 = wp r P n.
Proof.
  intros r c o r1 S D RT C [L H] AE E. pose proof (reach_nonneg r) as RN. unfold readNextValue in *. change (at_end (re r)) with (at_end r). rewrite AE in *.
  unfold fetch_value in *. change (r_dual (re r)) with (r_dual r). rewrite D in *. cbn [negb orb] in *.
  apply bind_ok in E. destruct E as ([v r2] & G & E). destruct (re_get _ _ _ _ _ _ S G) as [-> G']; [nia|].
  change (r_pos1 (re r)) with (r_pos1 r). rewrite G'. cbn [bind]. apply bind_ok in E. destruct E as ([w r3] & X & E).
  apply Ok_inj, pair_equal_spec in E. destruct E as [<- <-]. change (r_interp (re r)) with (r_interp r). destruct (r_interp r) eqn:QI.
  - apply Ok_inj, pair_equal_spec in X. destruct X as [<- <-]. cbn [bind]. split; [reflexivity|]. exists (r_pts r), (r_npts r). now rewrite wp_id.
  - destruct (re_lin r c v w r3) as (-> & Q); auto; try lia. 
  - destruct (re_quad r c v w r3) as (-> & Q); auto; try lia.
Qed.

Lemma re_channels : forall F todo c r o r1, r_src r = SArr m off -> r_dual r = false -> dlt (r_rate r) d0 = false -> 0 <= c -> c + Z.of_nat todo <= r_nch r ->
  inside r -> at_end r = false -> read_channels F todo c r = Ok (o, r1) ->
  read_channels F todo c (re r) = Ok (o, re r1) /\ (exists P n, r1 = wp r P n) /\ o <> None.
Proof.
  intros F. induction todo as [|todo IH]; intros c r o r1 S D RT C T I AE E.
  - cbn in *. apply Ok_inj, pair_equal_spec in E. destruct E as [<- <-]. split; [reflexivity|]. split; [|discriminate]. exists (r_pts r), (r_npts r). now rewrite wp_id.
  - cbn [read_channels] in *. destruct F as [|F]; [discriminate|]. cbn [read_one] in *.
    apply bind_ok in E. destruct E as ([o2 r2] & X & E). apply bind_ok in X. destruct X as ([o3 r3] & X & X2).
    assert (SOME : exists v, o3 = Some v).
    { unfold readNextValue in X. rewrite AE in X. apply bind_ok in X. destruct X as ([? ?] & _ & X). apply bind_ok in X. destruct X as ([? ?] & _ & X).
      apply Ok_inj, pair_equal_spec in X. destruct X as [<- _]. eauto. }
    destruct SOME as (v & ->). apply Ok_inj, pair_equal_spec in X2. destruct X2 as [<- <-].
    destruct (re_next r c (Some v) r3) as (Y & P & n & ->); auto; [lia|]. rewrite Y. cbn [bind].
    apply bind_ok in E. destruct E as ([o4 r4] & X3 & E). apply Ok_inj, pair_equal_spec in E. destruct E as [<- <-].
    destruct (IH (c + 1) (wp r P n) o4 r4 S D RT) as (Y2 & (P2 & n2 & ->) & NE); auto; [lia|cbn; lia|].
    rewrite Y2. cbn [bind]. split; [reflexivity|]. split; [exists P2, n2; now rewrite wp_wp|]. destruct o4; [discriminate|congruence].
Qed.

Lemma re_advance : forall r r1, advance r = Ok r1 -> advance (re r) = Ok (re r1).
Proof.
  intros r r1 E. unfold re. rewrite advance_src, E. reflexivity.
Qed.

(* A frame *)
Lemma re_frame : forall F r o r1, r_src r = SArr m off -> r_dual r = false -> dlt (r_rate r) d0 = false -> inside r -> at_end r = false -> 1 <= r_nch r ->
  read_frame F r = Ok (o, r1) ->
  read_frame F (re r) = Ok (o, re r1) /\ o <> None /\ exists P n, advance (wp r P n) = Ok r1.
Proof.
  intros F r o r1 S D RT I AE N1 E. unfold read_frame in *. change (r_dual (re r)) with (r_dual r). rewrite D in *. cbn [bind] in *.
  change (r_nch (re r)) with (r_nch r). apply bind_ok in E. destruct E as ([o2 r2] & X & E).
  destruct (re_channels F (Z.to_nat (r_nch r)) 0 r o2 r2) as (Y & (P & n & ->) & NE); auto; try lia. rewrite Y. cbn [bind].
  destruct o2 as [vs|]; [|congruence]. apply bind_ok in E. destruct E as (r3 & A & E). rewrite (re_advance _ _ A). cbn [bind].
  apply Ok_inj, pair_equal_spec in E. destruct E as [<- <-]. split; [reflexivity|]. split; [discriminate|]. eauto.
Qed.
End Part.
