(* Playing an array with interpolation: where the fetches stay inside (C19, C73). *)

From Coq Require Import ZArith Lia List Bool Reals Lra.
From RecordUpdate Require Import RecordUpdate.
From Flocq Require Import Core.Core IEEE754.BinarySingleNaN.
From Verif Require Import Machine Floats FloatFacts WavModel InterpModel CacheModel CacheFacts ReaderModel
  ReaderFacts ReaderSpec Sessions StreamFacts Walk ForwardProofs LifeProofs FadeSpec FadeProofs FadeLoop CubicProofs QuadProofs.
Import ListNotations.
Local Open Scope Z_scope.

(* ---- sessions that never go wrong ---------------------------------------- *)

(* I holds before and after every frame; the frames satisfy P *)
Definition keeps_safe (I : reader -> Prop) (P : list Z -> Prop) : Prop :=
  forall r, I r -> r_playing r = true /\ 1 <= r_nch r /\
    exists F o r', read_frame F r = Ok (o, r') /\ I r' /\ (forall v, o = Some v -> P v).

Lemma safe_loop : forall I P, keeps_safe I P -> forall n r, I r ->
  exists F l r', read_loop F F r (Z.of_nat n) = Ok (l, r') /\ I r' /\ Forall P l /\ (length l <= n)%nat.
Proof.
  intros I P K. induction n as [|n IH]; intros r H.
  - exists O, [], r. cbn. auto.
  - destruct (K r H) as (HP & HN & F & [v|] & r1 & E & H1 & V).
    + destruct (IH r1 H1) as (F2 & l & r2 & E2 & H2 & A & LN). exists (S (F + F2)), (v :: l), r2. cbn [read_loop].
      destruct (Z.leb_spec (Z.of_nat (S n)) 0); [lia|].
      rewrite (read_frame_fuel F (S (F + F2)) r _ ltac:(lia) E). cbn [bind]. destruct (Z.eqb_spec (r_nch r) 0); [lia|].
      replace (Z.of_nat (S n) - 1) with (Z.of_nat n) by lia.
      rewrite (read_loop_fuel F2 (S (F + F2)) F2 (F + F2) r1 _ _ ltac:(lia) ltac:(lia) E2). cbn [bind length]. repeat split; auto; lia.
    + exists (S F), [], r1. cbn [read_loop]. destruct (Z.leb_spec (Z.of_nat (S n)) 0); [lia|].
      rewrite (read_frame_fuel F (S F) r _ ltac:(lia) E). cbn [bind length]. repeat split; auto; lia.
Qed.
Lemma safe_seq : forall I P, keeps_safe I P -> forall ns r, I r ->
  exists F bs r', read_seq F r ns = Ok (bs, r') /\ I r' /\ Forall (Forall P) bs.
Proof.
  intros I P K. induction ns as [|n ns IH]; intros r H.
  - exists O, [], r. cbn. auto.
  - destruct (safe_loop I P K n r H) as (F & l & r1 & E & H1 & A & _). destruct (IH r1 H1) as (F2 & bs & r2 & E2 & H2 & A2).
    exists (F + F2)%nat, (l :: bs), r2. cbn [read_seq].
    assert (R : r_read (F + F2) r (Z.of_nat n) = Ok (l, r1)).
    { destruct (K r H) as (HP & HN & _). unfold r_read. rewrite HP. cbn [negb]. destruct (Z.ltb_spec (r_nch r) 0); [lia|].
      eapply read_loop_fuel; [| |exact E]; lia. }
    rewrite R. cbn [bind]. rewrite (read_seq_fuel ns F2 (F + F2) r1 _ ltac:(lia) E2). cbn [bind]. auto.
Qed.

(* ---- values --------------------------------------------------------------- *)

Definition quad_ok (q : quad) : Prop := in_s16 (y0 q) /\ in_s16 (y1 q) /\ in_s16 (y2 q) /\ in_s16 (y3 q).
Definition pts_ok (P : Z -> quad) : Prop := forall c, quad_ok (P c).

Lemma dadd_comm : forall x y, dadd x y = dadd y x.
Proof.
  intros [s|s| |s m e H] [t|t| |t k f K]; try reflexivity; unfold dadd, Bplus; try (destruct s, t; reflexivity).
  cbn zeta. rewrite (Z.min_comm e f). unfold Fplus_naive. now rewrite Z.add_comm.
Qed.
Lemma mix_safe : forall c a b, gain_ok c -> in_s16 a -> in_s16 b -> exists v, mix16 c a (dsub d1 c) b = Ok v /\ in_s16 v.
Proof.
  intros c a b G A B. destruct (mix_value c a b G) as (x & M & N & _); try (unfold s16_val, in_s16 in *; lia).
  exists (Ztrunc x). unfold mix16 in *. rewrite dadd_comm. split; [exact M|].
  pose proof (convex_between (R64 c) a b (proj2 G)) as C. apply Rabs_le_inv in N.
  destruct (trunc_between (Z.min a b) (Z.max a b) x ltac:(lra)) as [_ T2]. unfold in_s16 in *. lia.
Qed.

(* the abscissa 1 + |rem| in single precision *)
Lemma abscissa : forall x, fin64 x = true -> (Rabs (R64 x) <= 1)%R ->
  fin32 (f_of_d (dadd d1 (dabs x))) = true /\ (1 <= R32 (f_of_d (dadd d1 (dabs x))) <= 2)%R.
Proof.
  intros x F B. pose proof (Rabs_pos (R64 x)) as P. destruct (dadd_ok d1 (dabs x) fin_d1) as [A G].
  { now rewrite fin_abs. } { apply big_ok. rewrite R64_d1, R64_abs. apply Rabs_le. lra. }
  rewrite R64_d1, R64_abs in A.
  assert (L : (1 <= R64 (dadd d1 (dabs x)) <= 2)%R).
  { rewrite A. pose proof (rnd64_id 1 (fmt64_Z 1 ltac:(lia))) as X1. pose proof (rnd64_id 2 (fmt64_Z 2 ltac:(lia))) as X2.
    pose proof (rnd64_le 1 (1 + Rabs (R64 x)) ltac:(lra)). pose proof (rnd64_le (1 + Rabs (R64 x)) 2 ltac:(lra)). lra. }
  destruct (f_of_d_ok _ G) as [C H]. { apply (big32 1); [lia|]. change (bpow radix2 1) with 2%R. apply Rabs_le. lra. }
  split; [exact H|]. rewrite C. pose proof (rnd32_id 1 (fmt32_Z 1 ltac:(lia))) as X1. pose proof (rnd32_id 2 (fmt32_Z 2 ltac:(lia))) as X2.
  pose proof (rnd32_le 1 (R64 (dadd d1 (dabs x))) ltac:(lra)). pose proof (rnd32_le (R64 (dadd d1 (dabs x))) 2 ltac:(lra)). lra.
Qed.

Section Fetch.
Variables (m : mem) (off len : Z) (nch : nat).
Hypothesis (HA : array_holds m off len nch) (HC : (nch <= 8)%nat).
Local Notation N := (Z.of_nat nch).

(* a playing single-head reader of the array *)
Record ist (s : Z) (r : reader) : Prop := mkI {
  i_dual : r_dual r = false; i_nch : r_nch r = N; i_hdr : r_hdr r = 0; i_play : r_playing r = true;
  i_src : r_src r = SArr m off; i_cfst : r_cfst r = 0; i_len : r_fsamples r = len; i_lf : r_lf r = len; i_ls : r_ls r = 0;
  i_pos : r_pos1 r = s; i_pts : pts_ok (r_pts r);
  i_remf : fin64 (r_rem r) = true; i_rem : (Rabs (R64 (r_rem r)) <= 1)%R; i_ratef : fin64 (r_rate r) = true }.

Lemma ist_wp : forall s r P n, ist s r -> pts_ok P -> ist s (wp r P n).
Proof. intros s r P n [] K. constructor; assumption. Qed.

Lemma get_in : forall s r o c, ist s r -> (c < nch)%nat -> 0 <= s + o * N -> s + o * N + N <= len * N -> -8 <= o <= 8 -> 0 <= s -> s <= len * N ->
  exists v, getAt r (r_pos1 r) o (Z.of_nat c) = Ok (v, r) /\ in_s16 v.
Proof.
  intros s r o c I C L U O S0 S1. pose proof (sizes m off len nch HA) as (Z1 & Z2 & Z3 & Z4). unfold getAt. rewrite (i_pos _ _ I), (i_nch _ _ I).
  rewrite chk32_ok by (unfold in_s32; nia). cbn [bind]. rewrite chk32_ok by (unfold in_s32; nia). cbn [bind].
  unfold getSourceBufferValue. rewrite (i_src _ _ I). set (a := off + 2 * (s + o * N + Z.of_nat c)).
  destruct (Z.leb_spec 0 a); [|unfold a in *; nia]. destruct (Z.leb_spec (a + 2) (msize m)); [|unfold a in *; nia].
  eexists. split; [reflexivity|]. apply le16_range.
Qed.

Lemma add_in : forall r c y, (c < nch)%nat -> pts_ok (r_pts r) -> in_s16 y ->
  exists P n, addPoint r (Z.of_nat c) y = Ok (wp r P n) /\ pts_ok P.
Proof.
  intros r c y C K Y. unfold addPoint, chan_ok. destruct (Z.leb_spec 0 (Z.of_nat c)); [|lia]. destruct (Z.ltb_spec (Z.of_nat c) 8); [|lia].
  destruct (r_interp r); cbn [andb bind].
  - exists (r_pts r), (r_npts r). split; [destruct r; reflexivity|exact K].
  - do 2 eexists. split; [reflexivity|]. intros x. unfold upd. destruct (_ =? _); [|apply K]. destruct (K (Z.of_nat c)) as (? & ? & ? & ?). split; [|split; [|split]]; cbn; assumption.
  - do 2 eexists. split; [reflexivity|]. intros x. unfold upd. destruct (_ =? _); [|apply K]. destruct (K (Z.of_nat c)) as (? & ? & ? & ?). split; [|split; [|split]]; cbn; assumption.
Qed.
Lemma wp_wp : forall r P n P2 n2, wp (wp r P n) P2 n2 = wp r P2 n2.
Proof. intros []. reflexivity. Qed.
Lemma wp_id : forall r, wp r (r_pts r) (r_npts r) = r. Proof. intros []. reflexivity. Qed.

(* how far from the play position a push reaches *)
Definition room (s : Z) (fwd : bool) (i : nat) : Prop :=
  (i <= 4)%nat /\ if fwd then (Z.of_nat i - 1) * N <= s else s + Z.of_nat i * N <= len * N.
Lemma push_in : forall i fwd s r c, ist s r -> (c < nch)%nat -> 0 <= s -> s + N <= len * N -> room s fwd i ->
  exists P n, push_points i fwd r (Z.of_nat c) = Ok (wp r P n) /\ pts_ok P.
Proof.
  induction i as [|i IH]; intros fwd s r c I C S0 S1 R.
  - exists (r_pts r), (r_npts r). rewrite wp_id. split; [reflexivity|apply I].
  - cbn [push_points]. destruct R as [R4 R]. set (o := if fwd then 1 - Z.of_nat (S i) else Z.of_nat (S i) - 1).
    assert (OO : -8 <= o <= 8) by (unfold o; destruct fwd; lia).
    assert (O1 : 0 <= s + o * N /\ s + o * N + N <= len * N) by (unfold o; destruct fwd; nia).
    destruct (get_in s r o c I C) as (v & E & V); try lia. rewrite E. cbn [bind]. rewrite (i_dual _ _ I). cbn [andb bind].
    destruct (add_in r c v C (i_pts _ _ I) V) as (P & n & E2 & K). rewrite E2. cbn [bind].
    destruct (IH fwd s (wp r P n) c) as (P2 & n2 & E3 & K2); auto using ist_wp.
    { split; [lia|]. destruct fwd; nia. }
    exists P2, n2. rewrite E3, wp_wp. auto.
Qed.

(* The points pushed fit *)
Definition quad_room (s : Z) (rem rate : b64) : Prop :=
  (dlt d0 rate = true -> dlt (dsub rem rate) d0 = true -> exists n, d_to_s32 (dneg (dfloor (dsub rem rate))) = Ok n /\ room s true (Z.to_nat (Z.min n 4))) /\
  (dlt rate d0 = true -> dlt d0 (dsub rem rate) = true -> exists n, d_to_s32 (dceil (dsub rem rate)) = Ok n /\ room s false (Z.to_nat (Z.min n 4))).
Lemma quad_in : forall s r c v, ist s r -> (c < nch)%nat -> 0 <= s -> s + N <= len * N -> quad_room s (r_rem r) (r_rate r) ->
  exists w P n, quadratic_value r (Z.of_nat c) v = Ok (w, wp r P n) /\ pts_ok P /\ in_s16 w.
Proof.
  intros s r c v I C S0 S1 [Q1 Q2]. unfold quadratic_value. cbv zeta.
  assert (X : exists P n, (if dlt d0 (r_rate r) then
       if dlt (dsub (r_rem r) (r_rate r)) d0 then n <- d_to_s32 (dneg (dfloor (dsub (r_rem r) (r_rate r)))) ;; push_points (Z.to_nat (Z.min n 4)) true r (Z.of_nat c) else Ok r
     else if dlt (r_rate r) d0 then
       if dlt d0 (dsub (r_rem r) (r_rate r)) then n <- d_to_s32 (dceil (dsub (r_rem r) (r_rate r))) ;; push_points (Z.to_nat (Z.min n 4)) false r (Z.of_nat c) else Ok r
     else Ok r) = Ok (wp r P n) /\ pts_ok P).
  { assert (SAME : exists P n, Ok r = Ok (wp r P n) /\ pts_ok P) by (exists (r_pts r), (r_npts r); rewrite wp_id; split; [reflexivity|apply I]).
    destruct (dlt d0 (r_rate r)).
    - destruct (dlt (dsub (r_rem r) (r_rate r)) d0); [|exact SAME]. destruct (Q1 eq_refl eq_refl) as (n & -> & R). cbn [bind]. eapply push_in; eauto.
    - destruct (dlt (r_rate r) d0); [|exact SAME]. destruct (dlt d0 (dsub (r_rem r) (r_rate r))); [|exact SAME].
      destruct (Q2 eq_refl eq_refl) as (n & -> & R). cbn [bind]. eapply push_in; eauto. }
  destruct X as (P & n & -> & K). cbn [bind]. unfold chan_ok. destruct (Z.leb_spec 0 (Z.of_nat c)); [|lia]. destruct (Z.ltb_spec (Z.of_nat c) 8); [|lia]. cbn [andb bind].
  change (r_npts (wp r P n) (Z.of_nat c)) with (n (Z.of_nat c)). change (r_pts (wp r P n) (Z.of_nat c)) with (P (Z.of_nat c)).
  destruct (4 <=? n (Z.of_nat c)).
  - destruct (K (Z.of_nat c)) as (K0 & K1 & K2 & K3). destruct (abscissa (r_rem r) (i_remf _ _ I) (i_rem _ _ I)) as [F X].
    destruct (cubic_accuracy _ _ _ _ _ K0 K1 K2 K3 F X) as (w & EW & W & _).
    match goal with |- context [fastinterpolate ?a ?b ?c ?d ?x] => change (fastinterpolate a b c d x) with (fastinterpolate a b c d (f_of_d (dadd d1 (dabs (r_rem r))))) end.
    rewrite EW. cbn [bind]. exists w, P, n. auto.
  - exists 0, P, n. split; [reflexivity|]. split; [exact K|]. unfold in_s16; lia.
Qed.

(* Linear interpolation looks one frame back, if there is one, or one frame ahead *)
Definition lin_room (s : Z) (rem rate : b64) : Prop :=
  dlt d0 (dabs rem) = true -> dlt rate (dneg d1) = true -> s + 2 * N <= len * N.
Lemma lin_in : forall s r c v, ist s r -> (c < nch)%nat -> 0 <= s -> s + N <= len * N -> in_s16 v -> lin_room s (r_rem r) (r_rate r) ->
  exists w P n, linear_value r (Z.of_nat c) v = Ok (w, wp r P n) /\ pts_ok P /\ in_s16 w.
Proof.
  intros s r c v I C S0 S1 V L. pose proof (sizes m off len nch HA) as (Z1 & Z2 & Z3 & Z4). unfold linear_value. cbv zeta.
  destruct (dlt d0 (dabs (r_rem r))) eqn:AR.
  - assert (CK : chan_ok (Z.of_nat c) = Ok tt).
    { unfold chan_ok. destruct (Z.leb_spec 0 (Z.of_nat c)); [|lia]. destruct (Z.ltb_spec (Z.of_nat c) 8); [|lia]. reflexivity. }
    rewrite CK. cbn [bind].
    assert (SAME : exists P n, Ok r = Ok (wp r P n) /\ pts_ok P) by (exists (r_pts r), (r_npts r); rewrite wp_id; split; [reflexivity|apply I]).
    assert (ADD : forall e, (exists P n, e = Ok (wp r P n) /\ pts_ok P) -> exists P n, (r' <- e ;; addPoint r' (Z.of_nat c) v) = Ok (wp r P n) /\ pts_ok P).
    { intros e (P & n & -> & K). cbn [bind]. destruct (add_in (wp r P n) c v C K V) as (P2 & n2 & E & K2). exists P2, n2. rewrite E, wp_wp. auto. }
    assert (SET : forall w, in_s16 w -> exists P n, @Ok reader (r <| r_pts := upd (r_pts r) (Z.of_nat c) (r_pts r (Z.of_nat c) <| y1 := w |>) |>) = Ok (wp r P n) /\ pts_ok P).
    { intros w W. exists (upd (r_pts r) (Z.of_nat c) (r_pts r (Z.of_nat c) <| y1 := w |>)), (r_npts r). split; [destruct r; reflexivity|].
      intros x. unfold upd. destruct (_ =? _); [|apply I]. destruct (i_pts _ _ I (Z.of_nat c)) as (? & ? & ? & ?). split; [|split; [|split]]; cbn; assumption. }
    match goal with |- exists w P n, (r1 <- ?e ;; _) = _ /\ _ /\ _ => assert (X : exists P n, e = Ok (wp r P n) /\ pts_ok P) end.
    { rewrite (i_dual _ _ I). destruct (dlt d0 (r_rate r)).
      - destruct (dlt (dsub (r_rem r) (r_rate r)) d0); [|exact SAME]. apply ADD. destruct (_ && _); [|exact SAME].
        rewrite (i_pos _ _ I), (i_nch _ _ I), (i_hdr _ _ I). rewrite chk32_ok by (unfold in_s32; lia). cbn [bind Z.mul]. rewrite chk32_ok by (unfold in_s32; lia). cbn [bind].
        destruct (Z.ltb_spec 0 (s - N)); [|exact SAME]. rewrite <- (i_pos _ _ I).
        destruct (get_in s r (-1) c I C) as (w & E & W); try lia. rewrite E. cbn [bind]. now apply SET.
      - destruct (dlt (r_rate r) d0); [|exact SAME]. destruct (dlt d0 (dsub (r_rem r) (r_rate r))); [|exact SAME]. apply ADD.
        destruct (_ && dlt (r_rate r) (dneg d1)) eqn:B; [|exact SAME]. apply andb_prop in B. destruct B as [_ B]. specialize (L AR B).
        destruct (get_in s r 1 c I C) as (w & E & W); try lia. rewrite E. cbn [bind]. now apply SET. }
    destruct X as (P & n & -> & K). cbn [bind]. 
    change (r_npts (wp r P n) (Z.of_nat c)) with (n (Z.of_nat c)). change (r_pts (wp r P n) (Z.of_nat c)) with (P (Z.of_nat c)).
    destruct (1 <? n (Z.of_nat c)); [|exists v, P, n; auto].
    destruct (K (Z.of_nat c)) as (K0 & K1 & _).
    destruct (mix_safe (dabs (r_rem r)) (y1 (P (Z.of_nat c))) (y0 (P (Z.of_nat c)))) as (w & -> & W); auto.
    { split; [rewrite fin_abs; apply I|]. rewrite R64_abs. pose proof (Rabs_pos (R64 (r_rem r))). pose proof (i_rem _ _ I). lra. }
    cbn [bind]. exists w, P, n. auto.
  - destruct (add_in r c v C (i_pts _ _ I) V) as (P & n & -> & K). cbn [bind]. change (r_pts (wp r P n) (Z.of_nat c)) with (P (Z.of_nat c)).
    destruct (K (Z.of_nat c)) as (K0 & _). eauto 6.
Qed.

Definition roomy (s : Z) (r : reader) : Prop :=
  match r_interp r with INone => True | ILinear => lin_room s (r_rem r) (r_rate r) | IQuadratic => quad_room s (r_rem r) (r_rate r) end.

Lemma channels_in : forall s todo c r, ist s r -> (c + todo <= nch)%nat -> 0 <= s -> s + N <= len * N -> roomy s r -> at_end r = false ->
  exists l P n, read_channels 1 todo (Z.of_nat c) r = Ok (Some l, wp r P n) /\ pts_ok P /\ length l = todo /\ Forall in_s16 l.
Proof.
  intros s. induction todo as [|todo IH]; intros c r I C S0 S1 R E.
  - exists [], (r_pts r), (r_npts r). rewrite wp_id. split; [reflexivity|]. split; [apply I|]. auto.
  - cbn [read_channels read_one]. unfold readNextValue at 1. rewrite E. unfold fetch_value. rewrite (i_dual _ _ I). cbn [negb orb].
    destruct (get_in s r 0 c I ltac:(lia)) as (v & G & V); try lia. rewrite G. cbn [bind].
    assert (X : exists w P n, match r_interp r with INone => Ok (v, r) | ILinear => linear_value r (Z.of_nat c) v | IQuadratic => quadratic_value r (Z.of_nat c) v end
       = Ok (w, wp r P n) /\ pts_ok P /\ in_s16 w).
    { unfold roomy in R. destruct (r_interp r).
      - exists v, (r_pts r), (r_npts r). rewrite wp_id. split; [reflexivity|]. split; [apply I|exact V].
      - eapply lin_in; eauto; lia.
      - eapply quad_in; eauto; lia. }
    destruct X as (w & P & n & -> & K & W). cbn [bind].
    replace (Z.of_nat c + 1) with (Z.of_nat (S c)) by lia.
    destruct (IH (S c) (wp r P n)) as (l & P2 & n2 & -> & K2 & LN & A); auto using ist_wp; [lia|].
    cbn [bind option_map]. rewrite wp_wp. exists (w :: l), P2, n2. cbn [length]. auto.
Qed.
End Fetch.

(* ---- the rounded step ------------------------------------------------------ *)

Lemma fmt64_R64 : forall x : b64, fmt64 (R64 x).
Proof. intros x. apply generic_format_B2R. Qed.
Lemma fmt_fin : forall x, fmt64 (R64 x). Proof. exact fmt64_R64. Qed.

(* how many points are pushed, forward *)
Lemma count_fwd : forall rem rate a, fin64 rem = true -> fin64 rate = true -> (Rabs (R64 rem) <= 1)%R -> (Rabs (R64 rate) <= IZR (2 ^ 30))%R ->
  0 <= a <= 2 ^ 30 -> (- IZR a <= R64 rem - R64 rate)%R -> dlt (dsub rem rate) d0 = true ->
  exists n, d_to_s32 (dneg (dfloor (dsub rem rate))) = Ok n /\ 1 <= n <= a.
Proof.
  intros rem rate a F G B C A D L. apply Rabs_le_inv in B. apply Rabs_le_inv in C. rewrite <- abs_IZR in C || idtac.
  assert (P30 : IZR (2 ^ 30) = 1073741824%R) by reflexivity. rewrite P30 in C.
  destruct (dsub_ok rem rate F G) as [E H]. { apply big_ok. apply Rabs_le. lra. }
  rewrite dlt_R in L by (auto using fin_d0). rewrite R64_d0 in L. apply Rlt_bool_true_iff in L || (revert L; case Rlt_bool_spec; [intros L _|discriminate]).
  destruct (dfloor_R (dsub rem rate)) as [E2 H2]. set (d := dsub rem rate) in *. clearbody d.
  assert (LO : (- IZR a <= R64 d)%R).
  { rewrite E, <- opp_IZR. rewrite <- (rnd64_id (IZR (- a))) by (apply fmt64_Z; lia). apply rnd64_le. rewrite opp_IZR. exact D. }
  assert (F1 : - a <= Zfloor (R64 d)) by (apply Zfloor_lub; rewrite opp_IZR; exact LO).
  assert (F2 : Zfloor (R64 d) < 0). { apply lt_IZR. pose proof (Zfloor_lb (R64 d)). lra. }
  exists (- Zfloor (R64 d)). split; [|lia]. rewrite d_to_s32_ok.
  - rewrite R64_neg, E2, <- opp_IZR, Ztrunc_IZR. reflexivity.
  - rewrite fin_neg, H2. exact H.
  - rewrite R64_neg, E2, <- opp_IZR, Ztrunc_IZR. unfold in_s32. lia.
Qed.
Lemma count_bwd : forall rem rate a, fin64 rem = true -> fin64 rate = true -> (Rabs (R64 rem) <= 1)%R -> (Rabs (R64 rate) <= IZR (2 ^ 30))%R ->
  0 <= a <= 2 ^ 30 -> (R64 rem - R64 rate <= IZR a)%R -> dlt d0 (dsub rem rate) = true ->
  exists n, d_to_s32 (dceil (dsub rem rate)) = Ok n /\ 1 <= n <= a.
Proof.
  intros rem rate a F G B C A D L. apply Rabs_le_inv in B. apply Rabs_le_inv in C.
  assert (P30 : IZR (2 ^ 30) = 1073741824%R) by reflexivity. rewrite P30 in C.
  destruct (dsub_ok rem rate F G) as [E H]. { apply big_ok. apply Rabs_le. lra. }
  rewrite dlt_R in L by (auto using fin_d0). rewrite R64_d0 in L. revert L; case Rlt_bool_spec; [intros L _|discriminate].
  destruct (dceil_R (dsub rem rate)) as [E2 H2]. set (d := dsub rem rate) in *. clearbody d.
  assert (UP : (R64 d <= IZR a)%R).
  { rewrite E. rewrite <- (rnd64_id (IZR a)) by (apply fmt64_Z; lia). apply rnd64_le. exact D. }
  assert (F1 : Zceil (R64 d) <= a) by (apply Zceil_glb; exact UP).
  assert (F2 : 0 < Zceil (R64 d)). { apply lt_IZR. pose proof (Zceil_ub (R64 d)). lra. }
  exists (Zceil (R64 d)). split; [|lia]. rewrite d_to_s32_ok.
  - rewrite E2, Ztrunc_IZR. reflexivity.
  - rewrite H2. exact H.
  - rewrite E2, Ztrunc_IZR. unfold in_s32. lia.
Qed.

Section Run.
Variables (m : mem) (off len : Z) (nch : nat) (x : b64) (i : interp) (l : loop_type) (ps : play_start).
Hypothesis (HA : array_holds m off len nch) (HC : (nch <= 8)%nat) (FX : fin64 x = true).
Hypothesis (BX : (Rabs (R64 x) <= IZR (2 ^ 26))%R).
Local Notation N := (Z.of_nat nch).

Record ins (s : Z) (r : reader) : Prop := mkIns {
  n_ist : ist m off len nch s r; n_interp : r_interp r = i; n_rate : r_rate r = x; n_loop : r_loop r = l; n_ps : r_pstart r = ps }.

Lemma ins_wp : forall s r P n, ins s r -> pts_ok P -> ins s (wp r P n).
Proof. intros s r P n [] K. constructor; auto. now apply ist_wp. Qed.

(* one advance, by a frames *)
Lemma step_ok : forall s r, ins s r -> 0 <= s -> s + N <= len * N ->
  exists a y, advance r = Ok (r <| r_rem := y |> <| r_pos1 := s + a * N |>) /\ fin64 y = true /\ (Rabs (R64 y) <= 1)%R /\
    - 2 ^ 27 <= a <= 2 ^ 27 /\
    ((0 <= R64 (r_rem r))%R -> (0 <= R64 x)%R -> 0 <= a /\ (0 <= R64 y)%R /\ (- IZR a <= R64 y - R64 x)%R) /\
    ((R64 (r_rem r) <= 0)%R -> (R64 x <= 0)%R -> a <= 0 /\ (R64 y <= 0)%R /\ (R64 y - R64 x <= IZR (- a))%R /\ ((R64 x < -1)%R -> a <= -1)).
Proof.
  intros s r I S0 S1. pose proof (sizes m off len nch HA) as (Z1 & Z2 & Z3 & Z4).
  pose proof (n_ist _ _ I) as J. pose proof (i_rem _ _ _ _ _ _ J) as RB.
  assert (P26 : IZR (2 ^ 26) = 67108864%R) by reflexivity. rewrite P26 in BX. pose proof (Rabs_le_inv _ _ BX) as XB. pose proof (Rabs_le_inv _ _ RB) as RB'.
  remember (step_sum r) as u eqn:UE. assert (U : u = rnd64 (R64 (r_rem r) + R64 x)) by (rewrite UE; unfold step_sum; now rewrite (n_rate _ _ I)).
  assert (UB : (Rabs u <= IZR (2 ^ 26 + 1))%R).
  { rewrite U. apply rnd64_abs_le; [apply fmt64_Z; lia|]. rewrite plus_IZR, P26. apply Rabs_le. lra. }
  rewrite plus_IZR, P26 in UB. apply Rabs_le_inv in UB.
  assert (TB : - 2 ^ 27 <= Ztrunc u <= 2 ^ 27).
  { rewrite <- (Ztrunc_IZR (- 2 ^ 27)) at 1. rewrite <- (Ztrunc_IZR (2 ^ 27)) at 2. assert (P27 : IZR (2 ^ 27) = 134217728%R) by reflexivity.
    split; apply Ztrunc_le; rewrite ?opp_IZR, P27; lra. }
  destruct (advance_plain r) as (y & Y1 & Y2 & Y3 & AD); rewrite <- ?UE in *.
  - apply J.
  - apply J.
  - exact RB.
  - rewrite (n_rate _ _ I). apply Rle_trans with (1 := BX). rewrite bpow_IZR by lia. apply IZR_le. lia.
  - apply J.
  - unfold in_s32. lia.
  - rewrite (i_nch _ _ _ _ _ _ J). unfold in_s32. nia.
  - rewrite (i_nch _ _ _ _ _ _ J), (i_pos _ _ _ _ _ _ J). unfold in_s32. nia.
  - exists (Ztrunc u), y. rewrite AD, (i_nch _ _ _ _ _ _ J), (i_pos _ _ _ _ _ _ J). split; [reflexivity|]. split; [exact Y1|]. split; [lra|]. split; [exact TB|].
    pose proof (rnd64_id _ (fmt64_R64 x)) as XX. split; intros R0 X0.
    + assert (UX : (R64 x <= u)%R) by (pose proof (rnd64_le (R64 x) (R64 (r_rem r) + R64 x) ltac:(lra)); lra).
      destruct (Ztrunc_bounds_pos u ltac:(lra)) as [T1 T2]. split; [rewrite <- (Ztrunc_IZR 0); apply Ztrunc_le; lra|]. rewrite Y2. lra.
    + assert (UX : (u <= R64 x)%R) by (pose proof (rnd64_le (R64 (r_rem r) + R64 x) (R64 x) ltac:(lra)); lra).
      destruct (Ztrunc_bounds_neg u ltac:(lra)) as [T1 T2]. split; [rewrite <- (Ztrunc_IZR 0); apply Ztrunc_le; lra|]. rewrite Y2, opp_IZR. split; [lra|]. split; [lra|].
      intros X1. rewrite <- (Ztrunc_IZR (-1)). apply Ztrunc_le. lra.
Qed.

(* What is kept while going forward *)
Definition fsafe (r : reader) : Prop := exists p, ins (p * N) r /\ 0 <= p /\ p <= len + 2 ^ 27 /\ (0 <= R64 (r_rem r))%R /\ roomy len nch (p * N) r.
Lemma fwd_room : forall s r, ins s r -> (0 <= R64 x)%R ->
  (i = IQuadratic -> exists a, 0 <= a <= 2 ^ 27 /\ (- IZR a <= R64 (r_rem r) - R64 x)%R /\ (Z.min a 4 - 1) * N <= s) -> roomy len nch s r.
Proof.
  intros s r I X H. pose proof (sizes m off len nch HA) as (Z1 & _). unfold roomy. rewrite (n_interp _ _ I). destruct i; [exact Logic.I| |].
  - intros _ D. exfalso. rewrite (n_rate _ _ I) in D. rewrite dlt_R in D by (rewrite ?fin_neg; auto using fin_d1). rewrite R64_neg, R64_d1 in D.
    revert D. case Rlt_bool_spec; [lra|discriminate].
  - destruct (H eq_refl) as (a & A & E & S). pose proof (n_ist _ _ I) as J. split.
    + intros _ D. rewrite (n_rate _ _ I) in D |- *. destruct (count_fwd (r_rem r) x a) as (n & EN & NB); auto; try lia; try apply J.
      { apply Rle_trans with (1 := BX). apply IZR_le. lia. }
      exists n. split; [exact EN|]. split; [lia|]. assert (Z.of_nat (Z.to_nat (Z.min n 4)) - 1 <= Z.min a 4 - 1) by lia. nia.
    + intros D. exfalso. rewrite (n_rate _ _ I) in D. rewrite dlt_R in D by auto using fin_d0. rewrite R64_d0 in D. revert D. case Rlt_bool_spec; [lra|discriminate].
Qed.

Hypothesis (HL : l = LNone \/ l = LRepeat /\ 1 <= len /\ (i = IQuadratic -> (R64 x <= 1)%R)).

Lemma fwd_end : forall p r, ins (p * N) r -> 0 <= p -> (0 <= R64 x)%R -> at_end r = (len <=? p).
Proof.
  intros p r I P X. pose proof (sizes m off len nch HA) as (Z1 & Z2 & Z3 & Z4). pose proof (n_ist _ _ I) as J. pose proof HA as (_ & LN & _).
  unfold at_end. rewrite (i_dual _ _ _ _ _ _ J), (n_rate _ _ I), (n_loop _ _ I), (i_pos _ _ _ _ _ _ J), (i_len _ _ _ _ _ _ J), (i_lf _ _ _ _ _ _ J).
  rewrite dge0_true by auto.
  assert (SP : spos r len = len * N).
  { unfold spos, sts. rewrite (i_hdr _ _ _ _ _ _ J), (i_nch _ _ _ _ _ _ J), Z.add_0_l. rewrite u32_id by (unfold in_u32; nia). apply s32_id. unfold in_s32; nia. }
  rewrite SP. destruct l; destruct (Z.leb_spec (len * N) (p * N)), (Z.leb_spec len p); auto; nia.
Qed.

Definition frame_ok (fr : list Z) : Prop := length fr = nch /\ Forall in_s16 fr.
Lemma fwd_frame : forall p r, ins (p * N) r -> 0 <= p < len -> (0 <= R64 x)%R -> (0 <= R64 (r_rem r))%R -> roomy len nch (p * N) r ->
  exists fr r1 r', read_channels 1 nch 0 r = Ok (Some fr, r1) /\ advance r1 = Ok r' /\ fsafe r' /\ frame_ok fr.
Proof.
  intros p r I P X R0 RM. pose proof (sizes m off len nch HA) as (Z1 & Z2 & Z3 & Z4). pose proof (n_ist _ _ I) as J.
  destruct (channels_in m off len nch HA HC (p * N) nch 0 r J) as (fr & P2 & n & E & K & LN & A); auto; try lia; try nia.
  { rewrite (fwd_end p r I) by (auto; lia). apply Z.leb_gt. lia. }
  change (Z.of_nat 0) with 0 in E. pose proof (ins_wp _ _ P2 n I K) as I1. set (r1 := wp r P2 n) in *.
  destruct (step_ok (p * N) r1 I1 ltac:(nia) ltac:(nia)) as (a & y & AD & Y1 & Y2 & AB & FW & _).
  destruct (FW R0 X) as (A0 & Y0 & YX). exists fr, r1. eexists. split; [exact E|]. split; [exact AD|]. split; [|split; auto].
  exists (p + a). assert (I2 : ins ((p + a) * N) (r1 <| r_rem := y |> <| r_pos1 := p * N + a * N |>)).
  { destruct I1 as [[] ? ? ? ?]. constructor; try assumption. constructor; try assumption. change (p * N + a * N = (p + a) * N). ring. }
  split; [exact I2|]. split; [lia|]. split; [lia|]. split; [exact Y0|]. apply fwd_room; auto. intros _. exists a. split; [lia|]. split; [exact YX|]. nia.
Qed.

Lemma fwd_safe : (0 <= R64 x)%R -> keeps_safe fsafe frame_ok.
Proof.
  intros X r (p & I & P & PB & R0 & RM). pose proof (sizes m off len nch HA) as (Z1 & Z2 & Z3 & Z4). pose proof (n_ist _ _ I) as J.
  split; [apply J|]. split; [rewrite (i_nch _ _ _ _ _ _ J); lia|].
  unfold read_frame. rewrite (i_dual _ _ _ _ _ _ J). cbn [bind]. rewrite (i_nch _ _ _ _ _ _ J), Nat2Z.id.
  destruct (Z.ltb_spec p len) as [L|L].
  - destruct (fwd_frame p r I ltac:(lia) X R0 RM) as (fr & r1 & r' & E & AD & S & OKF). exists 1%nat, (Some fr), r'. rewrite E. cbn [bind]. rewrite AD. cbn [bind].
    split; [reflexivity|]. split; [exact S|]. intros v V. injection V as <-. exact OKF.
  - pose proof (fwd_end p r I P X) as E. destruct (Z.leb_spec len p); [|lia]. assert (NN : nch = S (Nat.pred nch)) by lia.
    destruct HL as [LP|(LP & LN & QX)].
    + exists 1%nat, None. eexists. split; [|split].
      * rewrite NN at 1. cbn [read_channels read_one]. unfold readNextValue. rewrite E. cbn [bind]. unfold on_end. change (r_loop (r <| r_cfst := 0 |>)) with (r_loop r).
        rewrite (n_loop _ _ I), LP. cbn [bind]. reflexivity.
      * exists p. split; [|auto]. destruct I as [[] ? ? ? ?]. constructor; try assumption. constructor; try assumption. reflexivity.
      * discriminate.
    + set (r2 := r <| r_cfst := 0 |> <| r_pos1 := 0 |>).
      assert (SP0 : spos (r <| r_cfst := 0 |>) (r_ls (r <| r_cfst := 0 |>)) = 0).
      { change (spos r (r_ls r) = 0). rewrite (i_ls _ _ _ _ _ _ J). unfold spos, sts. rewrite (i_hdr _ _ _ _ _ _ J), Z.mul_0_l. reflexivity. }
      assert (OE : on_end r = Ok (Some r2)).
      { unfold on_end. change (r_loop (r <| r_cfst := 0 |>)) with (r_loop r). rewrite (n_loop _ _ I), LP. change (r_rate (r <| r_cfst := 0 |>)) with (r_rate r).
        rewrite (n_rate _ _ I), dge0_true by auto. rewrite SP0. reflexivity. }
      assert (I2 : ins (0 * N) r2).
      { destruct I as [[] ? ? ? ?]. constructor; try assumption. constructor; try assumption; reflexivity. }
      assert (RM2 : roomy len nch (0 * N) r2).
      { apply fwd_room; auto. intros Q. exists 1. split; [lia|]. split; [|nia]. change (r_rem r2) with (r_rem r). specialize (QX Q). lra. }
      destruct (fwd_frame 0 r2 I2 ltac:(lia) X R0 RM2) as (fr & r1 & r' & E2 & AD & S & OKF).
      exists 2%nat, (Some fr), r'.
      assert (RC : read_channels 2 nch 0 r = read_channels 2 nch 0 r2).
      { rewrite NN. cbn [read_channels]. f_equal. cbn [read_one]. unfold readNextValue at 1. rewrite E. cbn [bind]. rewrite OE. cbn [bind]. symmetry.
        change (read_one 2 0 r2 = read_one 1 0 r2). rewrite NN in E2. cbn [read_channels] in E2. destruct (read_one 1 0 r2) as [q| |] eqn:Q; try discriminate.
        apply (read_one_fuel 1 2); [lia|exact Q]. }
      rewrite RC. rewrite (read_channels_fuel 1 2 nch 0 r2 _ ltac:(lia) E2). cbn [bind]. rewrite AD. cbn [bind].
      split; [reflexivity|]. split; [exact S|]. intros v V. injection V as <-. exact OKF.
Qed.
End Run.

Section Back.
Variables (m : mem) (off len : Z) (nch : nat) (x : b64) (i : interp) (ps : play_start).
Hypothesis (HA : array_holds m off len nch) (HC : (nch <= 8)%nat) (FX : fin64 x = true).
Hypothesis (BX : (Rabs (R64 x) <= IZR (2 ^ 26))%R) (NX : (R64 x < 0)%R).
Local Notation N := (Z.of_nat nch).
Local Notation ins := (ins m off len nch x i LNone ps).

Definition bsafe (r : reader) : Prop := exists s, ins s r /\ - 2 ^ 30 - 8 <= s /\ s + N <= len * N /\ (R64 (r_rem r) <= 0)%R /\ roomy len nch s r.
Lemma bwd_room : forall s r, ins s r ->
  (i = IQuadratic -> exists a, 0 <= a <= 2 ^ 27 /\ (R64 (r_rem r) - R64 x <= IZR a)%R /\ s + Z.min a 4 * N <= len * N) ->
  (i = ILinear -> R64 (r_rem r) = 0%R \/ (-1 <= R64 x)%R \/ s + 2 * N <= len * N) -> roomy len nch s r.
Proof.
  intros s r I H H2. pose proof (sizes m off len nch HA) as (Z1 & _). unfold roomy. rewrite (n_interp _ _ _ _ _ _ _ _ _ _ I). pose proof (n_ist _ _ _ _ _ _ _ _ _ _ I) as J.
  pose proof (i_remf _ _ _ _ _ _ J) as RF. destruct i; [exact Logic.I| |].
  - intros D1 D2. rewrite (n_rate _ _ _ _ _ _ _ _ _ _ I) in D2. rewrite dlt_R in D1 by (rewrite ?fin_abs; auto using fin_d0). rewrite dlt_R in D2 by (rewrite ?fin_neg; auto using fin_d1).
    rewrite R64_abs, R64_d0 in D1. rewrite R64_neg, R64_d1 in D2. revert D1 D2. case Rlt_bool_spec; [|discriminate]. case Rlt_bool_spec; [|discriminate]. intros D2 D1 _ _.
    destruct (H2 eq_refl) as [E|[E|E]]; [rewrite E, Rabs_R0 in D1; lra|lra|exact E].
  - destruct (H eq_refl) as (a & A & E & S). split.
    + intros D. exfalso. rewrite (n_rate _ _ _ _ _ _ _ _ _ _ I) in D. rewrite dlt_R in D by auto using fin_d0. rewrite R64_d0 in D. revert D. case Rlt_bool_spec; [lra|discriminate].
    + intros _ D. rewrite (n_rate _ _ _ _ _ _ _ _ _ _ I) in D |- *. destruct (count_bwd (r_rem r) x a) as (n & EN & NB); auto; try lia; try apply J.
      { apply Rle_trans with (1 := BX). apply IZR_le. lia. }
      exists n. split; [exact EN|]. split; [lia|]. assert (Z.of_nat (Z.to_nat (Z.min n 4)) <= Z.min a 4) by lia. nia.
Qed.

Lemma bwd_end : forall s r, ins s r -> at_end r = (s <? 0).
Proof.
  intros s r I. pose proof (n_ist _ _ _ _ _ _ _ _ _ _ I) as J.
  unfold at_end. rewrite (i_dual _ _ _ _ _ _ J), (n_rate _ _ _ _ _ _ _ _ _ _ I), (i_pos _ _ _ _ _ _ J).
  rewrite dge0_false by auto. rewrite dlt_R by auto using fin_d0. rewrite R64_d0, Rlt_bool_true by exact NX.
  assert (SP : spos r (r_ls r) = 0). { rewrite (i_ls _ _ _ _ _ _ J). unfold spos, sts. rewrite (i_hdr _ _ _ _ _ _ J), Z.mul_0_l. reflexivity. }
  rewrite SP, (i_hdr _ _ _ _ _ _ J). destruct (r_pstart r); reflexivity.
Qed.

Lemma bwd_safe : keeps_safe bsafe (frame_ok nch).
Proof.
  intros r (s & I & P & PB & R0 & RM). pose proof (sizes m off len nch HA) as (Z1 & Z2 & Z3 & Z4). pose proof (n_ist _ _ _ _ _ _ _ _ _ _ I) as J.
  split; [apply J|]. split; [rewrite (i_nch _ _ _ _ _ _ J); lia|].
  unfold read_frame. rewrite (i_dual _ _ _ _ _ _ J). cbn [bind]. rewrite (i_nch _ _ _ _ _ _ J), Nat2Z.id.
  pose proof (bwd_end s r I) as E. exists 1%nat. destruct (Z.ltb_spec s 0) as [L|L].
  - exists None. eexists. assert (NN : nch = S (Nat.pred nch)) by lia. split; [|split].
    + rewrite NN at 1. cbn [read_channels read_one]. unfold readNextValue. rewrite E. cbn [bind]. unfold on_end. change (r_loop (r <| r_cfst := 0 |>)) with (r_loop r).
      rewrite (n_loop _ _ _ _ _ _ _ _ _ _ I). cbn [bind]. reflexivity.
    + exists s. split; [|auto]. destruct I as [[] ? ? ? ?]. constructor; try assumption. constructor; try assumption. reflexivity.
    + discriminate.
  - destruct (channels_in m off len nch HA HC s nch 0 r J) as (fr & P2 & n & E1 & K & LN & A); auto; try lia.
    change (Z.of_nat 0) with 0 in E1. pose proof (ins_wp _ _ _ _ _ _ _ _ _ _ P2 n I K) as I1. set (r1 := wp r P2 n) in *.
    destruct (step_ok m off len nch x i LNone ps HA HC BX s r1 I1 L PB) as (a & y & AD & Y1 & Y2 & AB & _ & BW).
    destruct (BW R0 ltac:(lra)) as (A0 & Y0 & YX & A1). exists (Some fr). eexists. rewrite E1. cbn [bind]. rewrite AD. cbn [bind]. split; [reflexivity|].
    split; [|intros v V; injection V as <-; split; auto].
    exists (s + a * N). assert (I2 : ins (s + a * N) (r1 <| r_rem := y |> <| r_pos1 := s + a * N |>)).
    { destruct I1 as [[] ? ? ? ?]. constructor; try assumption. constructor; try assumption. reflexivity. }
    split; [exact I2|]. split; [nia|]. split; [nia|]. split; [exact Y0|]. apply bwd_room; auto.
    + intros _. exists (- a). split; [lia|]. split; [exact YX|]. nia.
    + intros _. destruct (Rle_or_lt (-1) (R64 x)) as [?|X1]; [auto|]. right. right. specialize (A1 X1). nia.
Qed.
End Back.

(* ---- the theorems ------------------------------------------------------------ *)

(* Every session succeeds, with frames of nch 16-bit samples *)
Definition sessions_safe (r : reader) (nch : nat) : Prop :=
  forall ns, exists fuel bs r', read_seq fuel r ns = Ok (bs, r') /\
    Forall (Forall (fun fr => length fr = nch /\ Forall in_s16 fr)) bs.

Lemma reset_pts : forall r r', r_reset r = Ok r' -> r_pts r' = r_pts r.
Proof.
  intros r r' E. unfold r_reset in E. apply bind_ok in E. destruct E as (p & _ & E). apply Ok_inj in E. now rewrite <- E.
Qed.
Lemma playRaw_pts : forall r m off len n r', playRaw_array r m off len n = Ok r' -> r_pts r' = r_pts r.
Proof.
  intros r m off len n r' H. rewrite playRaw_setup in H.
  assert (Q : r_pts (raw_setup r m off len n) = r_pts r) by reflexivity. set (r0 := raw_setup r m off len n) in *. clearbody r0.
  apply bind_ok in H. destruct H as (r1 & E & H). apply reset_pts in E. apply Ok_inj in H. rewrite <- H. change (r_pts r1 = r_pts r). congruence.
Qed.

Theorem forward_safe : forall m off len nch r i l ps pb, array_holds m off len nch -> (nch <= 8)%nat -> interp_settings i r l ps pb ->
  pts_ok (r_pts r) -> fin64 (r_rate r) = true -> (0 <= R64 (r_rate r) <= IZR (2 ^ 26))%R -> (ps = PArbitrary -> 0 <= pb <= len) ->
  let p0 := match ps with PArbitrary => pb | _ => 0 end in
  l = LNone \/ l = LRepeat /\ 1 <= len /\ (i = IQuadratic -> (R64 (r_rate r) <= 1)%R) ->
  (i = IQuadratic -> Z.min (Zceil (R64 (r_rate r))) 4 - 1 <= p0) ->
  exists r', playRaw_array r m off len (Z.of_nat nch) = Ok r' /\ sessions_safe r' nch.
Proof.
  intros m off len nch r i l ps pb A NC (I & B) PT F X HPB p0 HL HQ.
  destruct (playRaw_fwd m off len nch _ l ps pb A B) as (r' & E & PL & SR & R1 & FS & LP & RM & L0 & L1 & PS & PO); auto.
  { apply X. }
  pose proof (playRaw_interp (setInterpolationType r INone) i m off len (Z.of_nat nch)) as PI. rewrite E in PI. cbn [bind] in PI. rewrite (interp_set r i I) in PI.
  exists (setInterpolationType r' i). split; [exact PI|].
  assert (BX : (Rabs (R64 (r_rate r)) <= IZR (2 ^ 26))%R) by (rewrite Rabs_pos_eq; apply X).
  assert (FI : fsafe m off len nch (r_rate r) i l ps (setInterpolationType r' i)).
  { destruct B as (B1 & B2 & B3 & B4 & B5 & B6 & B7). change (r_rem (setInterpolationType r INone)) with (r_rem r) in *.
    exists p0. assert (INS : ins m off len nch (r_rate r) i l ps (p0 * Z.of_nat nch) (setInterpolationType r' i)).
    { constructor; [constructor|..]; try reflexivity; try assumption; try apply PL.
      - change (pts_ok (r_pts r')). rewrite (playRaw_pts _ _ _ _ _ _ E). exact PT.
      - change (fin64 (r_rem r') = true). rewrite RM. exact B6.
      - change (Rabs (R64 (r_rem r')) <= 1)%R. rewrite RM. change (r_rem (setInterpolationType r INone)) with (r_rem r). rewrite B7, Rabs_R0. lra.
      - change (fin64 (r_rate r') = true). rewrite R1. exact F. }
    assert (RZ : R64 (r_rem (setInterpolationType r' i)) = 0%R) by (change (R64 (r_rem r') = 0%R); rewrite RM; exact B7).
    assert (P0 : 0 <= p0 <= len) by (unfold p0; destruct A as (_ & ? & _); destruct ps; try lia; auto).
    split; [exact INS|]. split; [lia|]. split; [lia|]. split; [rewrite RZ; lra|]. eapply fwd_room; eauto; [apply X|].
    intros Q. specialize (HQ Q).
    exists (Zceil (R64 (r_rate r))). rewrite RZ.
    assert (C0 : 0 <= Zceil (R64 (r_rate r))). { rewrite <- (Zceil_IZR 0). apply Zceil_le. apply X. }
    assert (C1 : Zceil (R64 (r_rate r)) <= 2 ^ 26) by (apply Zceil_glb; apply X).
    split; [lia|]. split; [pose proof (Zceil_ub (R64 (r_rate r))); lra|]. destruct A as (_ & _ & _ & _ & ? & _). nia. }
  intros ns. destruct (safe_seq _ _ (fwd_safe m off len nch (r_rate r) i l ps A NC F BX HL (proj1 X)) ns _ FI) as (fu & bs & s & Q & _ & K). eauto.
Qed.

Theorem backward_safe : forall m off len nch r i ps pb s0, array_holds m off len nch -> (nch <= 8)%nat -> interp_settings i r LNone ps pb ->
  pts_ok (r_pts r) -> fin64 (r_rate r) = true -> (- IZR (2 ^ 26) <= R64 (r_rate r) < 0)%R -> (ps = PArbitrary -> 0 <= pb < len) ->
  s0 = match ps with PSample => len - Z.of_nat nch | PLoop => (len - Z.of_nat nch) * Z.of_nat nch | PArbitrary => pb * Z.of_nat nch end ->
  (i = IQuadratic -> s0 + Z.min (Zceil (- R64 (r_rate r))) 4 * Z.of_nat nch <= len * Z.of_nat nch) ->
  exists r', playRaw_array r m off len (Z.of_nat nch) = Ok r' /\ r_pos1 r' = s0 /\ sessions_safe r' nch.
Proof.
  intros m off len nch r i ps pb s0 A NC (I & B) PT F X HPB S0 HQ. pose proof (sizes m off len nch A) as (Z1 & Z2 & Z3 & Z4). pose proof A as (_ & LN & _).
  destruct (playRaw_bwd m off len nch _ LNone ps pb A B) as (r' & E & PL & SR & R1 & FS & LP & RM & L0 & L1 & PS & PO); auto.
  { apply X. } { intros Q. specialize (HPB Q). lia. }
  pose proof (playRaw_interp (setInterpolationType r INone) i m off len (Z.of_nat nch)) as PI. rewrite E in PI. cbn [bind] in PI. rewrite (interp_set r i I) in PI.
  assert (PO' : r_pos1 r' = s0). { rewrite PO, S0. destruct ps; auto. apply s32_id. unfold in_s32. nia. }
  exists (setInterpolationType r' i). split; [exact PI|]. split; [exact PO'|].
  assert (BX : (Rabs (R64 (r_rate r)) <= IZR (2 ^ 26))%R) by (apply Rabs_le; lra).
  assert (FI : bsafe m off len nch (r_rate r) i ps (setInterpolationType r' i)).
  { destruct B as (B1 & B2 & B3 & B4 & B5 & B6 & B7). change (r_rem (setInterpolationType r INone)) with (r_rem r) in *.
    exists s0. assert (INS : ins m off len nch (r_rate r) i LNone ps s0 (setInterpolationType r' i)).
    { constructor; [constructor|..]; try reflexivity; try assumption; try apply PL.
      - change (pts_ok (r_pts r')). rewrite (playRaw_pts _ _ _ _ _ _ E). exact PT.
      - change (fin64 (r_rem r') = true). rewrite RM. exact B6.
      - change (Rabs (R64 (r_rem r')) <= 1)%R. rewrite RM. change (r_rem (setInterpolationType r INone)) with (r_rem r). rewrite B7, Rabs_R0. lra.
      - change (fin64 (r_rate r') = true). rewrite R1. exact F. }
    assert (RZ : R64 (r_rem (setInterpolationType r' i)) = 0%R) by (change (R64 (r_rem r') = 0%R); rewrite RM; exact B7).
    assert (SB : - 2 ^ 30 - 8 <= s0 /\ s0 + Z.of_nat nch <= len * Z.of_nat nch).
    { rewrite S0. destruct ps; [nia|nia|]. specialize (HPB eq_refl). nia. }
    split; [exact INS|]. split; [lia|]. split; [lia|]. split; [rewrite RZ; lra|]. eapply bwd_room; eauto.
    - lra.
    - intros Q. specialize (HQ Q). exists (Zceil (- R64 (r_rate r))). rewrite RZ.
      assert (C0 : 0 <= Zceil (- R64 (r_rate r))). { rewrite <- (Zceil_IZR 0). apply Zceil_le. lra. }
      assert (C1 : Zceil (- R64 (r_rate r)) <= 2 ^ 26) by (apply Zceil_glb; lra).
      split; [lia|]. split; [pose proof (Zceil_ub (- R64 (r_rate r))); lra|exact HQ]. }
  intros ns. destruct (safe_seq _ _ (bwd_safe m off len nch (r_rate r) i ps A NC F BX (proj2 X)) ns _ FI) as (fu & bs & s & Q & _ & K). eauto.
Qed.
