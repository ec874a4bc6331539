(* What interpolated playback of an array delivers at rates up to 1: the source,
   interpolated one (linear) or two (quadratic) frames late: C74, C75. *)

From Coq Require Import ZArith Lia List Bool Reals Lra.
From RecordUpdate Require Import RecordUpdate.
From Flocq Require Import Core.Core IEEE754.BinarySingleNaN.
From Verif Require Import Machine Floats FloatFacts WavModel InterpModel CacheModel CacheFacts ReaderModel
  ReaderFacts ReaderSpec Sessions StreamFacts Walk ForwardProofs LifeProofs FadeSpec FadeProofs FadeLoop CubicProofs QuadProofs InterpSafe.
Import ListNotations.
Local Open Scope Z_scope.

Section Late.
(* the audio starts at byte off of the memory, behind a header of h samples *)
Variables (m : mem) (off h len : Z) (nch : nat) (p0 : Z) (x : b64) (i : interp) (old : nat -> Z).
Hypothesis (HA : array_holds m off len nch) (HH : fits h len nch) (HC : (nch <= 8)%nat) (HP : 0 <= p0) (HG : grid_rate x) (HX : (0 < R64 x <= 1)%R) (HI : i <> INone).
Local Notation N := (Z.of_nat nch).
Local Notation smp := (smp m off nch).
Local Notation X := (R64 x).

(* whole and fractional part of the time k * x *)
Definition whole (k : nat) : Z := Zfloor (INR k * X).
Definition part (k : nat) : R := (INR k * X - IZR (whole k))%R.

Lemma part_bounds : forall k, (0 <= part k < 1)%R. Proof. intros k. apply Zfloor_frac. Qed.
Lemma whole_0 : whole 0 = 0. Proof. unfold whole. cbn [INR]. rewrite Rmult_0_l. apply (Zfloor_IZR 0). Qed.
Lemma part_0 : part 0 = 0%R. Proof. unfold part. rewrite whole_0. cbn [INR]. lra. Qed.
Lemma whole_S : forall k, whole k <= whole (S k) <= whole k + 1.
Proof.
  intros k. pose proof (part_bounds k) as B. pose proof (part_bounds (S k)) as C. unfold part in *. rewrite S_INR in C.
  split; [apply Zfloor_le; rewrite S_INR; lra|]. assert (IZR (whole (S k)) < IZR (whole k + 1) + 1)%R; [rewrite plus_IZR; lra|].
  rewrite <- plus_IZR in H. apply lt_IZR in H. lia.
Qed.
Lemma whole_pos : forall k, 0 <= whole k.
Proof. intros k. apply Zfloor_lub. apply Rmult_le_pos; [apply pos_INR|lra]. Qed.

(* a frame that was not there before is entered with output frame k *)
Definition fresh (k : nat) : bool := match k with O => true | S j => whole j <? whole k end.
Lemma part_zero_fresh : forall k, part k = 0%R -> fresh k = true.
Proof.
  intros [|k] Z; [reflexivity|]. cbn [fresh]. apply Z.ltb_lt. pose proof (part_bounds k) as B. unfold part in *. rewrite S_INR in Z. apply lt_IZR. lra.
Qed.
(* the sum rem - rate: exact, between -1 and 1, negative exactly when fresh *)
Lemma diff_exact : forall k, fmt64 (part k - X).
Proof.
  intros k. destruct HG as (F & num & q & E & Hq & Hn). set (D := 2 ^ q). assert (HD : 0 < D) by (apply Z.pow_pos_nonneg; lia).
  assert (HB : bpow radix2 (- q) = (/ IZR D)%R) by (rewrite bpow_opp, bpow_IZR by lia; reflexivity).
  assert (FL : whole k = Z.of_nat k * num / D).
  { unfold whole. rewrite <- Zfloor_div by lia. f_equal. rewrite E, HB, mult_IZR, <- INR_IZR_INZ. unfold Rdiv. ring. }
  unfold part. rewrite FL, E. replace (INR k * (IZR num * bpow radix2 (- q)) - IZR (Z.of_nat k * num / D) - IZR num * bpow radix2 (- q))%R
    with (IZR ((Z.of_nat k * num) mod D - num) * bpow radix2 (- q))%R.
  - apply fmt64_me; [|lia]. pose proof (Z.mod_pos_bound (Z.of_nat k * num) D HD). assert (D <= 2 ^ 52) by (apply Z.pow_le_mono_r; lia). lia.
  - rewrite minus_IZR. rewrite Z.mod_eq by lia. rewrite minus_IZR, !mult_IZR, <- INR_IZR_INZ, HB. field. apply IZR_neq. lia.
Qed.
Lemma diff_sign : forall k, (-1 <= part k - X <= 1)%R /\ ((part k - X < 0)%R <-> fresh k = true).
Proof.
  intros k. pose proof (part_bounds k) as B. split; [lra|]. destruct k as [|k].
  - rewrite part_0. cbn. split; [auto|lra].
  - cbn [fresh]. rewrite Z.ltb_lt. pose proof (part_bounds k) as C. unfold part in *. rewrite S_INR in *. pose proof (whole_S k) as W. split; intros H.
    + apply lt_IZR. lra.
    + assert (Q : whole (S k) = whole k + 1) by lia. rewrite Q, plus_IZR. lra.
Qed.
Lemma dsub_diff : forall y k, fin64 y = true -> R64 y = part k -> R64 (dsub y x) = (part k - X)%R /\ fin64 (dsub y x) = true /\ dlt (dsub y x) d0 = fresh k.
Proof.
  intros y k F E. destruct (diff_sign k) as [B S]. destruct (dsub_ok y x F (proj1 HG)) as [V G]. { apply big_ok. rewrite E. apply Rabs_le. lra. }
  rewrite E, rnd64_id in V by apply diff_exact. split; [exact V|]. split; [exact G|]. rewrite dlt_R, R64_d0, V by (auto using fin_d0).
  case Rlt_bool_spec; intros H; [symmetry; now apply S|]. destruct (fresh k); [|reflexivity]. exfalso. assert (part k - X < 0)%R by now apply S. lra.
Qed.
Lemma one_pushed : forall y k, fin64 y = true -> R64 y = part k -> fresh k = true -> d_to_s32 (dneg (dfloor (dsub y x))) = Ok 1.
Proof.
  intros y k F E FR. destruct (dsub_diff y k F E) as (V & G & _). destruct (diff_sign k) as [B S]. apply S in FR.
  destruct (dfloor_R (dsub y x)) as [E2 H2]. assert (Q : Zfloor (R64 (dsub y x)) = -1) by (rewrite V; apply Zfloor_imp; cbn; lra).
  rewrite d_to_s32_ok; rewrite ?R64_neg, ?E2, ?Q, <- ?opp_IZR, ?Ztrunc_IZR; [reflexivity|rewrite fin_neg, H2; exact G|unfold in_s32; lia].
Qed.

(* ---- one channel ------------------------------------------------------------ *)

(* the points of channel c when frames up to number w of the source have been met *)
Definition met (w : Z) (c : nat) (q : quad) (n : Z) : Prop :=
  match i with
  | INone => True
  | ILinear => n = Z.min (w + 1) 2 /\ (0 <= w -> y1 q = smp (p0 + w) c) /\ (1 <= w -> y0 q = smp (p0 + w - 1) c) /\
      (w = -1 -> y1 q = old c) /\ (w = 0 -> y0 q = old c)
  | IQuadratic => n = Z.min (w + 1) 4 /\ (0 <= w -> y3 q = smp (p0 + w) c) /\ (1 <= w -> y2 q = smp (p0 + w - 1) c) /\
      (2 <= w -> y1 q = smp (p0 + w - 2) c) /\ (3 <= w -> y0 q = smp (p0 + w - 3) c)
  end.
Definition before (k : nat) : Z := match k with O => -1 | S j => whole j end.
Lemma fresh_before : forall k, whole k = if fresh k then before k + 1 else before k.
Proof.
  intros [|k]; [apply whole_0|]. cbn [fresh before]. pose proof (whole_S k). destruct (Z.ltb_spec (whole k) (whole (S k))); lia.
Qed.

(* the value delivered *)
Definition late (y : b64) (k : nat) (c : nat) : Z :=
  let w := whole k in
  match i with
  | INone => 0
  | ILinear =>
      if Req_bool (part k) 0 then (if w =? 0 then old c else smp (p0 + w - 1) c)
      else if w =? 0 then smp p0 c
      else match mix16 (dabs y) (smp (p0 + w) c) (dsub d1 (dabs y)) (smp (p0 + w - 1) c) with Ok v => v | _ => 0 end
  | IQuadratic =>
      if w <? 3 then 0
      else match fastinterpolate (smp (p0 + w - 3) c) (smp (p0 + w - 2) c) (smp (p0 + w - 1) c) (smp (p0 + w) c) (f_of_d (dadd d1 (dabs y))) with Ok v => v | _ => 0 end
  end.

(* state after k frames *)
Definition lst (k : nat) (r : reader) : Prop := fwd_inv h len nch p0 x k (setInterpolationType r INone) /\ r_interp r = i /\ r_src r = SArr m (off - 2 * h).

Lemma lst_wp : forall k r P n, lst k r -> lst k (wp r P n).
Proof.
  intros k r P n ([PL ? ? ? ? ? ?] & I & S). split; [|split; assumption]. constructor; try assumption. destruct PL; constructor; try assumption; reflexivity.
Qed.
Lemma l_facts : forall k r, lst k r -> r_dual r = false /\ r_nch r = N /\ r_hdr r = h /\ r_cfst r = 0 /\ r_playing r = true /\ r_rate r = x /\
  r_loop r = LNone /\ fin64 (r_rem r) = true /\ R64 (r_rem r) = part k /\ r_pos1 r = h + (p0 + whole k) * N.
Proof. intros k r ([[] ? ? ? ? ? ?] & I & S). cbn in *. repeat split; auto. Qed.

Lemma l_smp : forall p c, in_s16 (smp p c). Proof. intros. unfold smp. apply le16_range. Qed.
Lemma l_get : forall k r c, lst k r -> p0 + whole k < len -> (c < nch)%nat -> getAt r (r_pos1 r) 0 (Z.of_nat c) = Ok (smp (p0 + whole k) c, r).
Proof.
  intros k r c L H C. destruct (l_facts k r L) as (_ & F1 & _ & _ & _ & _ & _ & _ & _ & F2). pose proof (sizes m off len nch HA) as (S1 & S2 & S3 & S4). pose proof (whole_pos k).
  destruct HH as (G1 & G2 & G3 & G4 & G5). unfold getAt. rewrite F2, Z.mul_0_l, Z.add_0_r. assert (0 <= (p0 + whole k) * N /\ (p0 + whole k + 1) * N <= len * N) by nia.
  rewrite chk32_ok by (unfold in_s32; nia). cbn [bind]. rewrite chk32_ok by (unfold in_s32; nia). cbn [bind].
  unfold getSourceBufferValue. destruct L as (_ & _ & ->).
  replace (off - 2 * h + 2 * (h + (p0 + whole k) * N + Z.of_nat c)) with (off + 2 * ((p0 + whole k) * N + Z.of_nat c)) by ring.
  destruct (Z.leb_spec 0 (off + 2 * ((p0 + whole k) * N + Z.of_nat c))); [|lia].
  destruct (Z.leb_spec (off + 2 * ((p0 + whole k) * N + Z.of_nat c) + 2) (msize m)); [|lia]. reflexivity.
Qed.
Lemma l_end : forall k r, lst k r -> at_end r = (len <=? p0 + whole k).
Proof.
  intros k r (F & _). change (at_end r) with (at_end (setInterpolationType r INone)). rewrite (fwd_at_end h len nch p0 x k) by (auto; try apply HG; lra).
  reflexivity.
Qed.
Lemma chan_fine : forall c, (c < nch)%nat -> chan_ok (Z.of_nat c) = Ok tt.
Proof. intros c C. unfold chan_ok. destruct (Z.leb_spec 0 (Z.of_nat c)); [|lia]. destruct (Z.ltb_spec (Z.of_nat c) 8); [|lia]. reflexivity. Qed.

Lemma add_met : forall k r c, lst k r -> (c < nch)%nat -> met (before k) c (r_pts r (Z.of_nat c)) (r_npts r (Z.of_nat c)) -> fresh k = true ->
  exists q n, addPoint r (Z.of_nat c) (smp (p0 + whole k) c) = Ok (wp r (upd (r_pts r) (Z.of_nat c) q) (upd (r_npts r) (Z.of_nat c) n)) /\ met (whole k) c q n.
Proof.
  intros k r c (_ & I & _) C M FR. pose proof (fresh_before k) as W. rewrite FR in W. assert (B0 : -1 <= before k) by (destruct k; cbn; [lia|pose proof (whole_pos k); lia]).
  unfold addPoint. rewrite I, (chan_fine c C). unfold met in *. destruct i; [congruence| |].
  - cbn [bind]. do 2 eexists. split; [reflexivity|]. destruct M as (M0 & M1 & M2 & M3 & M4). cbn [y0 y1]. rewrite M0, W. 
    split; [destruct (Z.ltb_spec (Z.min (before k + 1) 2) 2); lia|]. split; [auto|]. split; [intros; replace (p0 + (before k + 1) - 1) with (p0 + before k) by ring; apply M1; lia|].
    split; [lia|]. intros; apply M3; lia.
  - cbn [bind]. do 2 eexists. split; [reflexivity|]. destruct M as (M0 & M1 & M2 & M3 & M4). cbn [y0 y1 y2 y3]. rewrite M0, W.
    split; [destruct (Z.ltb_spec (Z.min (before k + 1) 4) 4); lia|].
    replace (p0 + (before k + 1) - 1) with (p0 + before k) by ring. replace (p0 + (before k + 1) - 2) with (p0 + before k - 1) by ring.
    replace (p0 + (before k + 1) - 3) with (p0 + before k - 2) by ring. repeat split; intros; auto; [apply M1|apply M2|apply M3]; lia.
Qed.

Lemma upd_id : forall A (f : Z -> A) k, f k = upd f k (f k) k. Proof. intros. unfold upd. now rewrite Z.eqb_refl. Qed.
(* Keeping the points is a case of updating them *)
Definition kept (r r' : reader) (c : nat) : Prop := exists P n, r' = wp r P n /\
  (forall d, d <> Z.of_nat c -> P d = r_pts r d /\ n d = r_npts r d).

Lemma l_gain : forall y k, fin64 y = true -> R64 y = part k -> gain_ok (dabs y).
Proof. intros y k F E. pose proof (part_bounds k). split; [now rewrite fin_abs|]. rewrite R64_abs, E, Rabs_pos_eq; lra. Qed.

Lemma l_read : forall k r c, lst k r -> p0 + whole k < len -> (c < nch)%nat -> met (before k) c (r_pts r (Z.of_nat c)) (r_npts r (Z.of_nat c)) ->
  exists r', readNextValue r (Z.of_nat c) = Ok (Some (late (r_rem r) k c), r') /\ kept r r' c /\ met (whole k) c (r_pts r' (Z.of_nat c)) (r_npts r' (Z.of_nat c)).
Proof.
  intros k r c L H C M. destruct (l_facts k r L) as (F1 & F2 & F3 & F4 & F5 & F6 & F7 & F8 & F9 & F10).
  assert (RX : dlt d0 x = true) by (apply dgt0_true; [apply HG|lra]).
  unfold readNextValue. rewrite (l_end k r L). destruct (Z.leb_spec len (p0 + whole k)); [lia|].
  unfold fetch_value. rewrite F1. cbn [negb orb]. rewrite (l_get k r c) by auto. cbn [bind].
  destruct (dsub_diff (r_rem r) k F8 F9) as (D1 & D2 & D3).
  assert (I : r_interp r = i) by apply L. rewrite I. pose proof (fresh_before k) as W. pose proof (whole_pos k) as W0.
  assert (SAME : kept r r c) by (exists (r_pts r), (r_npts r); split; [destruct r; reflexivity|auto]).
  assert (ADDED : forall q n, kept r (wp r (upd (r_pts r) (Z.of_nat c) q) (upd (r_npts r) (Z.of_nat c) n)) c).
  { intros q n. do 2 eexists. split; [reflexivity|]. intros d D. now rewrite !upd_other by auto. }
  assert (PTS : forall q n, r_pts (wp r (upd (r_pts r) (Z.of_nat c) q) (upd (r_npts r) (Z.of_nat c) n)) (Z.of_nat c) = q) by (intros; apply upd_same).
  assert (NPT : forall q n, r_npts (wp r (upd (r_pts r) (Z.of_nat c) q) (upd (r_npts r) (Z.of_nat c) n)) (Z.of_nat c) = n) by (intros; apply upd_same).
  pose proof (part_bounds k) as PB. pose proof (l_gain _ _ F8 F9) as GA.
  assert (MET : exists r', kept r r' c /\ met (whole k) c (r_pts r' (Z.of_nat c)) (r_npts r' (Z.of_nat c)) /\
     (if fresh k then addPoint r (Z.of_nat c) (smp (p0 + whole k) c) else Ok r) = Ok r').
  { destruct (fresh k) eqn:FR.
    - destruct (add_met k r c L C M FR) as (q & n & E & M2). exists (wp r (upd (r_pts r) (Z.of_nat c) q) (upd (r_npts r) (Z.of_nat c) n)).
      split; [apply ADDED|]. rewrite PTS, NPT. auto.
    - exists r. split; [exact SAME|]. rewrite W. auto. }
  destruct MET as (r' & K & M2 & E). exists r'. assert (GOAL : match i with INone => Ok (smp (p0 + whole k) c, r) | ILinear => linear_value r (Z.of_nat c) (smp (p0 + whole k) c)
     | IQuadratic => quadratic_value r (Z.of_nat c) (smp (p0 + whole k) c) end = Ok (late (r_rem r) k c, r')); [|rewrite GOAL; cbn [bind]; auto].
  unfold late. unfold met in M2. destruct i; [congruence| |].
  - unfold linear_value. cbv zeta. rewrite F6, F1. rewrite (dlt_R d0) by (rewrite ?fin_abs; auto using fin_d0). rewrite R64_d0, R64_abs, F9, (Rabs_pos_eq (part k)) by lra.
    destruct M2 as (M0 & M1 & M3 & M4 & M5).
    case Rlt_bool_spec; intros PZ.
    + rewrite RX, D3. assert (NS : dlt d1 x = false). { rewrite dlt_R by (auto using fin_d1; apply HG). apply Rlt_bool_false. rewrite R64_d1. lra. }
      rewrite NS, andb_false_r, (chan_fine c C). cbn [bind]. rewrite E. cbn [bind]. rewrite Req_bool_false by lra. rewrite M0.
      destruct (Z.eqb_spec (whole k) 0) as [Q|Q].
      * rewrite Q. change (1 <? Z.min (0 + 1) 2) with false. cbv iota. now rewrite Z.add_0_r.
      * destruct (Z.ltb_spec 1 (Z.min (whole k + 1) 2)); [|lia]. rewrite M1, M3 by lia.
        destruct (mix_safe (dabs (r_rem r)) (smp (p0 + whole k) c) (smp (p0 + whole k - 1) c) GA (l_smp _ _) (l_smp _ _)) as (v & -> & _). reflexivity.
    + assert (P0 : part k = 0%R) by lra. rewrite (part_zero_fresh k P0) in E. rewrite E. cbn [bind]. rewrite Req_bool_true by exact P0.
      destruct (Z.eqb_spec (whole k) 0) as [Q|Q]; [now rewrite M5|rewrite M3 by lia; reflexivity].
  - unfold quadratic_value. cbv zeta. rewrite F6, RX, D3. destruct M2 as (M0 & M1 & M3 & M4 & M5).
    match goal with |- (r1 <- ?e ;; _) = _ => assert (EP : e = Ok r') end.
    { destruct (fresh k) eqn:FR; [|exact E]. rewrite (one_pushed (r_rem r) k F8 F9 FR). cbn [bind]. change (Z.to_nat (Z.min 1 4)) with 1%nat. cbn [push_points]. change (1 - Z.of_nat 1) with 0.
      rewrite (l_get k r c) by auto. cbn [bind]. rewrite F1. cbn [andb bind]. rewrite E. reflexivity. }
    rewrite EP. cbn [bind]. rewrite (chan_fine c C). cbn [bind]. rewrite M0. destruct (Z.ltb_spec (whole k) 3).
    + destruct (Z.leb_spec 4 (Z.min (whole k + 1) 4)); [lia|]. reflexivity.
    + destruct (Z.leb_spec 4 (Z.min (whole k + 1) 4)); [|lia]. rewrite M1, M3, M4, M5 by lia.
      destruct (abscissa (r_rem r) F8) as [A1 A2]. { rewrite F9, Rabs_pos_eq; lra. }
      destruct (cubic_accuracy (smp (p0 + whole k - 3) c) (smp (p0 + whole k - 2) c) (smp (p0 + whole k - 1) c) (smp (p0 + whole k) c) _ (l_smp _ _) (l_smp _ _) (l_smp _ _) (l_smp _ _) A1 A2) as (v & -> & _).
      reflexivity.
Qed.

(* the left-over fraction, as a double *)
Definition canon (k : nat) : b64 := d_of_me (Ztrunc (scaled_mantissa radix2 fexp64 (part k))) (cexp radix2 fexp64 (part k)).
Lemma part_fmt : forall k r, lst k r -> fmt64 (part k).
Proof. intros k r L. destruct (l_facts k r L) as (_ & _ & _ & _ & _ & _ & _ & _ & <- & _). apply FloatFacts.fmt64_R64. Qed.
Lemma canon_ok : forall k, fmt64 (part k) -> fin64 (canon k) = true /\ R64 (canon k) = part k.
Proof.
  intros k G. assert (E : (IZR (Ztrunc (scaled_mantissa radix2 fexp64 (part k))) * bpow radix2 (cexp radix2 fexp64 (part k)))%R = part k) by (symmetry; exact G).
  unfold canon. destruct (d_of_me_round (Ztrunc (scaled_mantissa radix2 fexp64 (part k))) (cexp radix2 fexp64 (part k))) as [V F].
  { rewrite E. apply big_ok. pose proof (part_bounds k). apply Rabs_le. lra. }
  split; [exact F|]. rewrite V, E. now apply rnd64_id.
Qed.
Lemma dabs_same : forall a b : b64, fin64 a = true -> fin64 b = true -> R64 a = R64 b -> dabs a = dabs b.
Proof.
  intros a b A B E. apply B2R_Bsign_inj; rewrite ?fin_abs; auto.
  - rewrite !R64_abs. now rewrite E.
  - destruct a, b; try discriminate; reflexivity.
Qed.
Lemma late_same : forall a b k c, dabs a = dabs b -> late a k c = late b k c.
Proof. intros a b k c E. unfold late. now rewrite E. Qed.

Definition chans (w : Z) (from upto : nat) (r : reader) : Prop := forall c, (from <= c < upto)%nat -> met w c (r_pts r (Z.of_nat c)) (r_npts r (Z.of_nat c)).

Lemma l_channels : forall k todo c r, lst k r -> p0 + whole k < len -> (c + todo <= nch)%nat -> chans (before k) c (c + todo) r ->
  exists P n, read_channels 1 todo (Z.of_nat c) r = Ok (Some (map (late (canon k) k) (seq c todo)), wp r P n) /\
    (forall j, (c <= j < c + todo)%nat -> met (whole k) j (P (Z.of_nat j)) (n (Z.of_nat j))) /\
    (forall j, (j < c)%nat -> P (Z.of_nat j) = r_pts r (Z.of_nat j) /\ n (Z.of_nat j) = r_npts r (Z.of_nat j)).
Proof.
  intros k. induction todo as [|todo IH]; intros c r L H T CH.
  - exists (r_pts r), (r_npts r). split; [|split; [lia|auto]]. destruct r; reflexivity.
  - destruct (l_read k r c L H ltac:(lia) (CH c ltac:(lia))) as (r1 & E & (P1 & n1 & R1 & K1) & M1).
    assert (LV : late (r_rem r) k c = late (canon k) k c).
    { apply late_same. destruct (canon_ok k (part_fmt k r L)) as [C1 C2]. destruct (l_facts k r L) as (_ & _ & _ & _ & _ & _ & _ & F8 & F9 & _).
      apply dabs_same; auto. congruence. }
    cbn [read_channels read_one]. rewrite E. cbn [bind]. replace (Z.of_nat c + 1) with (Z.of_nat (S c)) by lia.
    assert (Q1 : r_pts r1 = P1 /\ r_npts r1 = n1) by (rewrite R1; split; reflexivity). destruct Q1 as [Q1 Q2].
    destruct (IH (S c) r1) as (P & n & E2 & A & B); auto; [rewrite R1; now apply lst_wp|lia| |].
    { intros j Hj. rewrite Q1, Q2. destruct (K1 (Z.of_nat j) ltac:(lia)) as [-> ->]. apply CH. lia. }
    exists P, n. rewrite E2. cbn [bind]. split; [rewrite LV, R1; reflexivity|]. split.
    + intros j Hj. destruct (Nat.eq_dec j c) as [->|NE]; [|apply A; lia]. destruct (B c ltac:(lia)) as [-> ->]. exact M1.
    + intros j Hj. destruct (B j ltac:(lia)) as [-> ->]. rewrite Q1, Q2. apply K1. lia.
Qed.

Lemma advance_interp : forall r r' j, advance (setInterpolationType r INone) = Ok r' -> advance (setInterpolationType r j) = Ok (setInterpolationType r' j).
Proof.
  intros r r' j H. unfold advance in *. cbn zeta in *.
  change (r_rem (setInterpolationType r ?a)) with (r_rem r) in *. change (r_rate (setInterpolationType r ?a)) with (r_rate r) in *.
  change (r_nch (setInterpolationType r ?a)) with (r_nch r) in *. change (r_pos1 (setInterpolationType r ?a)) with (r_pos1 r) in *.
  change (r_cfst (setInterpolationType r ?a)) with (r_cfst r) in *. change (r_loop (setInterpolationType r ?a)) with (r_loop r) in *.
  change (r_pos2 (setInterpolationType r ?a)) with (r_pos2 r) in *.
  apply bind_ok in H. destruct H as (d & -> & H). apply bind_ok in H. destruct H as (s & E1 & H). apply bind_ok in H. destruct H as (p & E2 & H).
  cbn [bind]. rewrite E1. cbn [bind]. rewrite E2. cbn [bind]. destruct (r_cfst r =? 0).
  - apply Ok_inj in H. rewrite <- H. reflexivity.
  - apply bind_ok in H. destruct H as (q & E3 & H). rewrite E3. cbn [bind]. apply Ok_inj in H. rewrite <- H. reflexivity.
Qed.
Lemma advance_pts : forall r r', advance r = Ok r' -> r_pts r' = r_pts r /\ r_npts r' = r_npts r /\ r_src r' = r_src r /\ r_interp r' = r_interp r.
Proof.
  intros r r' H. unfold advance in H. cbn zeta in H.
  apply bind_ok in H. destruct H as (d & E0 & H). apply bind_ok in H. destruct H as (s & E1 & H). apply bind_ok in H. destruct H as (p & E2 & H).
  destruct (r_cfst r =? 0).
  - apply Ok_inj in H. rewrite <- H. repeat split.
  - apply bind_ok in H. destruct H as (q & E3 & H). apply Ok_inj in H. rewrite <- H. repeat split.
Qed.
Lemma interp_twice : forall r j l, setInterpolationType (setInterpolationType r j) l = setInterpolationType r l.
Proof. intros [] j l. reflexivity. Qed.

Lemma l_advance : forall k r, lst k r -> p0 + whole k < len -> exists r', advance r = Ok r' /\ lst (S k) r' /\ r_pts r' = r_pts r /\ r_npts r' = r_npts r.
Proof.
  intros k r (FI & I & SR) H. destruct (fwd_walk h len nch p0 x) as (_ & _ & W); auto; [lra| |].
  { assert (INR nch <= 8)%R by (replace 8%R with (INR 8) by (cbn; lra); apply le_INR; lia). pose proof (pos_INR nch). apply Rle_trans with (2 * 8)%R; [nra|]. cbn. lra. }
  destruct (W k _ FI) as [_ S]. unfold fwd_idx in S. fold (whole k) in S. destruct (Z.ltb_spec (p0 + whole k) len); [|lia].
  destruct S as (n & r2 & r3 & ST & _ & _ & AD & FI').
  assert (EQ : r2 = setInterpolationType r INone).
  { inversion ST; auto. subst. rewrite (fwd_at_end h len nch p0 x k) in H1; auto; [|apply HG|lra]. fold (whole k) in H1. destruct (Z.leb_spec len (p0 + whole k)); [lia|discriminate]. }
  subst r2. apply (advance_interp _ _ i) in AD. assert (RR : setInterpolationType r i = r) by (rewrite <- I; destruct r; reflexivity). rewrite RR in AD.
  exists (setInterpolationType r3 i). split; [exact AD|]. destruct (advance_pts _ _ AD) as (A1 & A2 & A3 & A4). split; [|auto].
  split; [|split; congruence]. rewrite interp_twice. assert (R3 : setInterpolationType r3 INone = r3); [|now rewrite R3].
  rewrite <- (pl_int _ _ _ (fw_plain _ _ _ _ _ _ _ FI')). destruct r3; reflexivity.
Qed.

Definition linv (k : nat) (r : reader) : Prop := lst k r /\ (p0 + whole k < len -> chans (before k) 0 nch r).
Definition lout : stream := fun k => if p0 + whole k <? len then Some (map (late (canon k) k) (seq 0 nch)) else None.
Lemma l_follows : follows linv lout.
Proof.
  intros k r (L & CH). pose proof (sizes m off len nch HA) as (S1 & S2 & S3 & S4). destruct (l_facts k r L) as (F1 & F2 & F3 & F4 & F5 & F6 & F7 & F8 & F9 & F10).
  split; [exact F5|]. split; [rewrite F2; lia|].
  unfold lout. exists 1%nat. destruct (Z.ltb_spec (p0 + whole k) len) as [H|H].
  - destruct (l_channels k nch 0 r L H ltac:(lia) (CH H)) as (P & n & E & A & _).
    destruct (l_advance k (wp r P n) (lst_wp k r P n L) H) as (r' & AD & L' & P1 & P2). exists r'. split.
    + unfold read_frame. rewrite F1. cbn [bind]. rewrite F2, Nat2Z.id. change 0 with (Z.of_nat 0). rewrite E. cbn [bind]. rewrite AD. reflexivity.
    + split; [exact L'|]. intros _ c Hc. rewrite P1, P2. cbn [before]. apply A. lia.
  - eexists. split.
    + unfold read_frame. rewrite F1. cbn [bind]. rewrite F2, Nat2Z.id. assert (NN : nch = S (Nat.pred nch)) by lia. rewrite NN at 1. cbn [read_channels read_one].
      unfold readNextValue. rewrite (l_end _ _ L). destruct (Z.leb_spec len (p0 + whole k)); [|lia]. cbn [bind].
      unfold on_end. change (r_loop (r <| r_cfst := 0 |>)) with (r_loop r). rewrite F7. cbn [bind]. reflexivity.
    + split; [|intros; lia]. destruct L as ([PL ? ? ? ? ? ?] & I & SR). split; [|split; assumption]. constructor; try assumption. destruct PL; constructor; assumption || reflexivity.
Qed.
End Late.

(* ---- what the delayed values are ------------------------------------------- *)

(* a cubic does not change much over a small distance *)
Lemma cubic_lip : forall f a b c d u v, cubic f -> in_s16 a -> in_s16 b -> in_s16 c -> in_s16 d ->
  f 0%R = IZR a -> f 1%R = IZR b -> f 2%R = IZR c -> f 3%R = IZR d -> (1 <= u <= 2)%R -> (1 <= v <= 2)%R -> (Rabs (f u - f v) <= 349520 * Rabs (u - v))%R.
Proof.
  intros f a b c d u v (k0 & k1 & k2 & k3 & F) A B C D E0 E1 E2 E3 U V. unfold in_s16 in *.
  assert (AR : (-32768 <= IZR a <= 32767)%R) by (split; apply IZR_le; lia). assert (BR : (-32768 <= IZR b <= 32767)%R) by (split; apply IZR_le; lia).
  assert (CR : (-32768 <= IZR c <= 32767)%R) by (split; apply IZR_le; lia). assert (DR : (-32768 <= IZR d <= 32767)%R) by (split; apply IZR_le; lia).
  rewrite F in E0, E1, E2, E3.
  set (d1 := (IZR b - IZR a)%R). set (d2 := (IZR c - 2 * IZR b + IZR a)%R). set (d3 := (IZR d - 3 * IZR c + 3 * IZR b - IZR a)%R).
  assert (EQ : (f u - f v = (u - v) * (d1 + d2 / 2 * (u + v - 1) + d3 / 6 * (u * u + u * v + v * v - 3 * (u + v) + 2)))%R).
  { rewrite !F. unfold d1, d2, d3. rewrite <- E0, <- E1, <- E2, <- E3. field. }
  rewrite EQ, Rabs_mult, Rmult_comm. apply Rmult_le_compat_r; [apply Rabs_pos|].
  assert (G1 : (Rabs d1 <= 65535)%R) by (apply Rabs_le; unfold d1; lra).
  assert (G2 : (Rabs d2 <= 131070)%R) by (apply Rabs_le; unfold d2; lra).
  assert (G3 : (Rabs d3 <= 262140)%R) by (apply Rabs_le; unfold d3; lra).
  assert (H2 : (Rabs (u + v - 1) <= 3)%R) by (apply Rabs_le; lra).
  assert (H3 : (Rabs (u * u + u * v + v * v - 3 * (u + v) + 2) <= 2)%R) by (clear - U V; apply Rabs_le; nra).
  clearbody d1 d2 d3. set (s := (u + v - 1)%R) in *. set (t := (u * u + u * v + v * v - 3 * (u + v) + 2)%R) in *. clearbody s t.
  eapply Rle_trans; [apply Rabs_triang|]. eapply Rle_trans; [apply Rplus_le_compat_r, Rabs_triang|].
  rewrite !Rabs_mult. unfold Rdiv. rewrite !Rabs_mult, !(Rabs_pos_eq (/ _)) by lra.
  pose proof (Rabs_pos d2). pose proof (Rabs_pos d3). pose proof (Rabs_pos s). pose proof (Rabs_pos t).
  assert (Rabs d2 * Rabs s <= 131070 * 3)%R by (apply Rmult_le_compat; lra). assert (Rabs d3 * Rabs t <= 262140 * 2)%R by (apply Rmult_le_compat; lra). nra.
Qed.
Lemma clamp_lip : forall a b, (Rabs (clampR a - clampR b) <= Rabs (a - b))%R.
Proof. intros a b. unfold clampR. apply Rabs_le. pose proof (Rabs_def2 (a - b) (Rabs (a - b) + 1)). unfold Rmax, Rmin, Rabs. repeat destruct Rle_dec; destruct Rcase_abs; lra. Qed.

(* the abscissa is off by little *)
Lemma abscissa_near : forall x, fin64 x = true -> (0 <= R64 x < 1)%R -> (Rabs (R32 (f_of_d (dadd d1 (dabs x))) - (1 + R64 x)) <= / 8000000)%R.
Proof.
  intros x F B. destruct (dadd_ok d1 (dabs x) fin_d1) as [A G].
  { now rewrite fin_abs. } { apply big_ok. rewrite R64_d1, R64_abs. apply Rabs_le. rewrite Rabs_pos_eq; lra. }
  rewrite R64_d1, R64_abs, Rabs_pos_eq in A by lra.
  assert (L : (1 <= R64 (dadd d1 (dabs x)) <= 2)%R).
  { rewrite A. pose proof (rnd64_id 1 (fmt64_Z 1 ltac:(lia))) as X1. pose proof (rnd64_id 2 (fmt64_Z 2 ltac:(lia))) as X2.
    pose proof (rnd64_le 1 (1 + R64 x) ltac:(lra)). pose proof (rnd64_le (1 + R64 x) 2 ltac:(lra)). lra. }
  destruct (f_of_d_ok _ G) as [C H]. { apply (big32 1); [lia|]. change (bpow radix2 1) with 2%R. apply Rabs_le. lra. }
  rewrite C. pose proof (rnd64_error (1 + R64 x)) as E. rewrite <- A in E. rewrite (Rabs_pos_eq (1 + R64 x)) in E by lra.
  pose proof (near32 (R64 (dadd d1 (dabs x))) 1 ltac:(lia)) as N. change (bpow radix2 1) with 2%R in N. specialize (N ltac:(apply Rabs_le; lra)).
  assert (bpow radix2 (-53) <= bpow radix2 (-40))%R by (apply bpow_le; lia). assert (bpow radix2 (-1075) <= bpow radix2 (-40))%R by (apply bpow_le; lia).
  change (bpow radix2 (-40)) with (/ 1099511627776)%R in *. pose proof (bpow_gt_0 radix2 (-53)).
  assert (bpow radix2 (-53) * (1 + R64 x) <= / 1099511627776 * 2)%R by (apply Rmult_le_compat; lra).
  apply Rabs_le_inv in N, E. apply Rabs_le. lra.
Qed.

(* One frame delivered when the source position is p0 + w + f *)
Definition linear_sample (s : Z -> Z) (p0 w : Z) (f : R) (v : Z) : Prop :=
  (w = 0 -> (f <> 0)%R -> v = s p0) /\
  (1 <= w -> f = 0%R -> v = s (p0 + w - 1)) /\
  (1 <= w -> (Rabs (IZR v - ((1 - f) * IZR (s (p0 + w - 1)%Z) + f * IZR (s (p0 + w)%Z))) < 1 + / 1000000000)%R).
Definition cubic_sample (s : Z -> Z) (p0 w : Z) (f : R) (v : Z) : Prop :=
  (w < 3 -> v = 0) /\
  (3 <= w -> forall g, cubic g -> g 0%R = IZR (s (p0 + w - 3)%Z) -> g 1%R = IZR (s (p0 + w - 2)%Z) -> g 2%R = IZR (s (p0 + w - 1)%Z) -> g 3%R = IZR (s (p0 + w)%Z) ->
    (Rabs (IZR v - clampR (g (1 + f))) <= 1.17)%R).

Section Values.
Variables (m : mem) (off : Z) (nch : nat) (p0 : Z) (x : b64) (old : nat -> Z).
Lemma v_smp : forall p c, in_s16 (smp m off nch p c). Proof. intros. unfold smp. apply le16_range. Qed.

Lemma v_val : forall p c, s16_val (smp m off nch p c).
Proof. intros p c. pose proof (v_smp p c). unfold s16_val, in_s16 in *. lia. Qed.

Lemma late_linear : forall y k c, fin64 y = true -> R64 y = part x k -> (0 <= R64 x)%R ->
  linear_sample (fun p => smp m off nch p c) p0 (whole x k) (part x k) (late m off nch p0 x ILinear old y k c).
Proof.
  intros y k c F E X. pose proof (part_bounds x k) as B. set (f := part x k) in *. unfold linear_sample, late. fold f. set (w := whole x k).
  set (a := smp m off nch (p0 + w - 1) c). set (b := smp m off nch (p0 + w) c).
  assert (GA : gain_ok (dabs y)). { split; [now rewrite fin_abs|]. rewrite R64_abs, E, Rabs_pos_eq; lra. }
  destruct (Req_dec f 0) as [Z0|Z0].
  - rewrite (Req_bool_true f 0 Z0). split; [congruence|]. destruct (Z.eqb_spec w 0); split; try lia; intros; auto.
    rewrite Z0. replace (IZR a - ((1 - 0) * IZR a + 0 * IZR b))%R with 0%R by ring. rewrite Rabs_R0. lra.
  - rewrite (Req_bool_false f 0 Z0). destruct (Z.eqb_spec w 0) as [W0|W0]; [split; [auto|split; lia]|]. split; [lia|]. split; [congruence|].
    intros W. destruct (mix_value (dabs y) b a GA (v_val _ _) (v_val _ _)) as (u & M & N & _).
    assert (M2 : mix16 (dabs y) b (dsub d1 (dabs y)) a = Ok (Ztrunc u)) by (rewrite <- M; unfold mix16; now rewrite dadd_comm).
    fold a b. rewrite M2. rewrite R64_abs, E, (Rabs_pos_eq f) in N by lra.
    pose proof (Ztrunc_frac u) as T. apply Rabs_def2 in T. apply Rabs_le_inv in N. apply Rabs_def1; lra.
Qed.
Lemma late_cubic : forall y k c, fin64 y = true -> R64 y = part x k -> (0 <= R64 x)%R ->
  cubic_sample (fun p => smp m off nch p c) p0 (whole x k) (part x k) (late m off nch p0 x IQuadratic old y k c).
Proof.
  intros y k c F E X. pose proof (part_bounds x k) as B. set (f := part x k) in *. unfold cubic_sample, late. set (w := whole x k).
  destruct (Z.ltb_spec w 3); split; try lia; auto. intros _ g G G0 G1 G2 G3.
  destruct (abscissa y F) as [A1 A2]. { rewrite E, Rabs_pos_eq; lra. }
  pose proof (abscissa_near y F ltac:(lra)) as AN. set (z := f_of_d (dadd d1 (dabs y))) in *. clearbody z.
  destruct (cubic_accuracy (smp m off nch (p0 + w - 3) c) (smp m off nch (p0 + w - 2) c) (smp m off nch (p0 + w - 1) c) (smp m off nch (p0 + w) c) z (v_smp _ _) (v_smp _ _) (v_smp _ _) (v_smp _ _) A1 A2) as (v & -> & _ & V).
  specialize (V g G G0 G1 G2 G3). rewrite E in AN.
  pose proof (cubic_lip g _ _ _ _ (R32 z) (1 + f) G (v_smp _ _) (v_smp _ _) (v_smp _ _) (v_smp _ _) G0 G1 G2 G3 A2 ltac:(lra)) as L.
  pose proof (clamp_lip (g (R32 z)) (g (1 + f)%R)) as CL.
  replace (IZR v - clampR (g (1 + f)))%R with ((IZR v - clampR (g (R32 z))) + (clampR (g (R32 z)) - clampR (g (1 + f))))%R by ring.
  eapply Rle_trans; [apply Rabs_triang|]. lra.
Qed.
End Values.

(* playback at rates up to 1 *)
Definition slow_stream (len p0 : Z) (x : R) (f : nat -> list Z) : stream := fun k => if p0 + Zfloor (INR k * x) <? len then Some (f k) else None.

(* the fractions met at a grid rate are doubles *)
Lemma grid_part : forall x k, grid_rate x -> fmt64 (part x k).
Proof.
  intros x k G. destruct G as (_ & num & q & EX & Hq & Hn). pose proof (part_bounds x k) as PB. unfold part, whole in *. rewrite EX in *.
  set (D := 2 ^ q). assert (HD : 0 < D) by (apply Z.pow_pos_nonneg; lia).
  assert (HB : bpow radix2 (- q) = (/ IZR D)%R) by (rewrite bpow_opp, bpow_IZR by lia; reflexivity).
  assert (FL : Zfloor (INR k * (IZR num * bpow radix2 (- q))) = Z.of_nat k * num / D).
  { rewrite <- Zfloor_div by lia. f_equal. rewrite HB, mult_IZR, <- INR_IZR_INZ. unfold Rdiv. ring. }
  rewrite FL. replace (INR k * (IZR num * bpow radix2 (- q)) - IZR (Z.of_nat k * num / D))%R with (IZR ((Z.of_nat k * num) mod D) * bpow radix2 (- q))%R.
  + apply fmt64_me; [|lia]. pose proof (Z.mod_pos_bound (Z.of_nat k * num) D HD). assert (D <= 2 ^ 52) by (apply Z.pow_le_mono_r; lia). lia.
  + rewrite Z.mod_eq by lia. rewrite minus_IZR, !mult_IZR, <- INR_IZR_INZ, HB. field. apply IZR_neq. lia.
Qed.

Lemma slow_start : forall m off len nch r i ps pb, array_holds m off len nch -> (nch <= 8)%nat -> i <> INone -> interp_settings i r LNone ps pb ->
  grid_rate (r_rate r) -> (0 < R64 (r_rate r) <= 1)%R -> (ps = PArbitrary -> 0 <= pb <= len) ->
  let p0 := match ps with PArbitrary => pb | _ => 0 end in let old := fun c : nat => y1 (r_pts r (Z.of_nat c)) in
  exists r', playRaw_array r m off len (Z.of_nat nch) = Ok r' /\
    delivers r' (slow_stream len p0 (R64 (r_rate r)) (fun k => map (late m off nch p0 (r_rate r) i old (canon (r_rate r) k) k) (seq 0 nch))) /\
    (forall k, p0 + whole (r_rate r) k < len -> fmt64 (part (r_rate r) k)).
Proof.
  intros m off len nch r i ps pb A NC NI (I & B) G X HPB p0 old. assert (FX : fin64 (r_rate r) = true) by apply G.
  destruct (playRaw_fwd m off len nch _ LNone ps pb A B) as (r' & E & PL & SR & R1 & FS & LP & RM & L0 & L1 & PS & PO); auto.
  { change (0 <= R64 (r_rate r))%R. lra. }
  pose proof (playRaw_interp (setInterpolationType r INone) i m off len (Z.of_nat nch)) as PI. rewrite E in PI. cbn [bind] in PI. rewrite (interp_set r i I) in PI.
  assert (P0 : 0 <= p0) by (unfold p0; destruct ps; try lia; apply HPB; auto).
  exists (setInterpolationType r' i). split; [exact PI|]. split.
  - apply (follows_delivers (linv m off 0 len nch p0 (r_rate r) i old)); [apply l_follows; eauto using array_fits|]. destruct B as (B1 & B2 & B3 & B4 & B5 & B6 & B7).
    assert (R' : setInterpolationType (setInterpolationType r' i) INone = r').
    { rewrite interp_twice, <- (pl_int _ _ _ PL). destruct r'; reflexivity. }
    split; [split; [|split; [reflexivity|]]|].
    + rewrite R'. constructor; auto.
      * rewrite RM. exact B6.
      * rewrite RM. fold (whole (r_rate r) 0) (part (r_rate r) 0). rewrite part_0. exact B7.
      * rewrite PO. fold (whole (r_rate r) 0). rewrite whole_0. fold p0. lia.
    + change (r_src r' = SArr m (off - 0)). rewrite Z.sub_0_r. exact SR.
    + intros _ c Hc. cbn [before]. assert (NP : r_npts r' (Z.of_nat c) = 0) by (apply (playRaw_points _ _ _ _ _ _ _ E); lia).
      assert (YP : r_pts r' = r_pts r) by exact (playRaw_pts _ _ _ _ _ _ E).
      unfold met. change (r_npts (setInterpolationType r' i)) with (r_npts r'). change (r_pts (setInterpolationType r' i)) with (r_pts r'). rewrite NP, YP.
      destruct i; auto; repeat split; intros; try lia; reflexivity.
  - intros k _. now apply grid_part.
Qed.

Theorem linear_playback : forall m off len nch r ps pb, array_holds m off len nch -> (nch <= 8)%nat -> interp_settings ILinear r LNone ps pb ->
  grid_rate (r_rate r) -> (0 < R64 (r_rate r) <= 1)%R -> (ps = PArbitrary -> 0 <= pb <= len) ->
  let p0 := match ps with PArbitrary => pb | _ => 0 end in let t k := (INR k * R64 (r_rate r))%R in
  exists r' f, playRaw_array r m off len (Z.of_nat nch) = Ok r' /\ delivers r' (slow_stream len p0 (R64 (r_rate r)) f) /\
    forall k, p0 + Zfloor (t k) < len -> length (f k) = nch /\ forall c, (c < nch)%nat ->
      (k = O -> nth c (f k) 0 = y1 (r_pts r (Z.of_nat c))) /\
      linear_sample (fun p => nth c (src_frame m off nch p) 0) p0 (Zfloor (t k)) (t k - IZR (Zfloor (t k)))%R (nth c (f k) 0).
Proof.
  intros m off len nch r ps pb A NC IS G X HPB p0 t.
  destruct (slow_start m off len nch r ILinear ps pb A NC ltac:(discriminate) IS G X HPB) as (r' & E & D & FM). fold p0 in D, FM.
  exists r'. eexists. split; [exact E|]. split; [exact D|]. intros k K. split; [now rewrite map_length, seq_length|]. intros c C.
  assert (NT : forall g, nth c (map g (seq 0 nch)) 0 = g c).
  { intros g. rewrite (nth_indep _ 0 (g O)) by (now rewrite map_length, seq_length). now rewrite map_nth, seq_nth by auto. }
  rewrite NT. destruct (canon_ok _ k (FM k K)) as [C1 C2]. split.
  - intros ->. unfold late. rewrite part_0, Req_bool_true, whole_0 by reflexivity. reflexivity.
  - pose proof (late_linear m off nch p0 (r_rate r) (fun c => y1 (r_pts r (Z.of_nat c))) _ k c C1 C2 ltac:(lra)) as L.
    unfold linear_sample in *. rewrite !smp_frame, !NT. exact L.
Qed.
Theorem cubic_playback : forall m off len nch r ps pb, array_holds m off len nch -> (nch <= 8)%nat -> interp_settings IQuadratic r LNone ps pb ->
  grid_rate (r_rate r) -> (0 < R64 (r_rate r) <= 1)%R -> (ps = PArbitrary -> 0 <= pb <= len) ->
  let p0 := match ps with PArbitrary => pb | _ => 0 end in let t k := (INR k * R64 (r_rate r))%R in
  exists r' f, playRaw_array r m off len (Z.of_nat nch) = Ok r' /\ delivers r' (slow_stream len p0 (R64 (r_rate r)) f) /\
    forall k, p0 + Zfloor (t k) < len -> length (f k) = nch /\ forall c, (c < nch)%nat ->
      cubic_sample (fun p => nth c (src_frame m off nch p) 0) p0 (Zfloor (t k)) (t k - IZR (Zfloor (t k)))%R (nth c (f k) 0).
Proof.
  intros m off len nch r ps pb A NC IS G X HPB p0 t.
  destruct (slow_start m off len nch r IQuadratic ps pb A NC ltac:(discriminate) IS G X HPB) as (r' & E & D & FM). fold p0 in D, FM.
  exists r'. eexists. split; [exact E|]. split; [exact D|]. intros k K. split; [now rewrite map_length, seq_length|]. intros c C.
  assert (NT : forall g, nth c (map g (seq 0 nch)) 0 = g c).
  { intros g. rewrite (nth_indep _ 0 (g O)) by (now rewrite map_length, seq_length). now rewrite map_nth, seq_nth by auto. }
  rewrite NT. destruct (canon_ok _ k (FM k K)) as [C1 C2].
  pose proof (late_cubic m off nch p0 (r_rate r) (fun c => y1 (r_pts r (Z.of_nat c))) _ k c C1 C2 ltac:(lra)) as L.
  unfold cubic_sample in *. rewrite !smp_frame, !NT. exact L.
Qed.
