(* Invariant of histories of calls on an array player. *)

From Coq Require Import ZArith Lia List Bool Reals Lra.
From RecordUpdate Require Import RecordUpdate.
From Flocq Require Import Core.Core IEEE754.BinarySingleNaN.
From Verif Require Import Machine Floats FloatFacts WavModel InterpModel CacheModel ReaderModel
  ReaderFacts ReaderSpec Sessions StreamFacts Walk ForwardProofs HistSpec.
Import ListNotations.
Local Open Scope Z_scope.

(* Settings that hold always *)
Record hbase (r : reader) : Prop := mkHB {
  hb_kind : r_kind r = KArray;
  hb_dual : r_dual r = false;
  hb_int : r_interp r = INone;
  hb_cfst : r_cfst r = 0;
  hb_ratef : fin64 (r_rate r) = true;
  hb_rate : (Rabs (R64 (r_rate r)) <= IZR (2 ^ 14))%R;
  hb_remf : fin64 (r_rem r) = true;
  hb_rem : (Rabs (R64 (r_rem r)) < 1)%R;
  hb_hdr : r_hdr r = 0;
  hb_fs : 0 <= r_fsamples r < 2 ^ 30;
  hb_ls : 0 <= r_ls r <= r_fsamples r;
  hb_lf : 0 <= r_lf r <= r_fsamples r;
  hb_park : parked (r_rate r) (r_nch r) (r_lf r) }.

(* The head on an array of nch channels at sample position i*nch *)
Record hpos (m : mem) (off : Z) (nch : nat) (i : Z) (r : reader) : Prop := mkHP {
  hp_src : r_src r = SArr m off;
  hp_arr : array_holds m off (r_fsamples r) nch;
  hp_nch : r_nch r = Z.of_nat nch;
  hp_pos : r_pos1 r = i * Z.of_nat nch;
  hp_s32 : in_s32 (r_pos1 r);
  hp_lo : dle d0 (r_rate r) = true -> 0 <= i;
  hp_hi : dle d0 (r_rate r) = false -> i < r_fsamples r }.

Definition hinv (r : reader) : Prop :=
  hbase r /\ ((r_src r = SNull /\ r_playing r = false) \/
              exists m off nch i, r_fsize r = 2 * r_fsamples r /\ hpos m off nch i r).

Lemma hspos : forall r nch n, r_hdr r = 0 -> r_nch r = Z.of_nat nch -> in_s32 (n * Z.of_nat nch) ->
  spos r n = n * Z.of_nat nch.
Proof.
  intros r nch n H N I. unfold spos, sts. rewrite H, N, s32_u32. apply s32_id. exact I.
Qed.

(* ---- reading --------------------------------------------------------------- *)

Definition hread (m : mem) (off : Z) (nch : nat) (r : reader) : Prop :=
  hbase r /\ r_playing r = true /\ r_fsize r = 2 * r_fsamples r /\ exists i, hpos m off nch i r.

Lemma hread_plain : forall m off nch r, hread m off nch r -> plain 0 nch r.
Proof. intros m off nch r ([] & P & _ & i & []). constructor; auto. Qed.

(* Not at the end: the frame is inside *)
Lemma inside : forall m off nch i r, hbase r -> hpos m off nch i r -> at_end r = false ->
  0 <= i < r_fsamples r.
Proof.
  intros m off nch i r B H E. unfold at_end in E. rewrite (hb_dual _ B) in E.
  pose proof (hp_arr _ _ _ _ _ H) as (A1 & A2 & A3 & A4 & A5 & A6).
  pose proof (hb_ls _ B). pose proof (hb_lf _ B).
  assert (SP : forall n, 0 <= n <= r_fsamples r -> spos r n = n * Z.of_nat nch).
  { intros n Hn. apply hspos; [apply B|apply H|]. unfold in_s32. nia. }
  rewrite (hp_pos _ _ _ _ _ H) in E.
  destruct (dle d0 (r_rate r)) eqn:D.
  - pose proof (hp_lo _ _ _ _ _ H D).
    destruct (r_loop r); rewrite SP in E by lia; apply Z.leb_gt in E; nia.
  - pose proof (hp_hi _ _ _ _ _ H D).
    pose proof (dge0_ninv _ (hb_ratef _ B) D) as N.
    rewrite (dlt0_true _ (hb_ratef _ B) N) in E.
    destruct (r_pstart r); rewrite ?SP in E by lia; apply Z.ltb_ge in E;
      rewrite ?(hb_hdr _ B) in E; nia.
Qed.

Lemma hread_on_end : forall m off nch r, hread m off nch r -> r_loop r <> LNone ->
  exists r1, on_end r = Ok (Some r1) /\ hread m off nch r1 /\ r_loop r1 = r_loop r /\
    r_ls r1 = r_ls r /\ r_lf r1 = r_lf r /\ r_pstart r1 = r_pstart r /\ r_nch r1 = r_nch r /\
    r_fsamples r1 = r_fsamples r /\
    ((r_loop r = LRepeat /\ r_rate r1 = r_rate r /\
      r_pos1 r1 = (if dle d0 (r_rate r) then r_ls r else r_lf r - Z.of_nat nch) * Z.of_nat nch) \/
     (r_loop r = LPingpong /\ r_rate r1 = dneg (r_rate r) /\
      r_pos1 r1 = (if dle d0 (r_rate r) then r_lf r - Z.of_nat nch
                   else match r_pstart r with PSample => 0 | _ => r_ls r end) * Z.of_nat nch)).
Proof.
  intros m off nch r (B & P & FZ & i & H) NL.
  pose proof (hp_arr _ _ _ _ _ H) as (A1 & A2 & A3 & A4 & A5 & A6).
  pose proof (hb_ls _ B) as BL. pose proof (hb_lf _ B) as BF. pose proof (hb_fs _ B) as BS0.
  assert (SP : forall n, - Z.of_nat nch <= n <= r_fsamples r -> spos r n = n * Z.of_nat nch).
  { intros n Hn. apply hspos; [apply B|apply H|]. unfold in_s32.
    assert (n * Z.of_nat nch <= r_fsamples r * Z.of_nat nch) by nia. nia. }
  assert (TP : chk32 (r_lf r - r_nch r) = Ok (r_lf r - Z.of_nat nch)).
  { rewrite (hp_nch _ _ _ _ _ H). apply chk32_ok. unfold in_s32. lia. }
  unfold on_end. set (r0 := r <| r_cfst := 0 |>).
  change (r_loop r0) with (r_loop r). change (r_rate r0) with (r_rate r).
  change (r_lf r0) with (r_lf r). change (r_ls r0) with (r_ls r). change (r_nch r0) with (r_nch r).
  change (r_pstart r0) with (r_pstart r). change (r_hdr r0) with (r_hdr r).
  change (spos r0) with (spos r). rewrite TP, (hb_hdr _ B).
  cbn [bind]. rewrite (SP (r_lf r - Z.of_nat nch)), (SP (r_ls r)) by lia.
  destruct (r_loop r) eqn:L; [congruence| |].
  - destruct (dle d0 (r_rate r)) eqn:D.
    + eexists. split; [reflexivity|]. split; [|repeat split; auto].
      split; [destruct B; constructor; auto|]. split; [auto|]. split; [auto|].
      exists (r_ls r). destruct H. constructor; auto.
      * change (in_s32 (r_ls r * Z.of_nat nch)). unfold in_s32. nia.
      * change (dle d0 (r_rate r) = true -> 0 <= r_ls r). lia.
      * change (dle d0 (r_rate r) = false -> r_ls r < r_fsamples r). congruence.
    + eexists. split; [reflexivity|]. split; [|repeat split; auto].
      split; [destruct B; constructor; auto|]. split; [auto|]. split; [auto|].
      exists (r_lf r - Z.of_nat nch). destruct H. constructor; auto.
      * change (in_s32 ((r_lf r - Z.of_nat nch) * Z.of_nat nch)). unfold in_s32. nia.
      * change (dle d0 (r_rate r) = true -> 0 <= r_lf r - Z.of_nat nch). congruence.
      * change (dle d0 (r_rate r) = false -> r_lf r - Z.of_nat nch < r_fsamples r). lia.
  - assert (HB : forall p, hbase (r0 <| r_pos1 := p |> <| r_rate := dneg (r_rate r) |>)).
    { intros p. destruct B; constructor; auto.
      - change (fin64 (dneg (r_rate r)) = true). now rewrite fin_neg.
      - change (Rabs (R64 (dneg (r_rate r))) <= IZR (2 ^ 14))%R. now rewrite R64_neg, Rabs_Ropp.
      - change (parked (dneg (r_rate r)) (r_nch r) (r_lf r)). unfold parked in *.
        change (R64 (dneg (r_rate r)) = 0%R -> r_nch r <= r_lf r). rewrite R64_neg. intro Z0.
        apply hb_park0. change (R64 (r_rate r) = 0%R). lra. }
    destruct (dle d0 (r_rate r)) eqn:D.
    + eexists. split; [reflexivity|]. split; [|repeat split; auto].
      split; [apply HB|]. split; [auto|]. split; [auto|].
      pose proof (dge0_inv _ (hb_ratef _ B) D) as D'. pose proof (hb_park _ B) as PK.
      exists (r_lf r - Z.of_nat nch). pose proof (hp_nch _ _ _ _ _ H) as N. destruct H. constructor; auto.
      * change (in_s32 ((r_lf r - Z.of_nat nch) * Z.of_nat nch)). unfold in_s32. nia.
      * change (dle d0 (dneg (r_rate r)) = true -> 0 <= r_lf r - Z.of_nat nch). intro C.
        apply dge0_inv in C; [|now rewrite fin_neg; apply B]. rewrite R64_neg in C.
        unfold parked in PK. rewrite N in PK. assert (R64 (r_rate r) = 0%R) by lra.
        specialize (PK H). lia.
      * change (dle d0 (dneg (r_rate r)) = false -> r_lf r - Z.of_nat nch < r_fsamples r). lia.
    + eexists. split; [reflexivity|].
      pose proof (dge0_ninv _ (hb_ratef _ B) D) as D'.
      assert (E : match r_pstart r with PSample => 0 | _ => r_ls r * Z.of_nat nch end =
                  match r_pstart r with PSample => 0 | _ => r_ls r end * Z.of_nat nch)
        by (destruct (r_pstart r); reflexivity).
      split; [|repeat split; auto].
      split; [apply HB|]. split; [auto|]. split; [auto|].
      exists (match r_pstart r with PSample => 0 | _ => r_ls r end). destruct H. constructor; auto.
      * change (in_s32 (match r_pstart r with PSample => 0 | _ => r_ls r * Z.of_nat nch end)).
        unfold in_s32. destruct (r_pstart r); nia.
      * intros _. destruct (r_pstart r); lia.
      * change (dle d0 (dneg (r_rate r)) = false -> match r_pstart r with PSample => 0 | _ => r_ls r end < r_fsamples r).
        intro C. apply dge0_ninv in C; [|now rewrite fin_neg; apply B]. rewrite R64_neg in C. lra.
Qed.

Lemma hread_advance : forall m off nch i r, hread m off nch r -> r_pos1 r = i * Z.of_nat nch ->
  0 <= i < r_fsamples r -> exists r1, advance r = Ok r1 /\ hread m off nch r1 /\
    exists p x, r1 = r <| r_rem := x |> <| r_pos1 := p |>.
Proof.
  intros m off nch i r (B & P & FZ & i' & H) PO HI.
  pose proof (hp_arr _ _ _ _ _ H) as (A1 & A2 & A3 & A4 & A5 & A6).
  pose proof (hb_rate _ B) as R1. pose proof (hb_rem _ B) as R2.
  assert (SB : (Rabs (step_sum r) <= IZR (2 ^ 14 + 1))%R).
  { unfold step_sum. apply rnd64_abs_le; [apply fmt64_Z; lia|].
    eapply Rle_trans; [apply Rabs_triang|]. rewrite plus_IZR. lra. }
  assert (DB : Z.abs (Ztrunc (step_sum r)) <= 2 ^ 14 + 1).
  { apply le_IZR. rewrite abs_IZR. eapply Rle_trans; [|exact SB].
    destruct (Rle_or_lt 0 (step_sum r)) as [C|C].
    - pose proof (Ztrunc_bounds_pos _ C). rewrite Rabs_pos_eq by (apply (IZR_le 0); rewrite Ztrunc_floor by auto; apply Zfloor_lub; lra).
      rewrite Rabs_pos_eq by auto. lra.
    - pose proof (Ztrunc_bounds_neg (step_sum r) ltac:(lra)).
      rewrite (Rabs_left1 (IZR _)) by (apply (IZR_le _ 0); rewrite Ztrunc_ceil by lra; apply Zceil_glb; lra).
      rewrite Rabs_left by auto. lra. }
  assert (RM : rnd64 (R64 (r_rem r)) = R64 (r_rem r)) by apply rnd64_id, fmt64_R64.
  destruct (advance_plain r) as (y & Y1 & Y2 & Y3 & AD).
  + apply B.
  + apply B.
  + lra.
  + eapply Rle_trans; [exact R1|]. rewrite bpow_IZR by lia. apply IZR_le. lia.
  + apply B.
  + unfold in_s32. lia.
  + rewrite (hp_nch _ _ _ _ _ H). unfold in_s32. nia.
  + rewrite PO, (hp_nch _ _ _ _ _ H). unfold in_s32. nia.
  + eexists. split; [exact AD|]. split; [|eauto].
    split; [destruct B; constructor; auto|]. split; [auto|]. split; [auto|].
    exists (i + Ztrunc (step_sum r)).
    assert (PE : r_pos1 r + Ztrunc (step_sum r) * r_nch r = (i + Ztrunc (step_sum r)) * Z.of_nat nch).
    { rewrite PO, (hp_nch _ _ _ _ _ H). ring. }
    apply Rabs_def2 in R2.
    destruct H. constructor; auto.
    * change (in_s32 (r_pos1 r + Ztrunc (step_sum r) * r_nch r)). rewrite PE. unfold in_s32. nia.
    * change (dle d0 (r_rate r) = true -> 0 <= i + Ztrunc (step_sum r)). intro C.
      apply dge0_inv in C; [|apply B].
      assert (0 <= Ztrunc (step_sum r)); [|lia].
      assert (G : (R64 (r_rem r) <= step_sum r)%R).
      { unfold step_sum. rewrite <- RM at 1. apply rnd64_le. lra. }
      destruct (Rle_or_lt 0 (step_sum r)) as [K|K].
      -- rewrite Ztrunc_floor by auto. apply Zfloor_lub. lra.
      -- rewrite Ztrunc_ceil by lra. rewrite (Zceil_imp 0); [lia|]. cbn. lra.
    * change (dle d0 (r_rate r) = false -> i + Ztrunc (step_sum r) < r_fsamples r). intro C.
      apply dge0_ninv in C; [|apply B].
      assert (Ztrunc (step_sum r) <= 0); [|lia].
      assert (G : (step_sum r <= R64 (r_rem r))%R).
      { unfold step_sum. rewrite <- RM at 2. apply rnd64_le. lra. }
      destruct (Rle_or_lt 0 (step_sum r)) as [K|K].
      -- rewrite Ztrunc_floor by auto. rewrite (Zfloor_imp 0); [lia|]. cbn. lra.
      -- rewrite Ztrunc_ceil by lra. apply Zceil_glb. cbn. lra.
Qed.

(* What reading leaves alone *)
Record keeps (r r1 : reader) : Prop := mkKeeps {
  kp_loop : r_loop r1 = r_loop r;
  kp_ls : r_ls r1 = r_ls r;
  kp_lf : r_lf r1 = r_lf r;
  kp_ps : r_pstart r1 = r_pstart r;
  kp_nch : r_nch r1 = r_nch r;
  kp_fs : r_fsamples r1 = r_fsamples r;
  kp_rate : r_loop r = LRepeat -> r_rate r1 = r_rate r }.

Lemma keeps_refl : forall r, keeps r r.
Proof. constructor; auto. Qed.
Lemma keeps_trans : forall a b c, keeps a b -> keeps b c -> keeps a c.
Proof.
  intros a b c [] []. constructor; try congruence.
  intro L. rewrite kp_rate1 by congruence. auto.
Qed.

Lemma hread_settle : forall m off nch F r, hread m off nch r ->
  (r_loop r = LNone /\ at_end r = true) \/
  (exists n r2, (n < F)%nat /\ settles n r r2 /\ hread m off nch r2 /\ keeps r r2) \/
  (forall ch, read_one F ch r = NoFuel).
Proof.
  intros m off nch. induction F as [|F IH]; intros r H; [right; right; reflexivity|].
  destruct (at_end r) eqn:E.
  - destruct (r_loop r) eqn:L; [left; auto| |]; right.
    all: destruct (hread_on_end m off nch r H ltac:(congruence)) as (r1 & O & H1 & K1 & K2 & K3 & K4 & K5 & K6 & K7).
    all: assert (K : keeps r r1) by (constructor; auto; intro; destruct K7 as [(_ & ? & _)|(? & _)]; congruence).
    all: destruct (IH r1 H1) as [[L1 _]|[(n & r2 & N & S2 & H2 & KK)|NF]]; [congruence| |].
    1,3: left; exists (S n), r2; split; [lia|]; split; [econstructor; eauto|]; split; [auto|]; eapply keeps_trans; eauto.
    all: right; intro ch; cbn [read_one]; unfold readNextValue; rewrite E; cbn [bind]; rewrite O; cbn [bind]; apply NF.
  - right. left. exists 0%nat, r. split; [lia|]. split; [now constructor|]. split; [auto|apply keeps_refl].
Qed.

Lemma hread_fetch : forall m off nch r i, hread m off nch r -> r_pos1 r = i * Z.of_nat nch ->
  0 <= i < r_fsamples r -> fetch_frame nch (r_pos1 r) 0 r = Ok (src_frame m off nch i, r).
Proof.
  intros m off nch r i (B & P & FZ & i' & H) PO HI.
  destruct (frame_in_array m off _ _ i (hp_arr _ _ _ _ _ H) HI) as (F1 & F2 & F3).
  pose proof (arr_fetch m off 0 nch r i nch O (hp_src _ _ _ _ _ H) F1 F2 F3 ltac:(lia)) as AF.
  rewrite Z.mul_0_r, Z.add_0_r in AF. rewrite PO. exact AF.
Qed.

Lemma hread_frame : forall m off nch F r, hread m off nch r ->
  read_frame F r = NoFuel \/
  (r_loop r = LNone /\ exists r', read_frame F r = Ok (None, r') /\ hread m off nch r') \/
  (exists i r', 0 <= i < r_fsamples r /\ read_frame F r = Ok (Some (src_frame m off nch i), r') /\
     hread m off nch r' /\ keeps r r').
Proof.
  intros m off nch F r H. pose proof (hread_plain _ _ _ _ H) as PL.
  assert (N1 : (1 <= nch)%nat) by (destruct H as (_ & _ & _ & i & [_ (_ & _ & _ & _ & ? & _) _ _ _ _ _]); auto).
  destruct (hread_settle m off nch F r H) as [[L E]|[(n & r2 & N & S2 & H2 & K)|NF]].
  - destruct F as [|F].
    + left. unfold read_frame. rewrite (pl_dual _ _ _ PL). cbn [bind]. rewrite (pl_nch _ _ _ PL), Nat2Z.id.
      destruct nch; [lia|]. reflexivity.
    + right. left. split; [auto|]. exists (r <| r_cfst := 0 |>). split.
      * apply frame_end; auto; [apply PL|]. rewrite (pl_nch _ _ _ PL). lia.
      * destruct H as (B & P & FZ & i & H). split; [destruct B; constructor; auto|].
        split; [auto|]. split; [auto|]. exists i. destruct H; constructor; auto.
  - right. right.
    pose proof (hread_plain _ _ _ _ H2) as PL2.
    pose proof H2 as (B2 & P2 & FZ2 & i & HP2).
    pose proof (inside _ _ _ _ _ B2 HP2 (settles_end _ _ _ S2)) as IN.
    destruct (hread_advance m off nch i r2 H2 (hp_pos _ _ _ _ _ HP2) IN) as (r3 & AD & H3 & p & x & E3).
    exists i, r3. rewrite (kp_fs _ _ K) in IN. split; [auto|]. split.
    + apply (read_frame_fuel (S n)); [lia|].
      rewrite (plain_frame 0 nch r r2 n N1 (pl_dual _ _ _ PL) (pl_nch _ _ _ PL) S2 PL2).
      rewrite (hread_fetch m off nch r2 i H2 (hp_pos _ _ _ _ _ HP2)) by (rewrite (kp_fs _ _ K); auto).
      cbn [bind]. rewrite AD. reflexivity.
    + split; [auto|]. eapply keeps_trans; [exact K|]. rewrite E3. constructor; auto.
  - left. unfold read_frame. rewrite (pl_dual _ _ _ PL). cbn [bind]. rewrite (pl_nch _ _ _ PL), Nat2Z.id.
    destruct nch; [lia|]. cbn [read_channels]. rewrite NF. reflexivity.
Qed.

Lemma hread_loop : forall m off nch IF F r n, hread m off nch r ->
  read_loop IF F r n = NoFuel \/
  exists fr r', read_loop IF F r n = Ok (fr, r') /\ hread m off nch r' /\
    Forall (good_frame m off nch (r_fsamples r)) fr.
Proof.
  intros m off nch IF. induction F as [|F IH]; intros r n H; cbn [read_loop].
  - destruct (n <=? 0); [right; exists [], r; auto|left; auto].
  - destruct (n <=? 0); [right; exists [], r; auto|].
    assert (N0 : (r_nch r =? 0) = false).
    { pose proof (hread_plain _ _ _ _ H) as PL. rewrite (pl_nch _ _ _ PL).
      destruct H as (_ & _ & _ & i & [_ (_ & _ & _ & _ & ? & _) _ _ _ _ _]). apply Z.eqb_neq. lia. }
    rewrite N0.
    destruct (hread_frame m off nch IF r H) as [E|[(L & r' & E & H')|(i & r' & HI & E & H' & K)]]; rewrite E; cbn [bind].
    + auto.
    + right. exists [], r'. auto.
    + destruct (IH r' (n - 1) H') as [E2|(fr & r2 & E2 & H2 & A2)]; rewrite E2; cbn [bind]; [auto|].
      right. exists (src_frame m off nch i :: fr), r2. split; [auto|]. split; [auto|].
      constructor; [exists i; auto|]. rewrite (kp_fs _ _ K) in A2. auto.
Qed.

Lemma hread_read : forall m off nch fuel r n, hread m off nch r ->
  r_read fuel r n = NoFuel \/
  exists fr r', r_read fuel r n = Ok (fr, r') /\ hread m off nch r' /\
    Forall (good_frame m off nch (r_fsamples r)) fr.
Proof.
  intros m off nch fuel r n H. pose proof (hread_plain _ _ _ _ H) as PL.
  unfold r_read. rewrite (pl_playing _ _ _ PL). cbn [negb].
  destruct (Z.ltb_spec (r_nch r) 0); [rewrite (pl_nch _ _ _ PL) in *; lia|].
  apply hread_loop; auto.
Qed.

(* ---- all calls ------------------------------------------------------------- *)

Lemma hinv_hread : forall r, hinv r -> r_playing r = true -> exists m off nch, hread m off nch r.
Proof.
  intros r (B & [[_ N]|(m & off & nch & i & FZ & H)]) P; [congruence|].
  exists m, off, nch. split; [auto|]. split; [auto|]. split; [auto|]. eauto.
Qed.

Lemma hread_hinv : forall m off nch r, hread m off nch r -> hinv r.
Proof. intros m off nch r (B & P & FZ & i & H). split; auto. right. exists m, off, nch, i. auto. Qed.

Lemma reset_inside : forall m off nch r, hbase r -> r_src r = SArr m off ->
  array_holds m off (r_fsamples r) nch -> r_nch r = Z.of_nat nch -> r_fsize r = 2 * r_fsamples r ->
  start_inside r (r_fsamples r) nch ->
  exists r1, r_reset r = Ok r1 /\ hread m off nch (r1 <| r_playing := true |>).
Proof.
  intros m off nch r B S A N FZ SI. pose proof A as (A1 & A2 & A3 & A4 & A5 & A6).
  pose proof (hb_ls _ B) as BL. pose proof (hb_lf _ B) as BF. pose proof (hb_fs _ B) as BS0.
  assert (SP : forall n, - Z.of_nat nch <= n <= r_fsamples r -> spos r n = n * Z.of_nat nch).
  { intros n Hn. apply hspos; [apply B|auto|]. unfold in_s32.
    assert (n * Z.of_nat nch <= r_fsamples r * Z.of_nat nch) by nia. nia. }
  assert (X : exists i, - Z.of_nat nch <= i <= r_fsamples r /\
     (if dle d0 (r_rate r) then
          match r_pstart r with
          | PSample => Ok (spos r 0)
          | PLoop => Ok (spos r (r_ls r))
          | PArbitrary => Ok (spos r (r_pbstart r))
          end
        else
          match r_pstart r with
          | PSample => chk32 (Z.quot (r_fsize r) 2 - r_nch r)
          | PLoop => n <- chk32 (r_lf r - r_nch r) ;; Ok (spos r n)
          | PArbitrary => Ok (spos r (r_pbstart r))
          end) = Ok (i * Z.of_nat nch) /\
     (dle d0 (r_rate r) = true -> 0 <= i) /\ (dle d0 (r_rate r) = false -> i < r_fsamples r)).
  { unfold start_inside in SI. destruct (dle d0 (r_rate r)) eqn:D; destruct (r_pstart r).
    - exists 0. rewrite SP by lia. repeat split; auto; try lia; congruence.
    - exists (r_ls r). rewrite SP by lia. repeat split; auto; try lia; congruence.
    - exists (r_pbstart r). rewrite SP by lia. repeat split; auto; try lia; congruence.
    - destruct SI as [?|[c Hc]]; [congruence|].
      exists (c - 1). rewrite FZ, N, Z.mul_comm, Z.quot_mul by lia.
      rewrite chk32_ok by (unfold in_s32; lia).
      split; [nia|]. split; [f_equal; nia|]. split; [congruence|]. intros _. nia.
    - exists (r_lf r - Z.of_nat nch). rewrite N, chk32_ok by (unfold in_s32; lia). cbn [bind].
      rewrite SP by lia. repeat split; auto; try lia; congruence.
    - exists (r_pbstart r). rewrite SP by lia. repeat split; auto; try lia; congruence. }
  destruct X as (i & IB & X & X1 & X2).
  unfold r_reset. rewrite X. cbn [bind]. eexists. split; [reflexivity|].
  split; [destruct B; constructor; auto|]. split; [auto|]. split; [auto|].
  exists i. constructor; auto.
  change (in_s32 (i * Z.of_nat nch)). unfold in_s32.
  assert (i * Z.of_nat nch <= r_fsamples r * Z.of_nat nch) by nia. nia.
Qed.

Lemma hinv_step : forall fuel o r, hinv r -> aop_ok o r ->
  aop_run fuel o r = NoFuel \/
  exists out r', aop_run fuel o r = Ok (out, r') /\ hinv r'.
Proof.
  intros fuel o r HI OK. destruct o; cbn [aop_run aop_ok] in *.
  - (* play *)
    right. destruct HI as [B _]. destruct OK as (A & SI & PK). pose proof A as (A1 & A2 & A3 & A4 & A5 & A6).
    unfold playRaw_array. set (r0 := setNumChannels _ _).
    assert (NC : r_nch r0 = Z.of_nat nch) by (apply s16_id; unfold in_s16; lia).
    assert (LL : len <= len * Z.of_nat nch) by nia.
    assert (LF : r_lf r0 = len) by (apply s32_id; unfold in_s32; lia).
    assert (FS : r_fsamples r0 = len) by (apply s32_id; unfold in_s32; lia).
    assert (FZ : r_fsize r0 = 2 * r_fsamples r0).
    { rewrite FS. change (r_fsize r0) with (s32 (u32 (len * 2))). rewrite s32_u32.
      rewrite s32_id by (unfold in_s32; lia). lia. }
    assert (B0 : hbase r0).
    { destruct B. constructor; auto; rewrite ?FS, ?LF; try lia.
      - change (r_ls r0) with 0. lia.
      - change (parked (r_rate r) (r_nch r0) len). now rewrite NC. }
    destruct (reset_inside m off nch r0 B0 eq_refl) as (r1 & E & H1);
      [now rewrite FS|auto|auto|rewrite FS; exact SI|].
    rewrite E. cbn [bind]. eexists. eexists. split; [reflexivity|]. eapply hread_hinv; eauto.
  - (* restart *)
    right. destruct HI as [B [[N _]|(m & off & nch & i & FZ & H)]]; [tauto|]. destruct OK as (_ & SI).
    pose proof (hp_nch _ _ _ _ _ H) as NC. rewrite NC, Nat2Z.id in SI.
    unfold r_play.
    destruct (reset_inside m off nch (r_stop r)) as (r1 & E & H1); auto;
      try (destruct B; constructor; auto; fail); try apply H.
    rewrite E. cbn [bind]. eexists. eexists. split; [reflexivity|]. eapply hread_hinv; eauto.
  - (* read *)
    destruct (r_playing r) eqn:P.
    + destruct (hinv_hread r HI P) as (m & off & nch & H).
      destruct (hread_read m off nch fuel r (Z.of_nat n) H) as [E|(fr & r' & E & H' & _)]; [auto|right].
      exists fr, r'. split; [auto|]. eapply hread_hinv; eauto.
    + right. exists [], r. unfold r_read. rewrite P. auto.
  - (* rate *)
    right. destruct OK as (F & RB & IN & PK). destruct HI as [B S].
    assert (HB : forall p, hbase (r <| r_rate := x |> <| r_pos1 := p |>)) by (intros; destruct B; constructor; auto).
    assert (HB0 : hbase (r <| r_rate := x |>)) by (destruct B; constructor; auto).
    pose proof (hb_fs _ B) as BF. pose proof (hb_lf _ B) as BL. pose proof (hb_ls _ B) as BLS.
    unfold setPlaybackRate. set (r0 := r <| r_rate := x |>) in *.
    change (r_dual r0) with (r_dual r). rewrite (hb_dual _ B). cbn [negb].
    change (r_pos1 r0) with (r_pos1 r). change (r_hdr r0) with (r_hdr r). rewrite (hb_hdr _ B).
    change (r_pstart r0) with (r_pstart r). change (r_fsamples r0) with (r_fsamples r).
    change (r_lf r0) with (r_lf r). change (r_ls r0) with (r_ls r).
    destruct (dlt x d0) eqn:D.
    + assert (G : dle d0 x = false).
      { apply dge0_false; auto. rewrite dlt_R in D by (auto using fin_d0). rewrite R64_d0 in D.
        now apply Rlt_bool_true_iff in D || (destruct (Rlt_bool_spec (R64 x) 0); [auto|discriminate]). }
      destruct (Z.leb_spec (r_pos1 r) 0) as [C0|C0].
      * assert (LM : - 1 <= match r_pstart r with PSample => r_fsamples r | _ => r_lf r end - 1 < r_fsamples r \/
                     -1 <= match r_pstart r with PSample => r_fsamples r | _ => r_lf r end - 1 <= r_fsamples r - 1).
        { destruct (r_pstart r); lia. }
        set (n := match r_pstart r with PSample => r_fsamples r | _ => r_lf r end - 1) in *.
        rewrite chk32_ok by (unfold in_s32; lia). cbn [bind].
        eexists. eexists. split; [reflexivity|]. split; [apply HB|].
        destruct S as [[S1 S2]|(m & off & nch & i & FZ & H)]; [left; auto|right].
        pose proof (hp_arr _ _ _ _ _ H) as (A1 & A2 & A3 & A4 & A5 & A6).
        assert (SP : spos r0 n = n * Z.of_nat nch).
        { apply hspos; [apply B|apply H|]. unfold in_s32. nia. }
        exists m, off, nch, n. split; [auto|]. destruct H. constructor; auto.
        -- change (in_s32 (spos r0 n)). rewrite SP. unfold in_s32. nia.
        -- change (dle d0 x = true -> 0 <= n). congruence.
        -- change (dle d0 x = false -> n < r_fsamples r). lia.
      * eexists. eexists. split; [reflexivity|]. split; [apply HB0|].
        destruct S as [[S1 S2]|(m & off & nch & i & FZ & H)]; [left; auto|right].
        exists m, off, nch, i. split; [auto|]. specialize (IN eq_refl).
        pose proof (hp_arr _ _ _ _ _ H) as (A1 & A2 & A3 & A4 & A5 & A6). destruct H. constructor; auto.
        -- change (dle d0 x = true -> 0 <= i). congruence.
        -- intros _. change (i < r_fsamples r). nia.
    + assert (G : dle d0 x = true).
      { apply dge0_true; auto. rewrite dlt_R in D by (auto using fin_d0). rewrite R64_d0 in D.
        destruct (Rlt_bool_spec (R64 x) 0); [discriminate|auto]. }
      rewrite G. cbn [andb].
      destruct (Z.ltb_spec (r_pos1 r) 0) as [C0|C0].
      * set (n := match r_pstart r with PSample => 0 | _ => r_ls r end).
        assert (LM : 0 <= n <= r_fsamples r) by (unfold n; destruct (r_pstart r); lia).
        eexists. eexists. split; [reflexivity|]. split; [apply HB|].
        destruct S as [[S1 S2]|(m & off & nch & i & FZ & H)]; [left; auto|right].
        pose proof (hp_arr _ _ _ _ _ H) as (A1 & A2 & A3 & A4 & A5 & A6).
        assert (SP : spos r0 n = n * Z.of_nat nch).
        { apply hspos; [apply B|apply H|]. unfold in_s32. nia. }
        exists m, off, nch, n. split; [auto|]. destruct H. constructor; auto.
        -- change (in_s32 (spos r0 n)). rewrite SP. unfold in_s32. nia.
        -- intros _. lia.
        -- change (dle d0 x = false -> n < r_fsamples r). congruence.
      * eexists. eexists. split; [reflexivity|]. split; [apply HB0|].
        destruct S as [[S1 S2]|(m & off & nch & i & FZ & H)]; [left; auto|right].
        exists m, off, nch, i. split; [auto|].
        pose proof (hp_arr _ _ _ _ _ H) as (A1 & A2 & A3 & A4 & A5 & A6). destruct H. constructor; auto.
        -- intros _. nia.
        -- change (dle d0 x = false -> i < r_fsamples r). congruence.
  - (* loop type *)
    right. eexists. eexists. split; [reflexivity|]. destruct HI as [B S].
    assert (E : setLoopType r l = r <| r_loop := l |>).
    { unfold setLoopType. destruct S as [[-> _]|(m & off & nch & i & _ & H)]; [auto|].
      now rewrite (hp_src _ _ _ _ _ H). }
    rewrite E. split; [destruct B; constructor; auto|].
    destruct S as [S|(m & off & nch & i & FZ & H)]; [left; auto|right].
    exists m, off, nch, i. split; [auto|]. destruct H; constructor; auto.
  - (* loop start *)
    right. eexists. eexists. split; [reflexivity|]. destruct HI as [B S]. pose proof (hb_fs _ B).
    assert (E : setLoopStart r v = r <| r_ls := v |>).
    { unfold setLoopStart. rewrite s32_id by (unfold in_s32; lia).
      change (r_src (r <| r_ls := v |>)) with (r_src r).
      destruct S as [[-> _]|(m & off & nch & i & _ & HH)]; [auto|]. now rewrite (hp_src _ _ _ _ _ HH). }
    rewrite E. split; [destruct B; constructor; auto|].
    destruct S as [S|(m & off & nch & i & FZ & HH)]; [left; auto|right].
    exists m, off, nch, i. split; [auto|]. destruct HH; constructor; auto.
  - (* loop finish *)
    right. eexists. eexists. split; [reflexivity|]. destruct HI as [B S]. pose proof (hb_fs _ B).
    destruct OK as [OK PK].
    assert (E : setLoopFinish r v = r <| r_lf := v |>).
    { unfold setLoopFinish. rewrite s32_id by (unfold in_s32; lia).
      change (r_src (r <| r_lf := v |>)) with (r_src r).
      destruct S as [[-> _]|(m & off & nch & i & _ & HH)]; [auto|]. now rewrite (hp_src _ _ _ _ _ HH). }
    rewrite E. split; [destruct B; constructor; auto|].
    destruct S as [S|(m & off & nch & i & FZ & HH)]; [left; auto|right].
    exists m, off, nch, i. split; [auto|]. destruct HH; constructor; auto.
  - right. eexists. eexists. split; [reflexivity|]. destruct HI as [B S].
    split; [destruct B; constructor; auto|].
    destruct S as [S|(m & off & nch & i & FZ & HH)]; [left; auto|right].
    exists m, off, nch, i. split; [auto|]. destruct HH; constructor; auto.
  - right. eexists. eexists. split; [reflexivity|]. destruct HI as [B S].
    split; [destruct B; constructor; auto|].
    destruct S as [[S _]|(m & off & nch & i & FZ & HH)]; [left; auto|right].
    exists m, off, nch, i. split; [auto|]. destruct HH; constructor; auto.
  - right. eexists. eexists. split; [reflexivity|]. destruct HI as [B S].
    unfold r_close. rewrite (hb_kind _ B).
    split; [destruct B; constructor; auto|].
    destruct S as [[S _]|(m & off & nch & i & FZ & HH)]; [left; auto|right].
    exists m, off, nch, i. split; [auto|]. destruct HH; constructor; auto.
Qed.

Lemma hinv_new : hinv (new_reader KArray).
Proof.
  split; [|left; auto]. constructor; try reflexivity; try (cbn; lia).
  - change (Rabs (R64 d1) <= IZR (2 ^ 14))%R. rewrite R64_d1, Rabs_R1. apply IZR_le. lia.
  - change (Rabs (R64 d0) < 1)%R. rewrite R64_d0, Rabs_R0. lra.
  - unfold parked. change (R64 d1 = 0%R -> -1 <= 0). lia.
Qed.

Lemma reach_hinv : forall r, reach r -> hinv r.
Proof.
  induction 1 as [|fuel o r out r' _ IH OK E]; [apply hinv_new|].
  destruct (hinv_step fuel o r IH OK) as [E'|(out' & r2 & E' & H')]; congruence.
Qed.

(* ---- C13: looping playback does not end ------------------------------------ *)

Lemma hread_at_end : forall m off nch r i, hread m off nch r -> r_pos1 r = i * Z.of_nat nch ->
  at_end r = if dle d0 (r_rate r)
             then match r_loop r with LNone => r_fsamples r | _ => r_lf r end <=? i
             else i <? low r.
Proof.
  intros m off nch r i (B & P & FZ & j & H) PO.
  pose proof (hp_arr _ _ _ _ _ H) as (A1 & A2 & A3 & A4 & A5 & A6).
  pose proof (hb_ls _ B). pose proof (hb_lf _ B).
  assert (SP : forall n, 0 <= n <= r_fsamples r -> spos r n = n * Z.of_nat nch).
  { intros n Hn. apply hspos; [apply B|apply H|]. unfold in_s32. nia. }
  assert (LE : forall a, (a * Z.of_nat nch <=? i * Z.of_nat nch) = (a <=? i)).
  { intros a. destruct (Z.leb_spec a i); destruct (Z.leb_spec (a * Z.of_nat nch) (i * Z.of_nat nch)); auto; nia. }
  assert (LT : forall a, (i * Z.of_nat nch <? a * Z.of_nat nch) = (i <? a)).
  { intros a. destruct (Z.ltb_spec i a); destruct (Z.ltb_spec (i * Z.of_nat nch) (a * Z.of_nat nch)); auto; nia. }
  unfold at_end. rewrite (hb_dual _ B), PO. destruct (dle d0 (r_rate r)) eqn:D.
  - destruct (r_loop r); rewrite SP by lia; apply LE.
  - rewrite (dlt0_true _ (hb_ratef _ B) (dge0_ninv _ (hb_ratef _ B) D)). unfold low.
    destruct (r_pstart r); rewrite ?SP by lia; rewrite ?(hb_hdr _ B); try apply LT.
    now rewrite <- LT.
Qed.

Lemma low_lt : forall r, hbase r -> r_ls r < r_lf r -> low r < r_lf r.
Proof. intros r B H. unfold low. pose proof (hb_ls _ B). destruct (r_pstart r); lia. Qed.

Lemma loop_settles : forall m off nch r, hread m off nch r -> loop_good r ->
  exists n r2, settles n r r2.
Proof.
  intros m off nch r H (NL & LT & LR).
  destruct (at_end r) eqn:E; [|exists 0%nat, r; now constructor].
  pose proof H as (B & P & FZ & i & HP).
  assert (N1 : (1 <= nch)%nat) by (destruct HP as [_ (_ & _ & _ & _ & ? & _) _ _ _ _ _]; auto).
  pose proof (low_lt _ B LT) as LL. rewrite (hp_nch _ _ _ _ _ HP) in LR.
  destruct (hread_on_end m off nch r H NL) as (r1 & O & H1 & K1 & K2 & K3 & K4 & K5 & K6 & K7).
  assert (LW : low r1 = low r) by (unfold low; rewrite K4, K2; reflexivity).
  destruct K7 as [(L & RT & PO)|(L & RT & PO)]; rewrite L in K1;
    pose proof (hread_at_end m off nch r1 _ H1 PO) as E1; rewrite K1, K3, LW, RT in E1.
  - exists 1%nat, r1. econstructor; eauto. constructor. rewrite E1.
    destruct (dle d0 (r_rate r)) eqn:D; [apply Z.leb_gt; lia|]. apply Z.ltb_ge. auto.
  - destruct (at_end r1) eqn:E1'; [|exists 1%nat, r1; econstructor; eauto; now constructor].
    symmetry in E1.
    destruct (hread_on_end m off nch r1 H1 ltac:(congruence))
      as (r2 & O2 & H2 & J1 & J2 & J3 & J4 & J5 & J6 & J7).
    destruct J7 as [(L2 & _)|(L2 & RT2 & PO2)]; [congruence|].
    assert (LW2 : low r2 = low r) by (rewrite <- LW; unfold low; rewrite J4, J2; reflexivity).
    rewrite K1 in J1.
    pose proof (hread_at_end m off nch r2 _ H2 PO2) as E2. rewrite J1, J3, K3, LW2, RT2, RT in E2.
    unfold dneg in E2. rewrite Bopp_involutive in E2. fold dneg in E2. rewrite RT in *.
    exists 2%nat, r2. econstructor; eauto. econstructor; eauto. constructor. rewrite E2. clear E2.
    pose proof (hb_ratef _ B) as FR.
    destruct (dle d0 (r_rate r)) eqn:D.
    + change (Bopp (r_rate r)) with (dneg (r_rate r)) in *.
      destruct (dle d0 (dneg (r_rate r))) eqn:D2.
      * apply Z.leb_gt. lia.
      * apply Z.leb_gt. fold (low r1). rewrite LW. lia.
    + change (Bopp (r_rate r)) with (dneg (r_rate r)) in *.
      assert (D2 : dle d0 (dneg (r_rate r)) = true).
      { apply dge0_true; [now rewrite fin_neg|]. rewrite R64_neg. apply dge0_ninv in D; auto. lra. }
      rewrite D2 in E1. apply Z.leb_le in E1. fold (low r) in E1. lia.
Qed.

Lemma loop_good_keeps : forall r r1, keeps r r1 -> loop_good r -> loop_good r1.
Proof.
  intros r r1 [] (A & B & C). unfold loop_good, low in *. rewrite kp_loop0, kp_ls0, kp_lf0, kp_ps0, kp_nch0.
  split; [auto|]. split; [auto|]. intros L. rewrite kp_rate0 by auto. auto.
Qed.

Lemma settles_hread : forall n r r2, settles n r r2 -> forall m off nch, hread m off nch r ->
  hread m off nch r2 /\ keeps r r2.
Proof.
  induction 1 as [r E|n r r1 r2 E O _ IH]; intros m off nch H; [split; auto using keeps_refl|].
  destruct (r_loop r) eqn:L.
  - exfalso. unfold on_end in O. change (r_loop (r <| r_cfst := 0 |>)) with (r_loop r) in O.
    rewrite L in O. discriminate.
  - destruct (hread_on_end m off nch r H ltac:(congruence)) as (r1' & O' & H1 & K1 & K2 & K3 & K4 & K5 & K6 & K7).
    assert (r1' = r1) by congruence. subst r1'.
    destruct (IH m off nch H1) as [H2 K]. split; [auto|]. eapply keeps_trans; [|exact K].
    constructor; auto. intro. destruct K7 as [(_ & ? & _)|(? & _)]; congruence.
  - destruct (hread_on_end m off nch r H ltac:(congruence)) as (r1' & O' & H1 & K1 & K2 & K3 & K4 & K5 & K6 & K7).
    assert (r1' = r1) by congruence. subst r1'.
    destruct (IH m off nch H1) as [H2 K]. split; [auto|]. eapply keeps_trans; [|exact K].
    constructor; auto. intro. destruct K7 as [(_ & ? & _)|(? & _)]; congruence.
Qed.

Lemma settled_frame : forall m off nch r n r2, hread m off nch r -> settles n r r2 ->
  exists i r', 0 <= i < r_fsamples r /\ read_frame (S n) r = Ok (Some (src_frame m off nch i), r') /\
     hread m off nch r' /\ keeps r r'.
Proof.
  intros m off nch r n r2 H S2. pose proof (hread_plain _ _ _ _ H) as PL.
  assert (N1 : (1 <= nch)%nat) by (destruct H as (_ & _ & _ & i & [_ (_ & _ & _ & _ & ? & _) _ _ _ _ _]); auto).
  destruct (settles_hread n r r2 S2 m off nch H) as [H2 K].
  pose proof (hread_plain _ _ _ _ H2) as PL2.
  pose proof H2 as (B2 & P2 & FZ2 & i & HP2).
  pose proof (inside _ _ _ _ _ B2 HP2 (settles_end _ _ _ S2)) as IN.
  destruct (hread_advance m off nch i r2 H2 (hp_pos _ _ _ _ _ HP2) IN) as (r3 & AD & H3 & p & x & E3).
  exists i, r3. rewrite (kp_fs _ _ K) in IN. split; [auto|]. split.
  - rewrite (plain_frame 0 nch r r2 n N1 (pl_dual _ _ _ PL) (pl_nch _ _ _ PL) S2 PL2).
    rewrite (hread_fetch m off nch r2 i H2 (hp_pos _ _ _ _ _ HP2)) by (rewrite (kp_fs _ _ K); auto).
    cbn [bind]. rewrite AD. reflexivity.
  - split; [auto|]. eapply keeps_trans; [exact K|]. rewrite E3. constructor; auto.
Qed.

Lemma loop_frames : forall m off nch n r, hread m off nch r -> loop_good r ->
  exists F fr r', read_loop F F r (Z.of_nat n) = Ok (fr, r') /\ length fr = n /\ keeps r r' /\ hread m off nch r'.
Proof.
  intros m off nch. induction n as [|n IH]; intros r H G.
  - exists O, [], r. auto using keeps_refl.
  - destruct (loop_settles m off nch r H G) as (k & r2 & SS).
    destruct (settled_frame m off nch r k r2 H SS) as (i & r1 & HI & E & H1 & K).
    destruct (IH r1 H1 (loop_good_keeps _ _ K G)) as (F2 & fr & r3 & E2 & LN & K3 & H3).
    exists (S (S k + F2)), (src_frame m off nch i :: fr), r3. split.
    + cbn [read_loop]. destruct (Z.leb_spec (Z.of_nat (S n)) 0); [lia|].
      rewrite (read_frame_fuel (S k) (S (S k + F2)) r _ ltac:(lia) E). cbn [bind].
      assert (N0 : (r_nch r =? 0) = false).
      { pose proof (hread_plain _ _ _ _ H) as PL. rewrite (pl_nch _ _ _ PL).
        destruct H as (_ & _ & _ & j & [_ (_ & _ & _ & _ & ? & _) _ _ _ _ _]). apply Z.eqb_neq. lia. }
      rewrite N0. replace (Z.of_nat (S n) - 1) with (Z.of_nat n) by lia.
      rewrite (read_loop_fuel F2 (S (S k + F2)) F2 (S k + F2) r1 _ _ ltac:(lia) ltac:(lia) E2). reflexivity.
    + split; [cbn; lia|]. split; [|auto]. eapply keeps_trans; eauto.
Qed.

(* A head that can never settle *)
Lemma stuck : forall (P : reader -> Prop),
  (forall r, P r -> at_end r = true /\ exists r1, on_end r = Ok (Some r1) /\ P r1) ->
  forall F r ch, P r -> read_one F ch r = NoFuel.
Proof.
  intros P HP. induction F as [|F IH]; intros r ch H; auto.
  destruct (HP r H) as (E & r1 & O & H1). cbn [read_one]. unfold readNextValue. rewrite E. cbn [bind].
  rewrite O. cbn [bind]. apply IH. auto.
Qed.

Lemma stuck_read : forall m off nch r n, hread m off nch r -> (forall F ch, read_one F ch r = NoFuel) ->
  0 < n -> forall F, r_read F r n = NoFuel.
Proof.
  intros m off nch r n H NF N F. pose proof (hread_plain _ _ _ _ H) as PL.
  assert (N1 : (1 <= nch)%nat) by (destruct H as (_ & _ & _ & i & [_ (_ & _ & _ & _ & ? & _) _ _ _ _ _]); auto).
  unfold r_read. rewrite (pl_playing _ _ _ PL). cbn [negb].
  destruct (Z.ltb_spec (r_nch r) 0); [rewrite (pl_nch _ _ _ PL) in *; lia|].
  destruct F as [|F]; cbn [read_loop]; (destruct (Z.leb_spec n 0); [lia|]); [reflexivity|].
  unfold read_frame. rewrite (pl_dual _ _ _ PL). cbn [bind]. rewrite (pl_nch _ _ _ PL), Nat2Z.id.
  destruct nch; [lia|]. cbn [read_channels]. rewrite NF. reflexivity.
Qed.

(* Repeat: an empty loop, reached forwards, hangs *)
Lemma repeat_hang_fwd : forall m off nch r n, hread m off nch r -> r_loop r = LRepeat ->
  r_lf r <= r_ls r -> dle d0 (r_rate r) = true -> at_end r = true -> 0 < n ->
  forall F, r_read F r n = NoFuel.
Proof.
  intros m off nch r n H L LE D E N. eapply stuck_read; eauto. intros F ch.
  apply (stuck (fun r => hread m off nch r /\ r_loop r = LRepeat /\ r_lf r <= r_ls r /\
                 dle d0 (r_rate r) = true /\ at_end r = true)); auto.
  clear. intros r (H & L & LE & D & E). split; [auto|].
  destruct (hread_on_end m off nch r H ltac:(congruence)) as (r1 & O & H1 & K1 & K2 & K3 & K4 & K5 & K6 & K7).
  exists r1. split; [auto|]. destruct K7 as [(_ & RT & PO)|(? & _)]; [|congruence].
  rewrite D in PO. split; [auto|]. split; [congruence|]. split; [lia|]. split; [congruence|].
  rewrite (hread_at_end m off nch r1 _ H1 PO), RT, D, K1, L, K3. apply Z.leb_le. lia.
Qed.

(* Repeat: reached backwards, a loop shorter than the number of channels hangs *)
Lemma repeat_hang_bwd : forall m off nch r n, hread m off nch r -> r_loop r = LRepeat ->
  r_lf r - Z.of_nat nch < low r -> dle d0 (r_rate r) = false -> at_end r = true -> 0 < n ->
  forall F, r_read F r n = NoFuel.
Proof.
  intros m off nch r n H L LE D E N. eapply stuck_read; eauto. intros F ch.
  apply (stuck (fun r => hread m off nch r /\ r_loop r = LRepeat /\ r_lf r - Z.of_nat nch < low r /\
                 dle d0 (r_rate r) = false /\ at_end r = true)); auto.
  clear. intros r (H & L & LE & D & E). split; [auto|].
  destruct (hread_on_end m off nch r H ltac:(congruence)) as (r1 & O & H1 & K1 & K2 & K3 & K4 & K5 & K6 & K7).
  exists r1. split; [auto|]. destruct K7 as [(_ & RT & PO)|(? & _)]; [|congruence].
  assert (LW : low r1 = low r) by (unfold low; rewrite K4, K2; reflexivity).
  rewrite D in PO. split; [auto|]. split; [congruence|]. split; [lia|]. split; [congruence|].
  rewrite (hread_at_end m off nch r1 _ H1 PO), RT, D, LW. apply Z.ltb_lt. lia.
Qed.
