(* Playing an array forwards without looping, whatever the loop points, with or without
   interpolation, never goes wrong; with cubic interpolation for rates up to 1. *)

From Coq Require Import ZArith Lia List Bool Reals Lra.
From RecordUpdate Require Import RecordUpdate.
From Flocq Require Import Core.Core IEEE754.BinarySingleNaN.
From Verif Require Import Machine Floats FloatFacts WavModel InterpModel CacheModel CacheFacts ReaderModel
  ReaderFacts ReaderSpec Walk FadeSpec FadeProofs FadeLoop CubicProofs QuadProofs InterpSafe.
Import ListNotations.
Local Open Scope Z_scope.

(* Only the interpolation points changed *)
Definition repointed (r r' : reader) : Prop := exists P n, r' = wp r P n /\ pts_ok P.

Lemma repointed_trans : forall r r1 r2, repointed r r1 -> repointed r1 r2 -> repointed r r2.
Proof. intros r r1 r2 (P & n & -> & _) (P2 & n2 & -> & K). exists P2, n2. split; [destruct r; reflexivity|exact K]. Qed.

Section Fetch.
Variables (m : mem) (off len : Z) (nch : nat).
Hypothesis (HA : array_holds m off len nch) (HC : (nch <= 8)%nat).
Local Notation N := (Z.of_nat nch).

(* A playing single-head reader of the array at frame p *)
Record af (p : Z) (r : reader) : Prop := mkAF {
  a_dual : r_dual r = false; a_nch : r_nch r = N; a_hdr : r_hdr r = 0; a_play : r_playing r = true;
  a_src : r_src r = SArr m off; a_cfst : r_cfst r = 0; a_len : r_fsamples r = len; a_loop : r_loop r = LNone;
  a_pos : r_pos1 r = p * N; a_pts : pts_ok (r_pts r);
  a_remf : fin64 (r_rem r) = true; a_rem : (0 <= R64 (r_rem r) <= 1)%R;
  a_ratef : fin64 (r_rate r) = true; a_rate : (0 <= R64 (r_rate r) <= IZR (2 ^ 26))%R;
  a_slow : r_interp r = IQuadratic -> (R64 (r_rate r) <= 1)%R }.

Lemma af_repointed : forall p r r', af p r -> repointed r r' -> af p r'.
Proof. intros p r r' [] (P & n & -> & K). constructor; assumption. Qed.
Lemma repointed_self : forall p r, af p r -> repointed r r.
Proof. intros p r F. exists (r_pts r), (r_npts r). split; [destruct r; reflexivity|apply F]. Qed.

Lemma get_a : forall p r o c, af p r -> 0 <= p < len -> (c < nch)%nat -> -8 <= o <= 8 -> 0 <= p + o < len ->
  exists v r', getAt r (r_pos1 r) o (Z.of_nat c) = Ok (v, r') /\ repointed r r' /\ in_s16 v.
Proof.
  intros p r o c F P C O PO. destruct HA as (H0 & L0 & B & B2 & N1 & _). unfold getAt. rewrite (a_pos _ _ F), (a_nch _ _ F).
  assert (X : 0 <= (p + o) * N <= (len - 1) * N) by nia.
  rewrite chk32_ok by (unfold in_s32; nia). cbn [bind]. rewrite chk32_ok by (unfold in_s32; nia). cbn [bind].
  unfold getSourceBufferValue. rewrite (a_src _ _ F). set (a := off + 2 * (p * N + o * N + Z.of_nat c)).
  destruct (Z.leb_spec 0 a); [|unfold a in *; nia]. destruct (Z.leb_spec (a + 2) (msize m)); [|unfold a in *; nia].
  eexists _, r. split; [reflexivity|]. split; [eapply repointed_self; eauto|apply le16_range].
Qed.

Lemma add_a : forall p r c y, af p r -> (c < nch)%nat -> in_s16 y -> exists r', addPoint r (Z.of_nat c) y = Ok r' /\ repointed r r'.
Proof.
  intros p r c y F C Y. unfold addPoint, chan_ok. destruct (Z.leb_spec 0 (Z.of_nat c)); [|lia]. destruct (Z.ltb_spec (Z.of_nat c) 8); [|lia].
  pose proof (a_pts _ _ F) as K.
  destruct (r_interp r); cbn [andb bind].
  - exists r. split; [reflexivity|]. eapply repointed_self; eauto.
  - eexists. split; [reflexivity|]. do 2 eexists. split; [reflexivity|].
    intros x. unfold upd. destruct (_ =? _); [|apply K]. destruct (K (Z.of_nat c)) as (? & ? & ? & ?). split; [|split; [|split]]; cbn; assumption.
  - eexists. split; [reflexivity|]. do 2 eexists. split; [reflexivity|].
    intros x. unfold upd. destruct (_ =? _); [|apply K]. destruct (K (Z.of_nat c)) as (? & ? & ? & ?). split; [|split; [|split]]; cbn; assumption.
Qed.

Lemma push_a : forall i fwd p r c, af p r -> 0 <= p < len -> (c < nch)%nat -> (i <= 1)%nat ->
  exists r', push_points i fwd r (Z.of_nat c) = Ok r' /\ repointed r r'.
Proof.
  induction i as [|i IH]; intros fwd p r c F P C I4.
  - exists r. split; [reflexivity|]. eapply repointed_self; eauto.
  - cbn [push_points]. set (o := if fwd then 1 - Z.of_nat (S i) else Z.of_nat (S i) - 1).
    assert (OO : o = 0) by (unfold o; destruct fwd; lia).
    destruct (get_a p r o c F P C ltac:(lia) ltac:(lia)) as (v & r1 & E & M & V). rewrite E. cbn [bind]. rewrite (a_dual _ _ F). cbn [andb bind].
    pose proof (af_repointed _ _ _ F M) as F1. destruct (add_a p r1 c v F1 C V) as (r2 & E2 & M2). rewrite E2. cbn [bind].
    pose proof (af_repointed _ _ _ F1 M2) as F2. destruct (IH fwd p r2 c F2 P C ltac:(lia)) as (r3 & E3 & M3).
    exists r3. split; [exact E3|]. eauto using repointed_trans.
Qed.

Lemma quad_a : forall p r c v, af p r -> 0 <= p < len -> (c < nch)%nat -> r_interp r = IQuadratic ->
  exists w r', quadratic_value r (Z.of_nat c) v = Ok (w, r') /\ repointed r r' /\ in_s16 w.
Proof.
  intros p r c v F P C Q. unfold quadratic_value. pose proof (a_slow _ _ F Q) as SL. cbv zeta. pose proof (repointed_self _ _ F) as SAME. pose proof (a_rem _ _ F) as RM. pose proof (a_rate _ _ F) as RT.
  assert (RMA : (Rabs (R64 (r_rem r)) <= 1)%R) by (apply Rabs_le; lra).
  assert (X : exists r1, (if dlt d0 (r_rate r) then
       if dlt (dsub (r_rem r) (r_rate r)) d0 then n <- d_to_s32 (dneg (dfloor (dsub (r_rem r) (r_rate r)))) ;; push_points (Z.to_nat (Z.min n 4)) true r (Z.of_nat c) else Ok r
     else if dlt (r_rate r) d0 then
       if dlt d0 (dsub (r_rem r) (r_rate r)) then n <- d_to_s32 (dceil (dsub (r_rem r) (r_rate r))) ;; push_points (Z.to_nat (Z.min n 4)) false r (Z.of_nat c) else Ok r
     else Ok r) = Ok r1 /\ repointed r r1).
  { destruct (dlt d0 (r_rate r)).
    - destruct (dlt (dsub (r_rem r) (r_rate r)) d0) eqn:D; [|eauto].
      destruct (count_fwd (r_rem r) (r_rate r) 1) as (n & EN & NB); auto; try apply F; try lia.
      { apply Rabs_le. assert (IZR (2 ^ 26) <= IZR (2 ^ 30))%R by (apply IZR_le; lia). lra. }
      { lra. }
      rewrite EN. cbn [bind]. eapply push_a; eauto. lia.
    - destruct (dlt (r_rate r) d0) eqn:D; [|eauto]. exfalso. rewrite dlt_R in D by (auto using fin_d0; apply F). rewrite R64_d0 in D.
      revert D. case Rlt_bool_spec; [lra|discriminate]. }
  destruct X as (r1 & -> & M). cbn [bind]. unfold chan_ok. destruct (Z.leb_spec 0 (Z.of_nat c)); [|lia]. destruct (Z.ltb_spec (Z.of_nat c) 8); [|lia]. cbn [andb bind].
  pose proof (af_repointed _ _ _ F M) as F1. destruct (4 <=? r_npts r1 (Z.of_nat c)).
  - destruct (a_pts _ _ F1 (Z.of_nat c)) as (K0 & K1 & K2 & K3). destruct (abscissa (r_rem r) (a_remf _ _ F) RMA) as [FX X].
    destruct (cubic_accuracy _ _ _ _ _ K0 K1 K2 K3 FX X) as (w & EW & W & _).
    match goal with |- context [fastinterpolate ?a ?b ?c ?d ?x] => change (fastinterpolate a b c d x) with (fastinterpolate a b c d (f_of_d (dadd d1 (dabs (r_rem r))))) end.
    rewrite EW. cbn [bind]. exists w, r1. auto.
  - exists 0, r1. split; [reflexivity|]. split; [exact M|]. unfold in_s16; lia.
Qed.

Lemma lin_a : forall p r c v, af p r -> 0 <= p < len -> (c < nch)%nat -> in_s16 v ->
  exists w r', linear_value r (Z.of_nat c) v = Ok (w, r') /\ repointed r r' /\ in_s16 w.
Proof.
  intros p r c v F P C V. destruct HA as (H0 & L0 & B2 & B & N1 & _). unfold linear_value. cbv zeta. pose proof (repointed_self _ _ F) as SAME. pose proof (a_rem _ _ F) as RM. pose proof (a_rate _ _ F) as RT.
  destruct (dlt d0 (dabs (r_rem r))) eqn:AR.
  - assert (CK : chan_ok (Z.of_nat c) = Ok tt).
    { unfold chan_ok. destruct (Z.leb_spec 0 (Z.of_nat c)); [|lia]. destruct (Z.ltb_spec (Z.of_nat c) 8); [|lia]. reflexivity. }
    rewrite CK. cbn [bind].
    assert (ADD : forall e, (exists r1, e = Ok r1 /\ repointed r r1) -> exists r1, (r' <- e ;; addPoint r' (Z.of_nat c) v) = Ok r1 /\ repointed r r1).
    { intros e (r1 & -> & M). cbn [bind]. destruct (add_a p r1 c v (af_repointed _ _ _ F M) C V) as (r2 & E & M2). eauto using repointed_trans. }
    assert (SET : forall w r1, repointed r r1 -> in_s16 w -> exists r2, @Ok reader (r1 <| r_pts := upd (r_pts r1) (Z.of_nat c) (r_pts r1 (Z.of_nat c) <| y1 := w |>) |>) = Ok r2 /\ repointed r r2).
    { intros w r1 M W. eexists. split; [reflexivity|]. destruct M as (Q & n & -> & K). exists (upd Q (Z.of_nat c) (Q (Z.of_nat c) <| y1 := w |>)), n. split; [destruct r; reflexivity|].
      intros x. unfold upd. destruct (_ =? _); [|apply K]. destruct (K (Z.of_nat c)) as (? & ? & ? & ?). split; [|split; [|split]]; cbn; assumption. }
    match goal with |- exists w r', (r1 <- ?e ;; _) = _ /\ _ /\ _ => assert (X : exists r1, e = Ok r1 /\ repointed r r1) end.
    { rewrite (a_dual _ _ F). destruct (dlt d0 (r_rate r)).
      - destruct (dlt (dsub (r_rem r) (r_rate r)) d0); [|eauto]. apply ADD. destruct (_ && _); [|eauto].
        rewrite (a_pos _ _ F), (a_nch _ _ F), (a_hdr _ _ F). rewrite chk32_ok by (unfold in_s32; nia). cbn [bind]. rewrite chk32_ok by (unfold in_s32; nia). cbn [bind].
        cbn [Z.mul]. destruct (Z.ltb_spec 0 (p * N - N)); [|eauto]. assert (1 <= p) by nia. rewrite <- (a_pos _ _ F).
        destruct (get_a p r (-1) c F P C ltac:(lia) ltac:(lia)) as (w & r1 & E & M & W). rewrite E. cbn [bind]. now apply SET.
      - destruct (dlt (r_rate r) d0) eqn:D; [|eauto]. exfalso. rewrite dlt_R in D by (auto using fin_d0; apply F). rewrite R64_d0 in D.
        revert D. case Rlt_bool_spec; [lra|discriminate]. }
    destruct X as (r1 & -> & M). cbn [bind]. pose proof (af_repointed _ _ _ F M) as F1.
    destruct (1 <? r_npts r1 (Z.of_nat c)); [|exists v, r1; auto].
    destruct (a_pts _ _ F1 (Z.of_nat c)) as (K0 & K1 & _).
    destruct (mix_safe (dabs (r_rem r)) (y1 (r_pts r1 (Z.of_nat c))) (y0 (r_pts r1 (Z.of_nat c)))) as (w & -> & W); auto.
    { split; [rewrite fin_abs; apply F|]. rewrite R64_abs, Rabs_pos_eq; lra. }
    cbn [bind]. exists w, r1. auto.
  - destruct (add_a p r c v F C V) as (r1 & -> & M). cbn [bind]. exists (y0 (r_pts r1 (Z.of_nat c))), r1. split; [reflexivity|]. split; [exact M|].
    apply (a_pts _ _ (af_repointed _ _ _ F M) (Z.of_nat c)).
Qed.

Lemma end_a : forall p r, af p r -> 0 <= p -> at_end r = (len <=? p).
Proof.
  intros p r F P. destruct HA as (H0 & L0 & B2 & B & N1 & _).
  unfold at_end. rewrite (a_dual _ _ F), (a_loop _ _ F), (a_pos _ _ F), (a_len _ _ F).
  rewrite dge0_true by (apply F).
  assert (SP : spos r len = len * N).
  { unfold spos, sts. rewrite (a_hdr _ _ F), (a_nch _ _ F), s32_u32. apply s32_id. unfold in_s32; nia. }
  rewrite SP. destruct (Z.leb_spec (len * N) (p * N)), (Z.leb_spec len p); auto; nia.
Qed.

Lemma channels_a : forall p todo c r, af p r -> 0 <= p < len -> (c + todo <= nch)%nat ->
  exists l r', read_channels 1 todo (Z.of_nat c) r = Ok (Some l, r') /\ repointed r r' /\ length l = todo /\ Forall in_s16 l.
Proof.
  intros p. induction todo as [|todo IH]; intros c r F P C.
  - exists [], r. split; [reflexivity|]. split; [eapply repointed_self; eauto|auto].
  - cbn [read_channels read_one]. unfold readNextValue at 1. rewrite (end_a p r F) by lia. destruct (Z.leb_spec len p); [lia|].
    unfold fetch_value. rewrite (a_dual _ _ F). cbn [negb orb].
    destruct (get_a p r 0 c F P ltac:(lia) ltac:(lia) ltac:(lia)) as (v & r1 & G & M & V). rewrite G. cbn [bind]. pose proof (af_repointed _ _ _ F M) as F1.
    assert (X : exists w r2, match r_interp r with INone => Ok (v, r1) | ILinear => linear_value r1 (Z.of_nat c) v | IQuadratic => quadratic_value r1 (Z.of_nat c) v end
       = Ok (w, r2) /\ repointed r r2 /\ in_s16 w).
    { destruct (r_interp r) eqn:RI.
      - exists v, r1. auto.
      - destruct (lin_a p r1 c v F1 P ltac:(lia) V) as (w & r2 & E & M2 & W). eauto 6 using repointed_trans.
      - destruct (quad_a p r1 c v F1 P ltac:(lia) ltac:(destruct M as (? & ? & -> & _); exact RI)) as (w & r2 & E & M2 & W). eauto 6 using repointed_trans. }
    destruct X as (w & r2 & -> & M2 & W). cbn [bind].
    replace (Z.of_nat c + 1) with (Z.of_nat (S c)) by lia.
    destruct (IH (S c) r2 (af_repointed _ _ _ F M2) P ltac:(lia)) as (l & r3 & -> & M3 & LN & A).
    cbn [bind option_map]. exists (w :: l), r3. split; [reflexivity|]. split; [eauto using repointed_trans|]. cbn [length]. auto.
Qed.

Lemma advance_a : forall p r, af p r -> 0 <= p < len -> exists a r', advance r = Ok r' /\ 0 <= a <= 2 ^ 27 /\ af (p + a) r'.
Proof.
  intros p r F P. destruct HA as (H0 & L0 & B2 & B & N1 & _). pose proof (a_rem _ _ F) as RM. pose proof (a_rate _ _ F) as RT.
  assert (P26 : IZR (2 ^ 26) = 67108864%R) by reflexivity. rewrite P26 in RT.
  remember (step_sum r) as u eqn:UE.
  assert (UB : (0 <= u <= IZR (2 ^ 26 + 1))%R).
  { rewrite UE. unfold step_sum. split; [rewrite <- (rnd64_id 0) by (apply fmt64_Z; lia); apply rnd64_le; lra|]. rewrite <- (rnd64_id (IZR (2 ^ 26 + 1))) by (apply fmt64_Z; lia). apply rnd64_le. rewrite plus_IZR, P26. lra. }
  rewrite plus_IZR, P26 in UB.
  assert (TB : 0 <= Ztrunc u <= 2 ^ 27).
  { rewrite <- (Ztrunc_IZR 0) at 1. rewrite <- (Ztrunc_IZR (2 ^ 27)) at 1. assert (P27 : IZR (2 ^ 27) = 134217728%R) by reflexivity.
    split; apply Ztrunc_le; rewrite ?P27; lra. }
  destruct (advance_plain r) as (y & Y1 & Y2 & Y3 & AD); rewrite <- ?UE in *; try apply F.
  - apply Rabs_le. lra.
  - rewrite Rabs_pos_eq by lra. apply Rle_trans with (IZR (2 ^ 26)); [rewrite P26; lra|]. rewrite bpow_IZR by lia. apply IZR_le. lia.
  - unfold in_s32. lia.
  - rewrite (a_nch _ _ F). unfold in_s32. nia.
  - rewrite (a_nch _ _ F), (a_pos _ _ F). unfold in_s32. nia.
  - exists (Ztrunc u). eexists. split; [exact AD|]. split; [exact TB|].
    assert (YB : (0 <= R64 y <= 1)%R). { rewrite Y2. destruct (Ztrunc_bounds_pos u ltac:(lra)) as [T1 T2]. lra. }
    rewrite (a_pos _ _ F), (a_nch _ _ F). destruct F. constructor; try assumption.
    change (p * N + Ztrunc u * N = (p + Ztrunc u) * N). ring.
Qed.

Definition aplay (r : reader) : Prop := exists p, af p r /\ 0 <= p <= len + 2 ^ 27.

Lemma aplay_safe : keeps_safe aplay (frame_ok nch).
Proof.
  intros r (p & F & P). destruct HA as (H0 & L0 & B2 & B & N1 & _).
  split; [apply F|]. split; [rewrite (a_nch _ _ F); lia|].
  unfold read_frame. rewrite (a_dual _ _ F). cbn [bind]. rewrite (a_nch _ _ F), Nat2Z.id.
  destruct (Z.ltb_spec p len) as [L|L].
  - destruct (channels_a p nch 0 r F ltac:(lia) ltac:(lia)) as (fr & r1 & E & M & LN & A). change (Z.of_nat 0) with 0 in E.
    destruct (advance_a p r1 (af_repointed _ _ _ F M) ltac:(lia)) as (a & r2 & AD & AB & F2).
    exists 1%nat, (Some fr), r2. rewrite E. cbn [bind]. rewrite AD. cbn [bind]. split; [reflexivity|].
    split; [exists (p + a); split; [exact F2|lia]|]. intros v V. injection V as <-. split; auto.
  - pose proof (end_a p r F ltac:(lia)) as E. destruct (Z.leb_spec len p); [|lia].
    exists 1%nat, None. assert (NN : nch = S (Nat.pred nch)) by lia. eexists. split; [|split; [|discriminate]].
    + rewrite NN at 1. cbn [read_channels read_one]. unfold readNextValue. rewrite E. cbn [bind]. unfold on_end. change (r_loop (r <| r_cfst := 0 |>)) with (r_loop r).
      rewrite (a_loop _ _ F). cbn [bind]. reflexivity.
    + exists p. split; [|lia]. destruct F. constructor; try assumption. reflexivity.
Qed.
End Fetch.
