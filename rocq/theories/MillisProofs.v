(* lengthMillis and positionMillis: C41, C42. *)

From Coq Require Import ZArith Lia List Bool Reals Lra.
From RecordUpdate Require Import RecordUpdate.
From Flocq Require Import Core.Core IEEE754.BinarySingleNaN.
From Verif Require Import Machine Floats FloatFacts WavModel CacheModel ReaderModel ReaderFacts ReaderSpec CacheFacts LifeProofs MillisModel
  CacheFinal WavFinal PlayerCases ReplaySpec ReplayProofs ReplayCases FileForward.
Import ListNotations.
Local Open Scope Z_scope.

(* ---- length ---- *)

Lemma u64_id : forall z, 0 <= z < 2 ^ 64 -> u64 z = z.
Proof. intros z H. unfold u64. apply Z.mod_small. exact H. Qed.

Lemma length_plain : forall r, 0 <= r_fsize r < 2 ^ 31 -> lengthMillis b2m r = r_fsize r * b2m / 2 ^ 32.
Proof.
  intros r H. unfold lengthMillis. assert (u64 (r_fsize r) = r_fsize r) as -> by (apply u64_id; lia).
  rewrite (u64_id (r_fsize r * b2m)) by (unfold b2m; lia). apply u32_id. unfold in_u32, b2m. Z.div_mod_to_equations; lia.
Qed.

Theorem length_bytes : forall r, 0 <= r_fsize r < 2 ^ 31 ->
  r_fsize r * 1000 / 88200 - 1 <= lengthMillis b2m r <= r_fsize r * 1000 / 88200.
Proof. intros r H. rewrite length_plain by exact H. unfold b2m. Z.div_mod_to_equations. lia. Qed.

Lemma reset_fsize : forall r s, r_reset r = Ok s -> r_fsize s = r_fsize r.
Proof. intros r s E. unfold r_reset in E. apply bind_ok in E. destruct E as (p & _ & E). apply Ok_inj in E. subst s. reflexivity. Qed.
Lemma setup_fsize : forall r m off len nch, r_fsize (raw_setup r m off len nch) = s32 (u32 (len * 2)). Proof. reflexivity. Qed.
Lemma raw_fsize : forall r m off len nch s, playRaw_array r m off len nch = Ok s -> 0 <= len < 2 ^ 30 -> r_fsize s = 2 * len.
Proof.
  intros r m off len nch s H L. rewrite playRaw_setup in H. pose proof (setup_fsize r m off len nch) as K.
  set (r2 := raw_setup r m off len nch) in *. clearbody r2. apply bind_ok in H. destruct H as (a & E & H).
  apply reset_fsize in E. apply Ok_inj in H. subst s. change (r_fsize a = 2 * len). rewrite E, K. rewrite u32_id by (unfold in_u32; lia). rewrite s32_id by (unfold in_s32; lia). lia.
Qed.
Lemma read_fsize : forall fuel r n l s, r_read fuel r n = Ok (l, s) -> r_fsize s = r_fsize r.
Proof.
  intros fuel r n l s E. apply r_read_statics in E. destruct E as [E _]. apply (f_equal r_fsize) in E. unfold statics, erase in E. cbn in E. congruence.
Qed.

Lemma header_fsize : forall r f st o s, play_header r f st = Ok (o, s) -> r_fsize s = r_fsize r.
Proof.
  intros r f st o s H. unfold play_header in H. cbv zeta in H. apply bind_ok in H. destruct H as ([ok h] & _ & H).
  destruct (negb _); [injection H as _ <-; reflexivity|]. apply bind_ok in H. destruct H as ([n|] & _ & H); [|injection H as _ <-; reflexivity].
  apply bind_ok in H. destruct H as ([db|] & _ & H); injection H as _ <-; reflexivity.
Qed.
Lemma lstart_fsize : forall r v, r_fsize (setLoopStart r v) = r_fsize r.
Proof. intros r v. unfold setLoopStart. cbv zeta. destruct (r_src (r <| r_ls := s32 v |>)); reflexivity. Qed.
Lemma lfinish_fsize : forall r v, r_fsize (setLoopFinish r v) = r_fsize r.
Proof. intros r v. unfold setLoopFinish. cbv zeta. destruct (r_src (r <| r_lf := s32 v |>)); reflexivity. Qed.
Lemma copy_fsize : forall r, r_fsize (copy_loop r) = r_fsize r.
Proof. intros r. unfold copy_loop. cbv zeta. rewrite lfinish_fsize, lstart_fsize. unfold setLoopType. destruct (r_src r); reflexivity. Qed.
Lemma start_fsize : forall r b s, start_file r = Ok (b, s) -> r_fsize s = r_fsize r.
Proof.
  intros r b s H. unfold start_file in H. apply bind_ok in H. destruct H as (a & E & H). apply reset_fsize in E.
  destruct (r_src a) as [| |g]; try discriminate. apply bind_ok in H. destruct H as ([z g'] & _ & H). injection H as _ <-.
  rewrite <- E. reflexivity.
Qed.
Lemma osrc_fsize : forall r fs f p g, r_fsize (open_src r fs f p g) = r_fsize r.
Proof. intros. unfold open_src. destruct (r_loop r); reflexivity. Qed.
Lemma open_fsize : forall r f p g b s, play_open r f p g = Ok (b, s) -> r_fsize s = r_fsize r.
Proof.
  intros r f p g b s H. unfold play_open in H. destruct (_ <=? _); [injection H as _ <-; reflexivity|].
  apply bind_ok in H. destruct H as (fs & _ & H). apply start_fsize in H. rewrite copy_fsize, osrc_fsize in H. exact H.
Qed.
Lemma close_kind : forall r, r_kind (r_close r) = r_kind r.
Proof. intro r. unfold r_close. destruct (r_kind r) eqn:K; exact K. Qed.
Lemma close_fsize : forall r, r_fsize (r_close r) = r_fsize r.
Proof. intro r. unfold r_close. destruct (r_kind r); reflexivity. Qed.
Lemma file_fsize : forall r f isw n st g b s, r_play_file r (Some f) isw n st g = Ok (b, s) -> r_kind r <> KArray -> r_fsize s = s32 (fsize f).
Proof.
  intros r f isw n st g b s H KN. unfold r_play_file in H. cbv zeta in H.
  pose proof (close_kind r) as CK. set (c := r_close r) in *. clearbody c.
  set (a := (if isw then c else setNumChannels c n) <| r_fname := true |> <| r_live := _ |>) in H.
  assert (AK : r_kind a = r_kind c) by (unfold a; destruct isw; reflexivity). clearbody a.
  destruct (r_kind a) eqn:KA; try congruence; apply bind_ok in H; destruct H as ([o a1] & E & H);
    (assert (K2 : r_fsize a1 = s32 (fsize f));
      [destruct isw; [apply header_fsize in E; rewrite E; reflexivity|injection E as _ <-; reflexivity]|];
     destruct o as [p|]; [apply open_fsize in H; congruence|injection H as _ <-; exact K2]).
Qed.
Theorem file_length : forall r f isw n st g b s, r_play_file r (Some f) isw n st g = Ok (b, s) -> r_kind r <> KArray -> 0 <= fsize f < 2 ^ 31 ->
  fsize f * 1000 / 88200 - 1 <= lengthMillis b2m s <= fsize f * 1000 / 88200.
Proof.
  intros r f isw n st g b s H K L. apply file_fsize in H; [|exact K]. rewrite s32_id in H by (unfold in_s32; lia).
  rewrite <- H. apply length_bytes. lia.
Qed.
Theorem array_length : forall r m off len nch s, playRaw_array r m off len nch = Ok s -> 0 <= len < 2 ^ 30 ->
  len * 1000 / 44100 - 1 <= lengthMillis b2m s <= len * 1000 / 44100.
Proof.
  intros r m off len nch s H L. apply raw_fsize in H; [|exact L].
  pose proof (length_bytes s ltac:(lia)) as B. rewrite H in B.
  replace (2 * len * 1000) with ((len * 1000) * 2) in B by lia. change 88200 with (44100 * 2) in B. rewrite Z.div_mul_cancel_r in B by lia. exact B.
Qed.
Lemma read_length : forall fuel r n l s, r_read fuel r n = Ok (l, s) -> lengthMillis b2m s = lengthMillis b2m r.
Proof. intros. unfold lengthMillis. apply read_fsize in H. now rewrite H. Qed.

(* ---- position ---- *)

Definition place (r : reader) : Z :=
  if negb (r_dual r) then r_pos1 r else if dlt (r_cf r) (d_of_me 1 (-1)) then r_pos1 r else r_pos2 r.
Definition ratio (p len half : Z) : b64 := ddiv (dmul (d_of_Z p) (d_of_Z len)) (d_of_Z half).
Lemma position_place : forall r, r_kind r <> KArray -> 0 < r_fsize r ->
  positionMillis b2m r = d_to_u32 (ratio (place r) (lengthMillis b2m r) (r_fsize r / 2)).
Proof.
  intros r K F. unfold positionMillis, place, ratio. replace (r_fsize r =? 0) with false by (symmetry; apply Z.eqb_neq; lia).
  rewrite Z.quot_div_nonneg by lia. destruct (r_kind r); try congruence; destruct (r_dual r); cbn [negb]; auto; destruct (dlt _ _); auto.
Qed.

Local Open Scope R_scope.
Lemma ratio_R : forall p l h, (0 <= p <= h)%Z -> (0 < h < 2 ^ 31)%Z -> (0 <= l < 2 ^ 31)%Z ->
  fin64 (ratio p l h) = true /\ R64 (ratio p l h) = rnd64 (rnd64 (IZR p * IZR l) / IZR h).
Proof.
  intros p l h P H L. unfold ratio.
  destruct (d_of_Z_ok p ltac:(lia)) as [P1 P2]. destruct (d_of_Z_ok l ltac:(lia)) as [L1 L2]. destruct (d_of_Z_ok h ltac:(lia)) as [H1 H2].
  assert (M : IZR p * IZR l <= bpow radix2 62).
  { rewrite <- mult_IZR. rewrite bpow_IZR by lia. apply IZR_le. nia. }
  assert (M0 : 0 <= IZR p * IZR l) by (rewrite <- mult_IZR; apply IZR_le; nia).
  assert (B62 : bpow radix2 62 <= bpow radix2 1000) by (apply bpow_le; lia).
  destruct (dmul_ok (d_of_Z p) (d_of_Z l)) as [Q1 Q2]; auto.
  { rewrite P1, L1. rewrite Rabs_pos_eq by lra. lra. }
  rewrite P1, L1 in Q1.
  assert (HP : 1 <= IZR h) by (apply IZR_le; lia).
  assert (X0 : 0 <= rnd64 (IZR p * IZR l)) by (replace 0 with (rnd64 0) by (apply rnd64_id, (fmt64_Z 0); lia); apply rnd64_le; lra).
  assert (X1 : rnd64 (IZR p * IZR l) <= bpow radix2 62) by (rewrite <- (rnd64_id (bpow radix2 62)) by (apply fmt64_bpow; lia); apply rnd64_le; lra).
  destruct (ddiv_ok (dmul (d_of_Z p) (d_of_Z l)) (d_of_Z h)) as [D1 D2]; auto.
  { rewrite H1. lra. }
  { rewrite Q1, H1. rewrite Rabs_pos_eq.
    - apply Rle_trans with (bpow radix2 62); [|exact B62]. apply Rle_trans with (2 := X1).
      apply Rmult_le_reg_r with (IZR h); [lra|]. field_simplify; [|lra]. nra.
    - apply Rmult_le_pos; [lra|]. apply Rlt_le, Rinv_0_lt_compat. lra. }
  split; [exact D2|]. rewrite D1, Q1, H1. reflexivity.
Qed.
Definition told (p l h : Z) : Z := Ztrunc (rnd64 (rnd64 (IZR p * IZR l) / IZR h)).
Lemma rnd64_0 : rnd64 0 = 0.
Proof. apply rnd64_id, (fmt64_Z 0). lia. Qed.
Lemma rat_nonneg : forall p l h, (0 <= p)%Z -> (0 < h)%Z -> (0 <= l)%Z -> 0 <= rnd64 (rnd64 (IZR p * IZR l) / IZR h).
Proof.
  intros p l h P H L. rewrite <- rnd64_0. apply rnd64_le. apply Rmult_le_pos; [|apply Rlt_le, Rinv_0_lt_compat, IZR_lt; lia].
  rewrite <- rnd64_0. apply rnd64_le. rewrite <- mult_IZR. apply IZR_le. nia.
Qed.
Lemma told_mono : forall p q l h, (0 <= p <= q)%Z -> (0 < h)%Z -> (0 <= l)%Z -> (told p l h <= told q l h)%Z.
Proof.
  intros p q l h P H L. apply Ztrunc_le. apply rnd64_le. apply Rmult_le_compat_r; [apply Rlt_le, Rinv_0_lt_compat, IZR_lt; lia|].
  apply rnd64_le. apply Rmult_le_compat_r; apply IZR_le; lia.
Qed.
Lemma told_0 : forall l h, told 0 l h = 0%Z.
Proof. intros. unfold told. rewrite Rmult_0_l, rnd64_0. unfold Rdiv. rewrite Rmult_0_l, rnd64_0. apply (Ztrunc_IZR 0). Qed.
(* within a quarter of the exact quotient *)
Lemma told_near : forall p l h, (0 <= p <= h)%Z -> (0 < h < 2 ^ 31)%Z -> (0 <= l < 2 ^ 31)%Z ->
  Rabs (rnd64 (rnd64 (IZR p * IZR l) / IZR h) - IZR p * IZR l / IZR h) <= / 4.
Proof.
  intros p l h P H L. set (m := IZR p * IZR l).
  assert (HP : 1 <= IZR h) by (apply IZR_le; lia). assert (PP : 0 <= IZR p <= IZR h) by (split; apply IZR_le; lia).
  assert (LL : 0 <= IZR l <= bpow radix2 31) by (rewrite bpow_IZR by lia; split; apply IZR_le; lia).
  assert (M0 : 0 <= m <= IZR h * bpow radix2 31) by (unfold m; nra).
  pose proof (rnd64_error m) as E1. rewrite (Rabs_pos_eq m) in E1 by lra.
  set (a := rnd64 m) in *. assert (A0 : 0 <= a) by (unfold a; rewrite <- rnd64_0; apply rnd64_le; lra).
  pose proof (rnd64_error (a / IZR h)) as E2.
  assert (IH : 0 < / IZR h <= 1) by (split; [apply Rinv_0_lt_compat; lra|rewrite <- Rinv_1; apply Rinv_le; lra]).
  assert (AH : 0 <= a / IZR h) by (unfold Rdiv; nra). rewrite (Rabs_pos_eq (a / IZR h)) in E2 by exact AH.
  set (t := bpow radix2 (-1075)) in *. assert (T0 : 0 <= t <= bpow radix2 (-10)) by (split; [apply bpow_ge_0|apply bpow_le; lia]).
  change (bpow radix2 (-10)) with (/ 1024) in T0. change (bpow radix2 (-53)) with (/ 9007199254740992) in *. change (bpow radix2 31) with 2147483648 in *.
  clearbody t.
  assert (MH : 0 <= m / IZR h <= 2147483648).
  { split; [unfold Rdiv; nra|]. apply Rmult_le_reg_r with (IZR h); [lra|]. unfold Rdiv. rewrite Rmult_assoc, Rinv_l by lra. lra. }
  assert (D : Rabs (a / IZR h - m / IZR h) <= / 9007199254740992 * (m / IZR h) + t).
  { replace (a / IZR h - m / IZR h) with ((a - m) * / IZR h) by (unfold Rdiv; ring). rewrite Rabs_mult, (Rabs_pos_eq (/ IZR h)) by lra.
    apply Rle_trans with ((/ 9007199254740992 * m + t) * / IZR h); [apply Rmult_le_compat_r; lra|]. unfold Rdiv. nra. }
  set (u := a / IZR h) in *. set (v := m / IZR h) in *. clearbody u v.
  apply Rabs_le_inv in D. apply Rabs_le_inv in E2. apply Rabs_le. lra.
Qed.
Lemma told_end : forall l h, (0 < h < 2 ^ 31)%Z -> (0 <= l < 2 ^ 31)%Z -> (l - 1 <= told h l h <= l)%Z.
Proof.
  intros l h H L. pose proof (told_near h l h ltac:(lia) H L) as E.
  pose proof (rat_nonneg h l h ltac:(lia) ltac:(lia) ltac:(lia)) as N. unfold told. set (x := rnd64 _) in *. clearbody x.
  assert (HP : 1 <= IZR h) by (apply IZR_le; lia).
  replace (IZR h * IZR l / IZR h) with (IZR l) in E by (field; lra). apply Rabs_le_inv in E.
  destruct (Ztrunc_bounds_pos x N) as [T1 T2].
  split.
  - apply Z.lt_succ_r. apply lt_IZR. rewrite succ_IZR. rewrite minus_IZR. lra.
  - apply Z.lt_succ_r. apply lt_IZR. rewrite succ_IZR. lra.
Qed.
Lemma told_close : forall p l h, (0 <= p <= h)%Z -> (0 < h < 2 ^ 31)%Z -> (0 <= l < 2 ^ 31)%Z ->
  (p * l / h - 1 <= told p l h <= p * l / h + 1)%Z.
Proof.
  intros p l h P H L. pose proof (told_near p l h P H L) as E.
  pose proof (rat_nonneg p l h ltac:(lia) ltac:(lia) ltac:(lia)) as N. unfold told. set (x := rnd64 _) in *. clearbody x.
  assert (HP : 1 <= IZR h) by (apply IZR_le; lia). apply Rabs_le_inv in E. destruct (Ztrunc_bounds_pos x N) as [T1 T2].
  assert (F : IZR (p * l / h) <= IZR p * IZR l / IZR h < IZR (p * l / h) + 1).
  { pose proof (Z.div_mod (p * l) h ltac:(lia)) as D. pose proof (Z.mod_pos_bound (p * l) h ltac:(lia)) as B.
    set (q := (p * l / h)%Z) in *. set (w := ((p * l) mod h)%Z) in *. clearbody q w.
    apply (f_equal IZR) in D. rewrite mult_IZR, plus_IZR, mult_IZR in D. rewrite D.
    replace ((IZR h * IZR q + IZR w) / IZR h) with (IZR q + IZR w / IZR h) by (field; lra).
    assert (0 <= IZR w / IZR h < 1).
    { assert (0 <= IZR w < IZR h) by (split; [apply IZR_le|apply IZR_lt]; lia). split.
      - apply Rmult_le_pos; [lra|apply Rlt_le, Rinv_0_lt_compat; lra].
      - apply Rmult_lt_reg_r with (IZR h); [lra|]. unfold Rdiv. rewrite Rmult_assoc, Rinv_l by lra. lra. }
    lra. }
  split; apply Z.lt_succ_r; apply lt_IZR; rewrite succ_IZR, ?minus_IZR, ?plus_IZR; lra.
Qed.
Local Close Scope R_scope.

Lemma d_to_u32_ok : forall x, fin64 x = true -> 0 <= Ztrunc (R64 x) < 2 ^ 32 -> d_to_u32 x = Ok (Ztrunc (R64 x)).
Proof.
  intros x F H. unfold d_to_u32, d_trunc. rewrite F, Btrunc64.
  replace (_ && _) with true; [reflexivity|]. symmetry. apply andb_true_intro. split; [apply Z.leb_le|apply Z.ltb_lt]; lia.
Qed.
Lemma length_small : forall r, 0 <= r_fsize r < 2 ^ 31 -> 0 <= lengthMillis b2m r < 2 ^ 31.
Proof. intros r H. rewrite length_plain by exact H. unfold b2m. Z.div_mod_to_equations. lia. Qed.

Theorem position_told : forall r, r_kind r <> KArray -> 2 <= r_fsize r < 2 ^ 31 -> 0 <= place r <= r_fsize r / 2 ->
  positionMillis b2m r = Ok (told (place r) (lengthMillis b2m r) (r_fsize r / 2)) /\
  0 <= told (place r) (lengthMillis b2m r) (r_fsize r / 2) <= lengthMillis b2m r.
Proof.
  intros r K F P. assert (H : 0 < r_fsize r / 2 < 2 ^ 31) by (Z.div_mod_to_equations; lia).
  pose proof (length_small r ltac:(lia)) as L. set (l := lengthMillis b2m r) in *.
  assert (T : 0 <= told (place r) l (r_fsize r / 2) <= l).
  { split.
    - rewrite <- (told_0 l (r_fsize r / 2)). apply told_mono; lia.
    - etransitivity; [apply (told_mono _ (r_fsize r / 2)); lia|]. apply told_end; lia. }
  split; [|exact T]. rewrite position_place by (auto; lia).
  destruct (ratio_R (place r) l (r_fsize r / 2) P H L) as [A B]. fold l. unfold told in *. rewrite <- B in *.
  apply d_to_u32_ok; [exact A|lia].
Qed.
Theorem mono_file_length : forall r f n st g b s frames, r_play_file r (Some f) false n st g = Ok (b, s) -> r_kind r <> KArray ->
  fsize f = 2 * frames -> 0 <= frames < 2 ^ 30 ->
  frames * 1000 / 44100 - 1 <= lengthMillis b2m s <= frames * 1000 / 44100.
Proof.
  intros r f n st g b s k H K F L. pose proof (file_length _ _ _ _ _ _ _ _ H K ltac:(lia)) as B. rewrite F in B.
  replace (2 * k * 1000) with ((k * 1000) * 2) in B by lia. change 88200 with (44100 * 2) in B. rewrite Z.div_mul_cancel_r in B by lia. exact B.
Qed.

(* where a file reader is: the play position, or that of the head now heard *)
Theorem position_zero : forall r, r_kind r <> KArray -> 2 <= r_fsize r < 2 ^ 31 -> place r = 0 -> positionMillis b2m r = Ok 0.
Proof.
  intros r K F P. destruct (position_told r K F) as [E _]. { rewrite P. Z.div_mod_to_equations; lia. }
  rewrite E, P. now rewrite told_0.
Qed.
Theorem position_bounded : forall r, r_kind r <> KArray -> 2 <= r_fsize r < 2 ^ 31 -> 0 <= place r <= r_fsize r / 2 ->
  exists t, positionMillis b2m r = Ok t /\ 0 <= t <= lengthMillis b2m r /\
    place r * lengthMillis b2m r / (r_fsize r / 2) - 1 <= t <= place r * lengthMillis b2m r / (r_fsize r / 2) + 1.
Proof.
  intros r K F P. destruct (position_told r K F P) as [E B]. eexists. split; [exact E|]. split; [exact B|].
  apply told_close; [exact P|Z.div_mod_to_equations; lia|apply length_small; lia].
Qed.
Theorem position_mono : forall r s, r_kind r <> KArray -> r_kind s <> KArray -> 2 <= r_fsize r < 2 ^ 31 -> r_fsize s = r_fsize r ->
  0 <= place r -> place r <= place s -> place s <= r_fsize r / 2 ->
  exists t u, positionMillis b2m r = Ok t /\ positionMillis b2m s = Ok u /\ t <= u.
Proof.
  intros r s K K' F E P1 P2 P3. destruct (position_told r K F ltac:(lia)) as [A _].
  destruct (position_told s K' ltac:(lia)) as [B _]. { rewrite E. lia. }
  do 2 eexists. split; [exact A|]. split; [exact B|]. assert (L : lengthMillis b2m s = lengthMillis b2m r) by (unfold lengthMillis; now rewrite E).
  rewrite L, E. apply told_mono; [lia|Z.div_mod_to_equations; lia|apply length_small; lia].
Qed.
