(* Proofs about masking and the event queues. *)

From Coq Require Import ZArith Lia List Bool.
From RecordUpdate Require Import RecordUpdate.
From Verif Require Import Machine ResponderModel ResponderSpec.
Import ListNotations.
Local Open Scope Z_scope.

(* ---- C36 ------------------------------------------------------------------ *)

Lemma mask_bits : forall f n, 0 <= n < 8 -> Z.testbit (mask_evr f) n = Z.testbit f n && negb (n =? 2).
Proof.
  intros f n H. unfold mask_evr. rewrite Z.land_spec. f_equal.
  assert (n = 0 \/ n = 1 \/ n = 2 \/ n = 3 \/ n = 4 \/ n = 5 \/ n = 6 \/ n = 7) as C by lia.
  repeat (destruct C as [->|C]; [reflexivity|]). now subst.
Qed.

Lemma byte_bits : forall a b, 0 <= a < 256 -> 0 <= b < 256 ->
  (forall n, 0 <= n < 8 -> Z.testbit a n = Z.testbit b n) -> a = b.
Proof.
  intros a b A B H. apply Z.bits_inj'. intros n N. destruct (Z.lt_ge_cases n 8); [apply H; lia|].
  assert (X : forall c, 0 <= c < 256 -> Z.testbit c n = false).
  { intros c C. destruct (Z.eq_dec c 0) as [->|NZ]; [apply Z.bits_0|].
    apply Z.bits_above_log2; [lia|]. assert (Z.log2 c < 8) by (apply Z.log2_lt_pow2; lia). lia. }
  now rewrite !X.
Qed.

Lemma lor_byte : forall a b, 0 <= a < 256 -> 0 <= b < 256 -> 0 <= Z.lor a b < 256.
Proof.
  intros a b A B. split; [apply Z.lor_nonneg; lia|].
  destruct (Z.eq_dec (Z.lor a b) 0) as [->|NZ]; [lia|].
  apply (Z.log2_lt_cancel _ 256). rewrite Z.log2_lor by lia.
  change (Z.log2 256) with 8. apply Z.max_lub_lt.
  - destruct (Z.eq_dec a 0) as [->|]; [cbn; lia|]. apply Z.log2_lt_pow2; lia.
  - destruct (Z.eq_dec b 0) as [->|]; [cbn; lia|]. apply Z.log2_lt_pow2; lia.
Qed.
Lemma mask_byte : forall a, 0 <= a < 256 -> 0 <= mask_evr a < 256.
Proof.
  intros a A. unfold mask_evr. split; [apply Z.land_nonneg; lia|].
  destruct (Z.eq_dec (Z.land a (255 - EVR)) 0) as [->|NZ]; [lia|].
  apply (Z.log2_lt_cancel _ 256). eapply Z.le_lt_trans; [apply Z.log2_land; [lia|discriminate]|].
  eapply Z.le_lt_trans; [apply Z.le_min_r|]. reflexivity.
Qed.

(* State of the masks at depth d with wanted checks w *)
Definition masks (s : rsys) (d w : Z) : Prop :=
  s_force s = false /\ s_count s = d /\ 0 <= w < 256 /\
  (d = 0 -> s_flags s = w) /\
  (0 < d -> s_flags s = mask_evr w /\ 0 <= s_copy s < 256 /\ Z.lor (mask_evr w) (s_copy s) = w).

Lemma attach_flags : forall i s, s_flags (attach i s) = Z.lor (s_flags s) EVR /\
  s_copy (attach i s) = s_copy s /\ s_count (attach i s) = s_count s /\ s_force (attach i s) = s_force s.
Proof.
  intros i s. unfold attach, base_detach, y_unlink, upd_resp.
  destruct (v_type (s_resp s i)), (v_trig (s_resp s i)), (v_prev (s_resp s i)), (v_next (s_resp s i)); cbn; auto.
Qed.

Lemma evr_byte : 0 <= EVR < 256. Proof. unfold EVR; lia. Qed.

Lemma mask_lor_evr : forall w, 0 <= w < 256 -> mask_evr (Z.lor w EVR) = mask_evr w.
Proof.
  intros w W. pose proof evr_byte. apply byte_bits; auto using lor_byte, mask_byte.
  intros n N. rewrite !mask_bits by auto. rewrite Z.lor_spec.
  destruct (Z.eqb_spec n 2) as [->|NE]; [now rewrite !andb_false_r|]. cbn [negb]. rewrite !andb_true_r.
  replace (Z.testbit EVR n) with false; [apply orb_false_r|].
  unfold EVR. assert (n = 0 \/ n = 1 \/ n = 3 \/ n = 4 \/ n = 5 \/ n = 6 \/ n = 7) as C by lia.
  repeat (destruct C as [->|C]; [reflexivity|]). now subst.
Qed.
Lemma mask_mask : forall w, 0 <= w < 256 -> mask_evr (mask_evr w) = mask_evr w.
Proof.
  intros w W. apply byte_bits; auto using mask_byte. intros n N. rewrite !mask_bits by auto.
  destruct (n =? 2); now rewrite ?andb_true_r, ?andb_false_r.
Qed.
Lemma mask_lor : forall w b, 0 <= w < 256 -> 0 <= b < 256 -> Z.testbit b 2 = false ->
  Z.lor (mask_evr w) b = mask_evr (Z.lor w b).
Proof.
  intros w b W B T. apply byte_bits; auto using lor_byte, mask_byte. intros n N. rewrite Z.lor_spec, !mask_bits, Z.lor_spec by auto.
  destruct (Z.eqb_spec n 2) as [->|NE]; [now rewrite T, !andb_false_r|]. cbn [negb]. now rewrite !andb_true_r.
Qed.
Lemma mask_lor_self : forall w, 0 <= w < 256 -> Z.lor (mask_evr w) w = w.
Proof.
  intros w W. apply byte_bits; auto using lor_byte, mask_byte. intros n N. rewrite Z.lor_spec, mask_bits by auto.
  destruct (Z.testbit w n), (n =? 2); reflexivity.
Qed.
Lemma mask_evr_lor_evr : forall w, 0 <= w < 256 -> mask_evr (Z.lor (mask_evr w) EVR) = mask_evr w.
Proof. intros w W. rewrite mask_lor_evr by (now apply mask_byte). now apply mask_mask. Qed.
Lemma land_evr : forall w, 0 <= w < 256 -> Z.land (Z.lor w EVR) EVR = EVR.
Proof.
  intros w W. apply Z.bits_inj'. intros n N. rewrite Z.land_spec, Z.lor_spec.
  destruct (Z.testbit EVR n), (Z.testbit w n); reflexivity.
Qed.

Lemma masks_step : forall o s d w, mop_sane o -> masks s d w -> 0 <= d -> 0 <= d + mdepth1 o ->
  masks (mop_run o s) (d + mdepth1 o) (Z.lor w (madds o)).
Proof.
  intros o s d w SA (HF & HC & HW & H0 & H1) D D'. destruct o as [| |i|b]; cbn [mdepth1 madds mop_run] in *.
  - rewrite Z.lor_0_r. unfold disableResponse. rewrite HC.
    destruct (Z.eqb_spec d 0) as [->|ND].
    + rewrite HF. specialize (H0 eq_refl). unfold masks. cbn. rewrite HF, HC, H0.
      repeat split; try lia; try (intros; lia). now apply mask_lor_self.
    + destruct (H1 ltac:(lia)) as (F & CB & CE). unfold masks. cbn. rewrite HC.
      repeat split; auto; try lia.
  - rewrite Z.lor_0_r. unfold enableResponse. cbn. rewrite HC, HF.
    destruct (H1 ltac:(lia)) as (F & CB & CE).
    destruct (Z.leb_spec (d - 1) 0).
    + unfold masks. cbn. rewrite F, CE. repeat split; auto; lia.
    + unfold masks. cbn. rewrite ?HC. repeat split; auto; lia.
  - rewrite Z.add_0_r. destruct (attach_flags i s) as (A1 & A2 & A3 & A4).
    set (t := attach i s) in *. clearbody t. unfold updateResponse. cbn. rewrite A1, A2, A3, A4, HF, HC.
    pose proof evr_byte as EB.
    destruct (Z.ltb_spec 0 d); cbn [andb negb].
    + destruct (H1 H) as (F & CB & CE). unfold masks. cbn. rewrite ?A1, ?A2, ?A3, ?A4, F.
      rewrite land_evr by (now apply mask_byte). rewrite mask_evr_lor_evr, mask_lor_evr by auto.
      repeat split; auto using lor_byte; try lia; try apply lor_byte; auto.
      rewrite Z.lor_assoc, CE. reflexivity.
    + assert (d = 0) by lia. specialize (H0 H2). unfold masks. cbn. rewrite ?A1, ?A3, ?A4, H0.
      repeat split; auto; try lia; apply lor_byte; auto.
  - rewrite Z.add_0_r. destruct SA as [B T]. unfold masks. cbn. rewrite HF, HC.
    split; [auto|]. split; [auto|]. split; [now apply lor_byte|]. split.
    + intros E. now rewrite (H0 E).
    + intros E. destruct (H1 E) as (F & CB & CE). rewrite F. split; [now apply mask_lor|]. split; [auto|].
      rewrite <- mask_lor by auto. rewrite <- Z.lor_assoc, (Z.lor_comm b), Z.lor_assoc, CE. reflexivity.
Qed.

Lemma masks_runs : forall l s d w, Forall mop_sane l -> masks s d w -> 0 <= d ->
  (forall p q, l = p ++ q -> 0 <= d + mdepth p) ->
  masks (mop_runs l s) (d + mdepth l) (wanted w l).
Proof.
  induction l as [|o l IH]; intros s d w SA M D N; cbn [mdepth wanted mop_runs fold_left].
  - now rewrite Z.add_0_r.
  - inversion SA; subst. assert (D1 : 0 <= d + mdepth1 o).
    { specialize (N [o] l eq_refl). cbn in N. lia. }
    rewrite Z.add_assoc. apply (IH (mop_run o s)); auto.
    + now apply masks_step.
    + intros p q ->. specialize (N (o :: p) q eq_refl). cbn [mdepth] in N. lia.
Qed.

Lemma nested_prefix : forall p q, nested (p ++ q) -> nested p.
Proof. intros p q H a b E. apply (H a (b ++ q)). rewrite E. now rewrite app_assoc. Qed.

(* Inside a disabled region the response is masked, and only it; outside, the checks
   are those wanted *)
Lemma masked_inside : forall s l, s_force s = false -> s_count s = 0 -> 0 <= s_flags s < 256 ->
  Forall mop_sane l -> nested l ->
  s_flags (mop_runs l s) = (if mdepth l =? 0 then wanted (s_flags s) l else mask_evr (wanted (s_flags s) l)) /\
  s_count (mop_runs l s) = mdepth l.
Proof.
  intros s l F C B SA N.
  assert (M : masks s 0 (s_flags s)).
  { unfold masks. repeat split; auto; try lia. }
  pose proof (masks_runs l s 0 (s_flags s) SA M ltac:(lia)) as R.
  destruct R as (_ & RC & _ & R0 & R1). { intros p q E. rewrite Z.add_0_l. exact (N p q E). }
  rewrite Z.add_0_l in *. split; [|exact RC].
  destruct (Z.eqb_spec (mdepth l) 0); auto. apply R1. specialize (N l [] ltac:(now rewrite app_nil_r)). lia.
Qed.

Lemma mask_off : forall w, Z.testbit (mask_evr w) 2 = false.
Proof. intro w. rewrite mask_bits by lia. apply andb_false_r. Qed.
