(* A repeat loop with crossfade at rate 1: C21, C69. *)

From Coq Require Import ZArith Lia List Bool Reals Lra.
From RecordUpdate Require Import RecordUpdate.
From Flocq Require Import Core.Core IEEE754.BinarySingleNaN.
From Verif Require Import Machine Floats FloatFacts WavModel InterpModel CacheModel CacheFacts ReaderModel
  ReaderFacts ReaderSpec Sessions StreamFacts Walk ForwardProofs LoopProofs FadeSpec FadeProofs.
Import ListNotations.
Local Open Scope Z_scope.

(* One step at rate 1 without a fraction pending *)
Lemma advance_unit : forall r, r_rate r = d1 -> is_finite (r_rem r) = true -> R64 (r_rem r) = 0%R -> r_loop r = LRepeat ->
  in_s32 (r_nch r) -> in_s32 (r_pos1 r + r_nch r) -> (r_cfst r <> 0 -> in_s32 (r_pos2 r + r_nch r)) ->
  exists x, is_finite x = true /\ R64 x = 0%R /\
    advance r = Ok (if r_cfst r =? 0 then r <| r_rem := x |> <| r_pos1 := r_pos1 r + r_nch r |>
                    else r <| r_rem := x |> <| r_pos1 := r_pos1 r + r_nch r |> <| r_pos2 := r_pos2 r + r_nch r |>).
Proof.
  intros r RT F R0 LP N1 N2 N3. unfold advance. rewrite RT.
  destruct (dadd_ok (r_rem r) d1 F fin_d1) as [A1 A2]. { apply big_ok. rewrite R0, R64_d1. rewrite Rabs_pos_eq; lra. }
  rewrite R0, R64_d1, Rplus_0_l, rnd64_one in A1. set (s := dadd (r_rem r) d1) in *. clearbody s.
  rewrite d_to_s32_ok; rewrite ?A1, ?(Ztrunc_IZR 1); [|exact A2|unfold in_s32; lia]. cbn [bind].
  rewrite Z.mul_1_l. rewrite chk32_ok by exact N1. cbn [bind]. rewrite chk32_ok by exact N2. cbn [bind].
  destruct (d_of_Z_ok 1 ltac:(lia)) as [Z1 Z2].
  destruct (dsub_ok s (d_of_Z 1) A2 Z2) as [S1 S2]. { apply big_ok. rewrite A1, Z1. rewrite Rminus_diag_eq, Rabs_R0 by auto. lra. }
  rewrite A1, Z1, Rminus_diag_eq, rnd64_zero in S1 by auto.
  exists (dsub s (d_of_Z 1)). split; [exact S2|]. split; [exact S1|].
  destruct (Z.eqb_spec (r_cfst r) 0) as [Z|Z]; [reflexivity|]. rewrite LP. cbn [loop_eqb]. rewrite chk32_ok by auto. reflexivity.
Qed.

(* A frame read channel by channel without changing the reader *)
Lemma channels_map : forall r f (g : nat -> Z) todo ch, (forall c, (ch <= c < ch + todo)%nat -> readNextValue r (Z.of_nat c) = Ok (Some (g c), r)) ->
  read_channels (S f) todo (Z.of_nat ch) r = Ok (Some (map g (seq ch todo)), r).
Proof.
  intros r f g. induction todo as [|todo IH]; intros ch H; [reflexivity|]. cbn [read_channels read_one]. rewrite H by lia. cbn [bind].
  replace (Z.of_nat ch + 1) with (Z.of_nat (S ch)) by lia. rewrite IH by (intros; apply H; lia). reflexivity.
Qed.

Section Loop.
Variables (m : mem) (off len : Z) (nch : nat) (ls lf d p0 : Z).
Hypothesis (HA : array_holds m off len nch).
Hypothesis (HL : 0 <= ls) (HD : 1 <= d <= 2 ^ 30) (HF : ls + 2 * d + 1 < lf) (HN : lf <= len) (HP : 0 <= p0 <= lf - d).

Local Notation N := (Z.of_nat nch).
Record duo (r : reader) : Prop := mkDuo {
  du_dual : r_dual r = true; du_int : r_interp r = INone; du_nch : r_nch r = N; du_hdr : r_hdr r = 0; du_play : r_playing r = true;
  du_src : r_src r = SArr m off; du_loop : r_loop r = LRepeat; du_rate : r_rate r = d1; du_remf : is_finite (r_rem r) = true; du_rem : R64 (r_rem r) = 0%R;
  du_ls : r_ls r = ls; du_lf : r_lf r = lf; du_dur : r_cfdur r = d }.

Inductive phase := Solo (p : Z) | Duo (j : Z).
Definition at_phase (ph : phase) (r : reader) : Prop := duo r /\
  match ph with
  | Solo p => r_cfst r = 0 /\ r_pos1 r = p * N
  | Duo j => r_cfst r = 1 /\ r_pos1 r = (lf - d + j) * N /\ r_pos2 r = (ls + j) * N
  end.

Definition smp (p : Z) (c : nat) : Z := src_sample m off (p * N + Z.of_nat c).
Definition duo_val (j : Z) (c : nat) : Z :=
  if j =? d then smp (ls + j) c
  else match mix16 (dsub d1 (fade_gain j d)) (smp (ls + j) c) (fade_gain j d) (smp (lf - d + j) c) with Ok v => v | _ => 0 end.
Definition duo_frame (j : Z) : list Z := map (duo_val j) (seq 0 nch).

Lemma smp_range : forall p c, s16_val (smp p c).
Proof. intros. unfold smp, src_sample, s16_val. pose proof (le16_range (mbyte m) (off + 2 * (p * N + Z.of_nat c))) as R. unfold in_s16 in R. lia. Qed.
Lemma smp_frame : forall p, src_frame m off nch p = map (smp p) (seq 0 nch).
Proof. reflexivity. Qed.

Lemma sizes : 1 <= N < 2 ^ 15 /\ 2 * (len * N) < 2 ^ 31 /\ off + 2 * (len * N) <= msize m /\ 0 <= off.
Proof. destruct HA as (A & B & C & D & E & F). repeat split; auto; lia. Qed.
Lemma duo_spos : forall r n, duo r -> 0 <= n <= len -> spos r n = n * N /\ sts r n = n * N.
Proof.
  intros r n D H. pose proof sizes as (S1 & S2 & S3 & S4). unfold spos, sts. rewrite (du_hdr _ D), (du_nch _ D). assert (0 <= n * N < 2 ^ 31) by nia.
  rewrite Z.add_0_l. rewrite u32_id by (unfold in_u32; lia). split; [apply s32_id; unfold in_s32; lia|reflexivity].
Qed.
Lemma duo_get : forall r p c, duo r -> 0 <= p < len -> (c < nch)%nat -> getAt r (p * N) 0 (Z.of_nat c) = Ok (smp p c, r).
Proof.
  intros r p c D H C. pose proof sizes as (S1 & S2 & S3 & S4). unfold getAt. rewrite Z.mul_0_l, Z.add_0_r. assert (0 <= p * N /\ (p + 1) * N <= len * N) by nia.
  rewrite chk32_ok by (unfold in_s32; nia). cbn [bind]. rewrite chk32_ok by (unfold in_s32; nia). cbn [bind].
  unfold getSourceBufferValue. rewrite (du_src _ D).
  destruct (Z.leb_spec 0 (off + 2 * (p * N + Z.of_nat c))); [|lia].
  destruct (Z.leb_spec (off + 2 * (p * N + Z.of_nat c) + 2) (msize m)); [|lia]. reflexivity.
Qed.

(* reading one frame in each situation *)
Lemma solo_read : forall r p c, duo r -> r_cfst r = 0 -> r_pos1 r = p * N -> 0 <= p < len -> (c < nch)%nat ->
  readNextValue r (Z.of_nat c) = Ok (Some (smp p c), r).
Proof.
  intros r p c D S P H C. unfold readNextValue, at_end, fetch_value. rewrite (du_dual _ D), (du_int _ D), S. cbn [negb orb Z.eqb].
  rewrite P, duo_get by auto. reflexivity.
Qed.
Lemma duo_read : forall r j c, duo r -> r_cfst r = 1 -> r_cf r = fade_gain j d -> r_pos1 r = (lf - d + j) * N -> r_pos2 r = (ls + j) * N ->
  0 <= j <= d -> (c < nch)%nat -> readNextValue r (Z.of_nat c) = Ok (Some (duo_val j c), r).
Proof.
  intros r j c D S G P1 P2 H C. unfold readNextValue, at_end, fetch_value. rewrite (du_dual _ D), (du_int _ D), S. cbn [negb orb Z.eqb].
  destruct (fade_gain_ok j d H ltac:(lia)) as ((F & _) & _ & _ & G0 & G1).
  rewrite G, deq_R by (auto using fin_d0). rewrite R64_d0. unfold duo_val. destruct (Z.eqb_spec j d) as [E|E].
  - rewrite (G0 E), Req_bool_true by auto. rewrite P2, duo_get by (auto; lia). reflexivity.
  - rewrite Req_bool_false by (specialize (G1 ltac:(lia)); lra).
    rewrite P1, duo_get by (auto; lia). cbn [bind]. rewrite P2, duo_get by (auto; lia). cbn [bind].
    destruct (mix_blended j d (smp (lf - d + j) c) (smp (ls + j) c) ltac:(lia) HD (smp_range _ _) (smp_range _ _)) as (v & M & _).
    rewrite M. reflexivity.
Qed.

(* the bookkeeping before each frame *)
Lemma update_solo : forall r p, duo r -> r_cfst r = 0 -> r_pos1 r = p * N -> 0 <= p < lf - d -> updateCrossfade r = Ok r.
Proof.
  intros r p D S P H. pose proof sizes as (S1 & S2 & S3 & S4). unfold updateCrossfade. rewrite (du_rate _ D). cbv zeta.
  rewrite dge0_true by (rewrite ?R64_d1; auto using fin_d1; lra). rewrite S, (du_lf _ D), (du_dur _ D).
  destruct (duo_spos r (lf - d) D ltac:(lia)) as [E _]. rewrite E, P. replace (_ <=? _) with false by (symmetry; apply Z.leb_gt; nia).
  cbn [andb Z.eqb]. rewrite S. reflexivity.
Qed.
Lemma gain_step : forall r j, duo r -> r_cfst r = 1 -> r_pos2 r = (ls + j) * N -> 0 <= j <= d ->
  (if spos r (r_ls r + r_cfdur r) <? r_pos2 r then Ok (r <| r_pos1 := r_pos2 r |> <| r_cfst := 0 |>)
   else if u32 (r_nch r) =? 0 then UB UbDivZero
   else Ok (r <| r_cf := dsub d1 (ddiv (d_of_Z (u32 (r_pos2 r - sts r (r_ls r)) / u32 (r_nch r))) (d_of_Z (r_cfdur r))) |>)) =
  Ok (r <| r_cf := fade_gain j d |>).
Proof.
  intros r j D S P H. pose proof sizes as (S1 & S2 & S3 & S4). rewrite (du_ls _ D), (du_dur _ D), (du_nch _ D), P.
  destruct (duo_spos r (ls + d) D ltac:(lia)) as [E _]. rewrite E. destruct (duo_spos r ls D ltac:(lia)) as [_ E2]. rewrite E2.
  replace (_ <? _) with false by (symmetry; apply Z.ltb_ge; nia). rewrite (u32_id N) by (unfold in_u32; lia).
  replace (N =? 0) with false by (symmetry; apply Z.eqb_neq; lia).
  replace ((ls + j) * N - ls * N) with (j * N) by ring. rewrite u32_id by (unfold in_u32; nia). rewrite Z.div_mul by lia. reflexivity.
Qed.
Lemma duo_pos2 : forall r p, duo r -> duo (r <| r_pos2 := p |> <| r_cfst := 1 |>).
Proof. intros r p []. constructor; assumption. Qed.
Lemma update_start : forall r, duo r -> r_cfst r = 0 -> r_pos1 r = (lf - d) * N ->
  updateCrossfade r = Ok (r <| r_pos2 := ls * N |> <| r_cfst := 1 |> <| r_cf := fade_gain 0 d |>).
Proof.
  intros r D S P. pose proof sizes as (S1 & S2 & S3 & S4). unfold updateCrossfade. rewrite (du_rate _ D), (du_loop _ D). cbv zeta. cbn [loop_eqb].
  rewrite dge0_true by (rewrite ?R64_d1; auto using fin_d1; lra). rewrite S, (du_lf _ D), (du_dur _ D), (du_ls _ D).
  destruct (duo_spos r (lf - d) D ltac:(lia)) as [E _]. rewrite E, P. rewrite Z.leb_refl. cbn [andb Z.eqb].
  destruct (duo_spos r ls D ltac:(lia)) as [E2 _]. rewrite E2.
  pose proof (duo_pos2 r (ls * N) D) as D1. set (r1 := r <| r_pos2 := ls * N |> <| r_cfst := 1 |>) in *.
  change (r_cfst r1) with 1. cbn [Z.eqb]. rewrite (du_rate _ D1).
  rewrite dgt0_true by (rewrite ?R64_d1; auto using fin_d1; lra). cbn [xorb].
  apply (gain_step r1 0 D1 eq_refl); [|lia]. rewrite Z.add_0_r. reflexivity.
Qed.
Lemma update_duo : forall r j, duo r -> r_cfst r = 1 -> r_pos2 r = (ls + j) * N -> 0 <= j <= d ->
  updateCrossfade r = Ok (r <| r_cf := fade_gain j d |>).
Proof.
  intros r j D S P H. unfold updateCrossfade. rewrite (du_rate _ D), (du_loop _ D). cbv zeta. cbn [loop_eqb].
  rewrite dge0_true by (rewrite ?R64_d1; auto using fin_d1; lra). rewrite S. cbn [andb Z.eqb]. rewrite S. cbn [Z.eqb]. rewrite (du_rate _ D).
  rewrite dgt0_true by (rewrite ?R64_d1; auto using fin_d1; lra). cbn [xorb]. now apply gain_step.
Qed.
Lemma update_finish : forall r, duo r -> r_cfst r = 1 -> r_pos2 r = (ls + (d + 1)) * N ->
  updateCrossfade r = Ok (r <| r_pos1 := (ls + (d + 1)) * N |> <| r_cfst := 0 |>).
Proof.
  intros r D S P. pose proof sizes as (S1 & S2 & S3 & S4). unfold updateCrossfade. rewrite (du_rate _ D), (du_loop _ D). cbv zeta. cbn [loop_eqb].
  rewrite dge0_true by (rewrite ?R64_d1; auto using fin_d1; lra). rewrite S. cbn [andb Z.eqb]. rewrite S. cbn [Z.eqb]. rewrite (du_rate _ D).
  rewrite dgt0_true by (rewrite ?R64_d1; auto using fin_d1; lra). cbn [xorb].
  rewrite (du_ls _ D), (du_dur _ D), P. destruct (duo_spos r (ls + d) D ltac:(lia)) as [E _]. rewrite E.
  replace (_ <? _) with true by (symmetry; apply Z.ltb_lt; nia). reflexivity.
Qed.

Definition T := lf - d - p0.
Definition P := lf - ls - d.
Definition phase_at (k : Z) : phase :=
  if k <=? T then Solo (p0 + k)
  else let j := (k - T) mod P in
       if j =? 0 then Solo (lf - d) else if j <=? d + 1 then Duo j else Solo (ls + j).
Definition out_at (k : Z) : list Z :=
  if k <? T then src_frame m off nch (p0 + k)
  else let j := (k - T) mod P in if j <=? d then duo_frame j else src_frame m off nch (ls + j).

(* the next phase, seen from a position j inside the loop *)
Lemma next_phase : forall k, T <= k ->
  phase_at (k + 1) = (let j := (k - T) mod P in if j <=? d then Duo (j + 1) else Solo (ls + j + 1)).
Proof.
  intros k H. unfold phase_at. cbv zeta. destruct (Z.leb_spec (k + 1) T); [lia|].
  assert (PP : d + 2 <= P) by (unfold P; lia).
  pose proof (Z.mod_pos_bound (k - T) P ltac:(lia)) as B.
  assert (E : (k + 1 - T) mod P = if (k - T) mod P =? P - 1 then 0 else (k - T) mod P + 1).
  { pose proof (Z.div_mod (k - T) P ltac:(lia)) as M. destruct (Z.eqb_spec ((k - T) mod P) (P - 1)).
    - symmetry. apply (Z.mod_unique_pos _ _ ((k - T) / P + 1)); lia.
    - symmetry. apply (Z.mod_unique_pos _ _ ((k - T) / P)); lia. }
  rewrite E. set (j := (k - T) mod P) in *. clearbody j. destruct (Z.eqb_spec j (P - 1)) as [->|Q].
  - cbn [Z.eqb]. destruct (Z.leb_spec (P - 1) d); [lia|]. f_equal. unfold P. lia.
  - destruct (Z.eqb_spec (j + 1) 0); [lia|]. destruct (Z.leb_spec j d), (Z.leb_spec (j + 1) (d + 1)); try lia; auto. f_equal. lia.
Qed.

Definition solo_like (ph : phase) : Prop := match ph with Solo p => 0 <= p <= lf - d | Duo j => 1 <= j <= d + 1 end.

(* one frame from a phase *)
Definition phase_out (ph : phase) : list Z :=
  match ph with
  | Solo p => if p =? lf - d then duo_frame 0 else src_frame m off nch p
  | Duo j => if j <=? d then duo_frame j else src_frame m off nch (ls + j)
  end.
Definition phase_next (ph : phase) : phase :=
  match ph with
  | Solo p => if p =? lf - d then Duo 1 else Solo (p + 1)
  | Duo j => if j <=? d then Duo (j + 1) else Solo (ls + j + 1)
  end.

Lemma phase_frame : forall r u g, duo r -> updateCrossfade r = Ok u -> duo u ->
  (forall c, (c < nch)%nat -> readNextValue u (Z.of_nat c) = Ok (Some (g c), u)) ->
  in_s32 (r_pos1 u + N) -> (r_cfst u <> 0 -> in_s32 (r_pos2 u + N)) ->
  exists x, is_finite x = true /\ R64 x = 0%R /\
    read_frame 1 r = Ok (Some (map g (seq 0 nch)),
      if r_cfst u =? 0 then u <| r_rem := x |> <| r_pos1 := r_pos1 u + N |>
      else u <| r_rem := x |> <| r_pos1 := r_pos1 u + N |> <| r_pos2 := r_pos2 u + N |>).
Proof.
  intros r u g D U DU G B1 B2. pose proof sizes as (S1 & _).
  destruct (advance_unit u (du_rate _ DU) (du_remf _ DU) (du_rem _ DU) (du_loop _ DU)) as (x & X1 & X2 & A);
    rewrite ?(du_nch _ DU); auto; [unfold in_s32; lia|].
  exists x. split; [auto|]. split; [auto|]. unfold read_frame. rewrite (du_dual _ D), U. cbn [bind].
  rewrite (du_nch _ DU), Nat2Z.id. change 0 with (Z.of_nat 0). rewrite (channels_map u 0 g nch 0) by (intros; apply G; lia). cbn [bind].
  rewrite A, (du_nch _ DU). reflexivity.
Qed.

Lemma step_phase : forall ph r, solo_like ph -> at_phase ph r ->
  exists r', read_frame 1 r = Ok (Some (phase_out ph), r') /\ at_phase (phase_next ph) r'.
Proof.
  intros ph r H [D A]. pose proof sizes as (S1 & S2 & S3 & S4).
  assert (LN : lf * N <= len * N) by nia.
  destruct ph as [p|j]; cbn [solo_like phase_out phase_next] in *.
  - destruct A as [C Q]. destruct (Z.eqb_spec p (lf - d)) as [->|NE].
    + pose proof (update_start r D C Q) as U. set (u := r <| r_pos2 := ls * N |> <| r_cfst := 1 |> <| r_cf := fade_gain 0 d |>) in *.
      assert (DU : duo u) by (destruct D; constructor; assumption).
      destruct (phase_frame r u (duo_val 0) D U DU) as (x & X1 & X2 & E).
      * intros c Hc. apply duo_read; auto; try reflexivity; try lia; change (r_pos1 u) with (r_pos1 r); rewrite ?Q; try (f_equal; lia).
        change (r_pos2 u) with (ls * N). f_equal. lia.
      * change (r_pos1 u) with (r_pos1 r). rewrite Q. unfold in_s32. nia.
      * intros _. change (r_pos2 u) with (ls * N). unfold in_s32. nia.
      * eexists. split; [exact E|]. change (r_cfst u) with 1. cbn [Z.eqb]. split; [|split; [reflexivity|split]].
        -- destruct D; constructor; assumption.
        -- cbn. rewrite Q. ring.
        -- cbn. ring.
    + pose proof (update_solo r p D C Q ltac:(lia)) as U.
      destruct (phase_frame r r (smp p) D U D) as (x & X1 & X2 & E).
      * intros c Hc. apply solo_read; auto; lia.
      * rewrite Q. unfold in_s32. nia.
      * congruence.
      * eexists. split; [exact E|]. rewrite C. cbn [Z.eqb]. split; [|split].
        -- destruct D; constructor; assumption.
        -- exact C.
        -- cbn. rewrite Q. ring.
  - destruct A as (C & Q1 & Q2). destruct (Z.leb_spec j d) as [LE|GT].
    + pose proof (update_duo r j D C Q2 ltac:(lia)) as U. set (u := r <| r_cf := fade_gain j d |>) in *.
      assert (DU : duo u) by (destruct D; constructor; assumption).
      destruct (phase_frame r u (duo_val j) D U DU) as (x & X1 & X2 & E).
      * intros c Hc. apply duo_read; auto; try reflexivity; lia.
      * change (r_pos1 u) with (r_pos1 r). rewrite Q1. unfold in_s32. nia.
      * intros _. change (r_pos2 u) with (r_pos2 r). rewrite Q2. unfold in_s32. nia.
      * eexists. split; [exact E|]. change (r_cfst u) with (r_cfst r). rewrite C. cbn [Z.eqb]. split; [|split; [|split]].
        -- destruct D; constructor; assumption.
        -- exact C.
        -- cbn. rewrite Q1. ring.
        -- cbn. rewrite Q2. ring.
    + assert (j = d + 1) as -> by lia.
      pose proof (update_finish r D C Q2) as U. set (u := r <| r_pos1 := (ls + (d + 1)) * N |> <| r_cfst := 0 |>) in *.
      assert (DU : duo u) by (destruct D; constructor; assumption).
      destruct (phase_frame r u (smp (ls + (d + 1))) D U DU) as (x & X1 & X2 & E).
      * intros c Hc. apply solo_read; auto; try reflexivity; lia.
      * change (r_pos1 u) with ((ls + (d + 1)) * N). unfold in_s32. nia.
      * intros Q. now elim Q.
      * eexists. split; [exact E|]. change (r_cfst u) with 0. cbn [Z.eqb]. split; [|split].
        -- destruct D; constructor; assumption.
        -- reflexivity.
        -- cbn. ring.
Qed.

Lemma phase_fine : forall k, 0 <= k -> solo_like (phase_at k) /\ phase_out (phase_at k) = out_at k /\ phase_next (phase_at k) = phase_at (k + 1).
Proof.
  intros k H. assert (PP : d + 2 <= P) by (unfold P; lia).
  destruct (Z.lt_ge_cases k T) as [L|G].
  - unfold phase_at at 1 2 3, out_at. unfold T in *. destruct (Z.leb_spec k (lf - d - p0)); [|lia]. destruct (Z.ltb_spec k (lf - d - p0)); [|lia].
    cbn [solo_like phase_out phase_next]. destruct (Z.eqb_spec (p0 + k) (lf - d)); [lia|]. split; [lia|]. split; [reflexivity|].
    unfold phase_at, T. destruct (Z.leb_spec (k + 1) (lf - d - p0)); [|lia]. f_equal. lia.
  - rewrite (next_phase k G). unfold phase_at, out_at. cbv zeta. destruct (Z.ltb_spec k T); [lia|].
    pose proof (Z.mod_pos_bound (k - T) P ltac:(lia)) as B.
    destruct (Z.leb_spec k T) as [L2|G2].
    + assert (k = T) by lia. subst k. rewrite Z.sub_diag, Z.mod_0_l by lia. replace (p0 + T) with (lf - d) by (unfold T; lia).
      cbn [solo_like phase_out phase_next]. rewrite Z.eqb_refl. destruct (Z.leb_spec 0 d); [|lia]. repeat split; lia.
    + set (j := (k - T) mod P) in *. clearbody j. destruct (Z.eqb_spec j 0) as [->|NZ].
      * cbn [solo_like phase_out phase_next]. rewrite Z.eqb_refl. destruct (Z.leb_spec 0 d); [|lia]. repeat split; lia.
      * destruct (Z.leb_spec j (d + 1)); cbn [solo_like phase_out phase_next]; [split; [lia|auto]|].
        destruct (Z.leb_spec j d); [lia|]. unfold P in *. destruct (Z.eqb_spec (ls + j) (lf - d)); [lia|]. repeat split; lia.
Qed.

Lemma fade_follows : follows (fun k r => at_phase (phase_at (Z.of_nat k)) r) (endless_stream (fun k => out_at (Z.of_nat k))).
Proof.
  intros k r A. pose proof sizes as (S1 & _). destruct (phase_fine (Z.of_nat k) ltac:(lia)) as (F1 & F2 & F3).
  split; [apply A|]. split; [rewrite (du_nch _ (proj1 A)); lia|].
  destruct (step_phase _ r F1 A) as (r' & E & A'). exists 1%nat, r'. unfold endless_stream. rewrite F2 in E. split; [exact E|].
  rewrite F3 in A'. now rewrite Nat2Z.inj_succ.
Qed.

Lemma duo_blend : forall j, 0 <= j < d -> blended_frame d j (src_frame m off nch (lf - d + j)) (src_frame m off nch (ls + j)) (duo_frame j).
Proof.
  intros j H. unfold blended_frame, duo_frame. rewrite !smp_frame, !map_length. split; [auto|]. split; [auto|]. intros c Hc.
  rewrite seq_length in Hc. rewrite !(nth_indep _ 0 (smp (lf - d + j) O)) by (now rewrite map_length, seq_length).
  rewrite (map_nth (smp (lf - d + j)) (seq 0 nch) O c).
  rewrite (nth_indep (map (smp (ls + j)) _) _ (smp (ls + j) O)) by (now rewrite map_length, seq_length).
  rewrite (nth_indep (map (duo_val j) _) _ (duo_val j O)) by (now rewrite map_length, seq_length).
  rewrite !map_nth, seq_nth by auto. cbn [Nat.add]. unfold duo_val. destruct (Z.eqb_spec j d); [lia|].
  destruct (mix_blended j d (smp (lf - d + j) c) (smp (ls + j) c) ltac:(lia) HD (smp_range _ _) (smp_range _ _)) as (v & M & BL).
  rewrite M. exact BL.
Qed.
Lemma duo_last : duo_frame d = src_frame m off nch (ls + d).
Proof. unfold duo_frame. rewrite smp_frame. apply map_ext. intros c. unfold duo_val. now rewrite Z.eqb_refl. Qed.
Lemma out_period : forall k, T <= k -> out_at (k + P) = out_at k.
Proof.
  intros k H. assert (PP : d + 2 <= P) by (unfold P; lia). unfold out_at. destruct (Z.ltb_spec (k + P) T); [lia|]. destruct (Z.ltb_spec k T); [lia|].
  replace (k + P - T) with (k - T + 1 * P) by ring. now rewrite Z.mod_add by lia.
Qed.
Lemma out_loop : forall j, 0 <= j < P -> out_at (T + j) = if j <=? d then duo_frame j else src_frame m off nch (ls + j).
Proof.
  intros j H. unfold out_at. destruct (Z.ltb_spec (T + j) T); [lia|]. replace (T + j - T) with j by ring. now rewrite Z.mod_small by lia.
Qed.
End Loop.

Definition with_fade (r : reader) (ls lf d : Z) : reader := setCrossfadeDuration (setUseDualPlaybackHead (with_loop r ls lf) true) d.

Theorem fade_loop : forall m off len nch r ps pb ls lf d, array_holds m off len nch -> basic_settings r LRepeat ps pb -> r_rate r = d1 ->
  (ps = PArbitrary -> 0 <= pb) -> 0 <= ls -> 1 <= d <= 2 ^ 30 -> ls + 2 * d + 1 < lf -> lf <= len ->
  let p0 := match ps with PArbitrary => pb | _ => 0 end in p0 <= lf - d ->
  exists r' f, playRaw_array r m off len (Z.of_nat nch) = Ok r' /\
    delivers (with_fade r' ls lf d) (endless_stream (fun k => f (Z.of_nat k))) /\
    (forall k, 0 <= k < lf - d - p0 -> f k = src_frame m off nch (p0 + k)) /\
    (forall j, 0 <= j < d -> blended_frame d j (src_frame m off nch (lf - d + j)) (src_frame m off nch (ls + j)) (f (lf - d - p0 + j))) /\
    (forall j, d <= j < lf - ls - d -> f (lf - d - p0 + j) = src_frame m off nch (ls + j)) /\
    (forall k, lf - d - p0 <= k -> f (k + (lf - ls - d)) = f k).
Proof.
  intros m off len nch r ps pb ls lf d HA B RT HPB HL HD HF HN p0 HP.
  assert (H0 : 0 <= p0) by (unfold p0; destruct ps; try lia; auto).
  destruct (playRaw_fwd m off len nch r LRepeat ps pb HA B) as (r' & E & PL & SR & R1 & FS & LP & RM & L0 & L1 & PS & PO).
  { rewrite RT. exact fin_d1. } { rewrite RT, R64_d1. lra. } { intros ->. split; auto. subst p0. cbn in HP. lia. }
  exists r', (out_at m off nch ls lf d p0). split; [exact E|]. pose proof B as (B1 & B2 & B3 & B4 & B5 & B6 & B7).
  pose proof (sizes m off len nch HA) as (S1 & S2 & S3 & S4).
  split; [|split; [|split; [|split]]].
  - eapply follows_delivers; [eapply (fade_follows m off len nch ls lf d p0); auto; lia|].
    cbn beta. change (Z.of_nat 0) with 0. unfold phase_at. unfold T. destruct (Z.leb_spec 0 (lf - d - p0)); [|lia].
    assert (W : with_loop r' ls lf = r' <| r_ls := ls |> <| r_lf := lf |>).
    { unfold with_loop, setLoopFinish, setLoopStart. cbn. rewrite SR; cbn; rewrite SR. rewrite !s32_id by (unfold in_s32; nia). reflexivity. }
    unfold with_fade. rewrite W. split; [constructor|split]; try reflexivity; try assumption; try apply PL.
    + exact (eq_trans R1 RT).
    + cbn. now rewrite RM.
    + cbn. now rewrite RM.
    + cbn. apply u32_id. unfold in_u32. lia.
    + cbn. now rewrite PO, Z.add_0_r.
  - intros k Hk. unfold out_at, T. destruct (Z.ltb_spec k (lf - d - p0)); [reflexivity|lia].
  - intros j Hj. change (lf - d - p0) with (T lf d p0). rewrite out_loop by (auto; unfold P; lia).
    destruct (Z.leb_spec j d); [|lia]. apply duo_blend; auto.
  - intros j Hj. change (lf - d - p0) with (T lf d p0). rewrite out_loop by (auto; unfold P; lia).
    destruct (Z.leb_spec j d); [|reflexivity]. assert (j = d) as -> by lia. apply duo_last.
  - intros k Hk. apply (out_period m off nch ls lf d p0); auto.
Qed.
