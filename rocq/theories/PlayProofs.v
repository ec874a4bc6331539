(* Final forms of C05, C07, C09, C10, C48 for arrays. *)

From Coq Require Import ZArith Lia List Bool Reals Lra.
From RecordUpdate Require Import RecordUpdate.
From Flocq Require Import Core.Core IEEE754.BinarySingleNaN.
From Verif Require Import Machine Floats FloatFacts WavModel InterpModel CacheModel ReaderModel
  ReaderFacts ReaderSpec Sessions StreamFacts Walk ForwardProofs.
Import ListNotations.
Local Open Scope R_scope.

Lemma grid_d1 : grid_rate d1.
Proof.
  split; [apply fin_d1|]. exists 1%Z, 0%Z. rewrite R64_d1. cbn. repeat split; try lia. lra.
Qed.

Lemma INR_bound : forall m off len nch x, array_holds m off len nch -> 0 <= x <= IZR (2 ^ 14) ->
  (x + 1) * INR nch <= IZR (2 ^ 30).
Proof.
  intros m off len nch x (H1 & H2 & H3 & H4 & H5 & H6) Hx.
  assert (INR nch <= IZR (2 ^ 15)) by (rewrite INR_IZR_INZ; apply IZR_le; lia).
  assert (0 <= INR nch) by apply pos_INR.
  apply Rle_trans with ((IZR (2 ^ 14) + 1) * IZR (2 ^ 15)).
  - apply Rmult_le_compat; lra.
  - rewrite <- plus_IZR, <- mult_IZR. apply IZR_le. lia.
Qed.

Lemma unity_stream : forall m off len nch k, (0 <= len)%Z ->
  pitch_stream m off len nch 0 1 k = nth_error (source_frames m off nch len) k.
Proof.
  intros m off len nch k H. unfold pitch_stream, source_frames. rewrite nth_error_map_seq.
  rewrite Rmult_1_r, INR_IZR_INZ, Zfloor_IZR, Z.add_0_l.
  destruct (Z.ltb_spec (Z.of_nat k) len); destruct (Nat.ltb_spec k (Z.to_nat len)); auto; lia.
Qed.

Lemma unity_identity : forall m off len nch r pb, array_holds m off len nch ->
  basic_settings r LNone PSample pb -> r_rate r = d1 ->
  exists r', playRaw_array r m off len (Z.of_nat nch) = Ok r' /\
    delivers r' (nth_error (source_frames m off nch len)).
Proof.
  intros m off len nch r pb A B E.
  assert (R1 : R64 (r_rate r) = 1) by (rewrite E; apply R64_d1).
  destruct (forward_delivers m off len nch r PSample pb A B) as (r' & P & D).
  - discriminate.
  - rewrite E. apply grid_d1.
  - lra.
  - apply (INR_bound m off len); auto. rewrite R1. split; [lra|]. apply IZR_le. lia.
  - exists r'. split; auto. eapply delivers_ext; [|exact D].
    intro k. rewrite R1. apply unity_stream, A.
Qed.

(* C07 in API form: setPlaybackRate(float) then playRaw *)
Lemma setRate_fwd : forall r x, fin64 x = true -> 0 <= R64 x ->
  exists r', setPlaybackRate r x = Ok r' /\ exists p, r' = r <| r_rate := x |> <| r_pos1 := p |>.
Proof.
  intros r x F P. unfold setPlaybackRate.
  set (q := r <| r_rate := x |>).
  assert (Q : exists p, q = r <| r_rate := x |> <| r_pos1 := p |>) by (exists (r_pos1 r); destruct r; reflexivity).
  rewrite (dlt0_false x F P), (dge0_true x F P). cbn [andb].
  repeat (match goal with |- context [if ?b then _ else _] => destruct b end);
    eexists; (split; [reflexivity|]); auto; eexists; reflexivity.
Qed.

Lemma single_pitch : forall m off len nch r0 x ps pb, array_holds m off len nch ->
  basic_settings r0 LNone ps pb -> (ps = PArbitrary -> 0 <= pb <= len)%Z ->
  single_rate x -> bpow radix2 (-29) <= R64 x -> (R64 x + 1) * INR nch <= IZR (2 ^ 30) ->
  exists r1 r2, setPlaybackRate r0 x = Ok r1 /\
    playRaw_array r1 m off len (Z.of_nat nch) = Ok r2 /\
    delivers r2 (pitch_stream m off len nch (match ps with PArbitrary => pb | _ => 0 end) (R64 x)).
Proof.
  intros m off len nch r0 x ps pb A B Hp SR L U.
  pose proof (bpow_gt_0 radix2 (-29)) as L0.
  assert (U30 : R64 x <= bpow radix2 30).
  { rewrite bpow_IZR by lia.
    assert (1 <= INR nch). { change 1 with (INR 1). apply le_INR. apply A. }
    nra. }
  pose proof (single_grid x SR L U30) as G.
  destruct (setRate_fwd r0 x (proj1 G) ltac:(lra)) as (r1 & E1 & p & E2).
  assert (RX : r_rate r1 = x) by (subst r1; reflexivity).
  destruct (forward_delivers m off len nch r1 ps pb A) as (r2 & P & D); auto.
  - subst r1. exact B.
  - now rewrite RX.
  - rewrite RX. lra.
  - now rewrite RX.
  - exists r1, r2. rewrite RX in D. auto.
Qed.

(* C09 *)
Lemma forward_count : forall m off len nch r pb, array_holds m off len nch ->
  basic_settings r LNone PSample pb -> grid_rate (r_rate r) -> 0 < R64 (r_rate r) ->
  (R64 (r_rate r) + 1) * INR nch <= IZR (2 ^ 30) ->
  exists r', playRaw_array r m off len (Z.of_nat nch) = Ok r' /\
    exists frames, delivers r' (nth_error frames) /\
      Z.of_nat (length frames) = Zceil (IZR len / R64 (r_rate r)).
Proof.
  intros m off len nch r pb A B G P U.
  destruct (forward_delivers m off len nch r PSample pb A B) as (r' & E & D); auto; try lra; try discriminate.
  exists r'. split; auto.
  set (x := R64 (r_rate r)) in *. set (N := Zceil (IZR len / x)).
  assert (N0 : (0 <= N)%Z).
  { apply le_IZR. eapply Rle_trans; [|apply Zceil_ub].
    apply Rmult_le_pos; [apply IZR_le, A|]. apply Rlt_le, Rinv_0_lt_compat, P. }
  exists (map (fun k => src_frame m off nch (Zfloor (INR k * x))) (seq 0 (Z.to_nat N))).
  rewrite map_length, seq_length, Z2Nat.id by auto. split; auto.
  eapply delivers_ext; [|exact D]. intro k. rewrite nth_error_map_seq. unfold pitch_stream.
  rewrite Z.add_0_l.
  pose proof (floor_lt_ceil k x len P) as FC. fold N in FC.
  destruct (Z.ltb_spec (Zfloor (INR k * x)) len); destruct (Nat.ltb_spec k (Z.to_nat N)); auto; lia.
Qed.

(* C10 *)
Definition dm1 : b64 := dneg d1.
Lemma grid_dm1 : grid_rate dm1. Proof. apply grid_neg, grid_d1. Qed.
Lemma R64_dm1 : R64 dm1 = -1. Proof. unfold dm1. rewrite R64_neg, R64_d1. lra. Qed.

Lemma nth_error_rev : forall {A} (l : list A) k, (k < length l)%nat ->
  nth_error (rev l) k = nth_error l (length l - S k).
Proof.
  induction l as [|a l IH]; intros k H; [cbn in H; lia|].
  cbn [rev length] in *. destruct (Nat.eq_dec k (length l)) as [->|N].
  - rewrite nth_error_app2 by (rewrite rev_length; lia). rewrite rev_length, !Nat.sub_diag. reflexivity.
  - rewrite nth_error_app1 by (rewrite rev_length; lia). rewrite IH by lia.
    replace (S (length l) - S k)%nat with (S (length l - S k)) by lia. reflexivity.
Qed.

Lemma rev_stream : forall m off len nch k p0, (0 <= p0 < len)%Z ->
  back_stream m off nch p0 1 k = nth_error (rev (source_frames m off nch (p0 + 1))) k.
Proof.
  intros m off len nch k p0 H. unfold back_stream.
  rewrite Rmult_1_r, INR_IZR_INZ, Zfloor_IZR.
  assert (LN : length (source_frames m off nch (p0 + 1)) = Z.to_nat (p0 + 1)).
  { unfold source_frames. now rewrite map_length, seq_length. }
  destruct (Z.ltb_spec (p0 - Z.of_nat k) 0) as [C|C].
  - symmetry. apply nth_error_None. rewrite rev_length, LN. lia.
  - rewrite nth_error_rev by (rewrite LN; lia). rewrite LN. unfold source_frames.
    rewrite nth_error_map_seq.
    destruct (Nat.ltb_spec (Z.to_nat (p0 + 1) - S k) (Z.to_nat (p0 + 1))); [|lia].
    do 2 f_equal. lia.
Qed.

Lemma reverse_mono : forall m off len r pb, array_holds m off len 1 -> (1 <= len)%Z ->
  basic_settings r LNone PSample pb -> r_rate r = dm1 ->
  exists r', playRaw_array r m off len 1 = Ok r' /\
    delivers r' (nth_error (rev (source_frames m off 1 len))).
Proof.
  intros m off len r pb A L B E.
  destruct (backward_delivers m off len 1 r PSample pb (len - 1) A B) as (r' & P & D).
  - discriminate.
  - rewrite E. apply grid_dm1.
  - rewrite E, R64_dm1. lra.
  - apply (INR_bound m off len); auto. rewrite E, R64_dm1. split; [lra|]. replace (- -1) with 1 by lra. apply IZR_le. lia.
  - lia.
  - lia.
  - exists r'. split; auto. eapply delivers_ext; [|exact D].
    intro k. rewrite E, R64_dm1. replace (- -1) with 1 by lra. rewrite (rev_stream m off len) by lia.
    now replace (len - 1 + 1)%Z with len by lia.
Qed.

(* What really happens to an array of several channels: only the first 1/nch of
   the array is played *)
Lemma reverse_actual : forall m off len nch r pb p0, array_holds m off len nch ->
  basic_settings r LNone PSample pb -> r_rate r = dm1 ->
  (0 <= p0 /\ (p0 + 1) * Z.of_nat nch = len)%Z ->
  exists r', playRaw_array r m off len (Z.of_nat nch) = Ok r' /\
    delivers r' (nth_error (rev (source_frames m off nch (p0 + 1)))).
Proof.
  intros m off len nch r pb p0 A B E L.
  assert (N : (1 <= nch)%nat) by apply A.
  destruct (backward_delivers m off len nch r PSample pb p0 A B) as (r' & P & D).
  - discriminate.
  - rewrite E. apply grid_dm1.
  - rewrite E, R64_dm1. lra.
  - apply (INR_bound m off len); auto. rewrite E, R64_dm1. split; [lra|]. replace (- -1) with 1 by lra. apply IZR_le. lia.
  - nia.
  - lia.
  - exists r'. split; auto. eapply delivers_ext; [|exact D].
    intro k. rewrite E, R64_dm1. replace (- -1) with 1 by lra. apply (rev_stream m off len). nia.
Qed.

(* From an arbitrary start frame, for any number of channels *)
Lemma reverse_from : forall m off len nch r pb, array_holds m off len nch -> (0 <= pb < len)%Z ->
  basic_settings r LNone PArbitrary pb -> r_rate r = dm1 ->
  exists r', playRaw_array r m off len (Z.of_nat nch) = Ok r' /\
    delivers r' (nth_error (rev (source_frames m off nch (pb + 1)))).
Proof.
  intros m off len nch r pb A L B E.
  destruct (backward_delivers m off len nch r PArbitrary pb pb A B) as (r' & P & D); auto.
  - lia.
  - rewrite E. apply grid_dm1.
  - rewrite E, R64_dm1. lra.
  - apply (INR_bound m off len); auto. rewrite E, R64_dm1. split; [lra|]. replace (- -1) with 1 by lra. apply IZR_le. lia.
  - lia.
  - exists r'. split; auto. eapply delivers_ext; [|exact D].
    intro k. rewrite E, R64_dm1. replace (- -1) with 1 by lra. now apply (rev_stream m off len).
Qed.

(* ---- refuting sessions by computation ----------------------------------- *)

Lemma play_out : forall (t : res reader) F ns bs,
  (r <- t ;; '(b, _) <- read_seq F r ns ;; Ok b) = Ok bs ->
  exists r', t = Ok r' /\ exists r'', read_seq F r' ns = Ok (bs, r'').
Proof.
  intros t F ns bs H. apply bind_ok in H. destruct H as (r & E & H).
  apply bind_ok in H. destruct H as ([b r2] & E2 & H). inversion H; subst. eauto.
Qed.

Lemma not_delivers : forall r out F ns bs r',
  read_seq F r ns = Ok (bs, r') -> bs <> blocks_spec out 0 ns -> ~ delivers r out.
Proof.
  intros r out F ns bs r' E N D. destruct (D ns) as (G & r2 & E2).
  pose proof (read_seq_fuel ns F (F + G) r _ ltac:(lia) E) as X.
  pose proof (read_seq_fuel ns G (F + G) r _ ltac:(lia) E2) as Y.
  rewrite X in Y. inversion Y. contradiction.
Qed.

Lemma delivers_unique : forall r l1 l2, delivers r (nth_error l1) -> delivers r (nth_error l2) -> l1 = l2.
Proof.
  intros r l1 l2 D1 D2. set (n := (length l1 + length l2)%nat).
  destruct (delivers_list _ _ D1 [n]) as (f1 & r1 & E1).
  destruct (delivers_list _ _ D2 [n]) as (f2 & r2 & E2).
  apply (read_seq_fuel _ _ (f1 + f2)) in E1; [|lia].
  apply (read_seq_fuel _ _ (f1 + f2)) in E2; [|lia].
  rewrite E1 in E2. cbn [cut] in E2. injection E2 as E _.
  rewrite !firstn_all2 in E by (unfold n; lia). exact E.
Qed.

(* A small array: byte i holds 7 i mod 256 *)
Definition ex_mem : mem := mkMem 64 (fun i => (7 * i) mod 256)%Z.
(* A freshly constructed player, at a given rate *)
Definition ex_reader (x : b64) : reader := new_reader KArray <| r_rate := x |>.
Lemma ex_basic : forall x, basic_settings (ex_reader x) LNone PSample 0.
Proof. intro x. repeat split. Qed.

Local Open Scope Z_scope.
Lemma length_unit_refuted : exists m off len nch rf rb pb, array_holds m off len nch /\ 1 <= len /\
  basic_settings rf LNone PSample pb /\ r_rate rf = d1 /\
  basic_settings rb LNone PSample pb /\ r_rate rb = dm1 /\
  exists rf' rb',
    playRaw_array rf m off len (Z.of_nat nch) = Ok rf' /\
    playRaw_array rb m off len (Z.of_nat nch) = Ok rb' /\
    forall ff fb, delivers rf' (nth_error ff) -> delivers rb' (nth_error fb) ->
      exists v, In v ff /\ ~ In v fb.
Proof.
  exists ex_mem, 4, 4, 2%nat, (ex_reader d1), (ex_reader dm1), 0.
  assert (A : array_holds ex_mem 4 4 2) by (repeat split; cbn; lia).
  split; [exact A|]. split; [lia|]. split; [apply ex_basic|]. split; [reflexivity|].
  split; [apply ex_basic|]. split; [reflexivity|].
  destruct (unity_identity ex_mem 4 4 2 (ex_reader d1) 0 A (ex_basic _) eq_refl) as (rf & P1 & D1).
  destruct (reverse_actual ex_mem 4 4 2 (ex_reader dm1) 0 1 A (ex_basic _) eq_refl) as (rb & P2 & D2).
  { cbn. lia. }
  exists rf, rb. split; auto. split; auto. intros ff fb F1 F2.
  rewrite (delivers_unique _ _ _ F1 D1), (delivers_unique _ _ _ F2 D2).
  exists (src_frame ex_mem 4 2 3). split.
  - vm_compute. tauto.
  - vm_compute. intros [H|[H|[]]]; discriminate.
Qed.

(* ---- cases and refutations used by Props_Play ---- *)

Lemma grid_me : forall num q, 0 <= q <= 52 -> Z.abs num <= 2 ^ 52 ->
  R64 (d_of_me num (- q)) = (IZR num * bpow radix2 (- q))%R /\ grid_rate (d_of_me num (- q)).
Proof.
  intros num q Hq Hn.
  assert (B : (Rabs (IZR num * bpow radix2 (- q)) <= bpow radix2 1000)%R).
  { rewrite Rabs_mult, (Rabs_pos_eq (bpow _ _)) by apply bpow_ge_0. rewrite <- abs_IZR.
    apply Rle_trans with (bpow radix2 52 * bpow radix2 (- q))%R.
    - apply Rmult_le_compat_r; [apply bpow_ge_0|]. rewrite bpow_IZR by lia. now apply IZR_le.
    - rewrite <- bpow_plus. apply bpow_le. lia. }
  destruct (d_of_me_round _ _ B) as [V F].
  rewrite rnd64_id in V by (apply fmt64_me; lia).
  split; auto. split; auto. exists num, q. auto.
Qed.

(* 0.1f, whose double value has a 27-bit fraction *)
Definition tenth : b32 := f_of_d (d_of_me 3602879701896397 (-55)).
Lemma tenth_case :
  array_holds ex_mem 4 15 2 /\ basic_settings (ex_reader d1) LNone PSample 0 /\
  single_rate (d_of_f tenth) /\ (bpow radix2 (-29) <= R64 (d_of_f tenth))%R /\
  ((R64 (d_of_f tenth) + 1) * INR 2 <= IZR (2 ^ 30))%R.
Proof.
  split; [repeat split; cbn; lia|]. split; [apply ex_basic|].
  split; [exists tenth; split; reflexivity|].
  assert (V : R64 (d_of_f tenth) = (13421773 / 134217728)%R).
  { assert (F : fin32 tenth = true) by reflexivity.
    rewrite (proj1 (d_of_f_ok _ F)).
    replace (B2SF tenth) with (SpecFloat.S754_finite false 13421773 (-27)) by (vm_compute; reflexivity).
    rewrite <- SF2R_B2SF.
    replace (B2SF tenth) with (SpecFloat.S754_finite false 13421773 (-27)) by (vm_compute; reflexivity).
    cbn. unfold F2R. cbn. lra. }
  rewrite V. split; [cbn; lra|]. cbn [INR]. lra.
Qed.

Lemma three_quarters_case :
  let x := d_of_me 3 (-2) in
  array_holds ex_mem 4 15 2 /\ basic_settings (ex_reader x) LNone PSample 0 /\
  grid_rate x /\ (0 < R64 x)%R /\ ((R64 x + 1) * INR 2 <= IZR (2 ^ 30))%R.
Proof.
  cbv zeta. destruct (grid_me 3 2 ltac:(lia) ltac:(lia)) as [V G]. cbn [Z.opp] in *.
  split; [repeat split; cbn; lia|]. split; [apply ex_basic|]. split; auto. rewrite V.
  cbn. lra.
Qed.

Lemma reverse_refuted : exists m off len nch r pb, array_holds m off len nch /\ 1 <= len /\
  basic_settings r LNone PSample pb /\ r_rate r = dm1 /\
  exists r', playRaw_array r m off len (Z.of_nat nch) = Ok r' /\
    ~ delivers r' (nth_error (rev (source_frames m off nch len))).
Proof.
  exists ex_mem, 4, 4, 2%nat, (ex_reader dm1), 0.
  split; [repeat split; cbn; lia|]. split; [lia|]. split; [apply ex_basic|]. split; [reflexivity|].
  destruct (play_out (playRaw_array (ex_reader dm1) ex_mem 4 4 2) 20 [9]%nat
    [[src_frame ex_mem 4 2 1; src_frame ex_mem 4 2 0]]) as (r' & P & r2 & E).
  { vm_compute. reflexivity. }
  exists r'. split; auto. eapply not_delivers; [exact E|]. vm_compute. discriminate.
Qed.

Lemma length_unit_mono : forall m off len rf rb pb, array_holds m off len 1 -> 1 <= len ->
  basic_settings rf LNone PSample pb -> r_rate rf = d1 ->
  basic_settings rb LNone PSample pb -> r_rate rb = dm1 ->
  exists rf' rb' frames,
    playRaw_array rf m off len 1 = Ok rf' /\ playRaw_array rb m off len 1 = Ok rb' /\
    delivers rf' (nth_error frames) /\ delivers rb' (nth_error (rev frames)).
Proof.
  intros m off len rf rb pb A L B1 R1 B2 R2.
  destruct (unity_identity m off len 1 rf pb A B1 R1) as (rf' & P1 & D1).
  destruct (reverse_mono m off len rb pb A L B2 R2) as (rb' & P2 & D2).
  exists rf', rb', (source_frames m off 1 len). auto.
Qed.
