(* Forward playback of files: streams. *)

From Coq Require Import ZArith Lia List Bool Reals Lra.
From RecordUpdate Require Import RecordUpdate.
From Flocq Require Import Core.Core IEEE754.BinarySingleNaN.
From Verif Require Import Machine Floats FloatFacts WavModel InterpModel CacheModel ReaderModel
  ReaderFacts ReaderSpec Sessions StreamFacts Walk ForwardProofs PlayProofs CacheFacts CacheSpec CacheProofs WavSpec WavProofs WavPlayProofs
  FileSpec WindowProofs FileProofs FilePlay.
Import ListNotations.
Local Open Scope Z_scope.

Lemma pulls_length : forall out n k, (length (pulls out k n) <= n)%nat.
Proof.
  intros out. induction n as [|n IH]; intros k; cbn; [lia|]. destruct (out k); cbn; [|lia].
  specialize (IH (S k)). lia.
Qed.

Lemma floor_mono : forall x k k', (0 <= x)%R -> (k <= k')%nat -> Zfloor (INR k * x) <= Zfloor (INR k' * x).
Proof. intros x k k' X H. apply Zfloor_le. apply Rmult_le_compat_r; [auto|]. now apply le_INR. Qed.

Lemma blk_span : forall c u v n, cfg_ok c -> u <= v + n * BS c - 1 -> blk c u < blk c v + n + 1.
Proof.
  intros c u v n C H. pose proof (BS_pos _ C) as HB.
  pose proof (blk_mod c u C). pose proof (mod_BS c u C). pose proof (blk_mod c v C). pose proof (mod_BS c v C). nia.
Qed.

(* At speed x every schedule of updates of at most B frames is in the window *)
Lemma fwd_sched : forall c fl h len nch p0 x B, cfg_ok c -> file_holds fl h len nch -> 0 <= p0 -> (0 <= x)%R ->
  keeps_up c nch B x ->
  forall ns kp k, (kp <= k <= kp + B)%nat -> Forall (fun n => (n <= B)%nat) ns ->
  sched c fl h nch (fwd_idx len p0 x) (blk c (h + (p0 + Zfloor (INR kp * x)) * Z.of_nat nch)) k ns.
Proof.
  intros c fl h len nch p0 x B C (FT & FE & FL) P0 X KU.
  pose proof FT as (H1 & H2 & H3 & H4 & H5). pose proof (BS_pos _ C) as HB.
  assert (Z0 : forall k, 0 <= Zfloor (INR k * x)).
  { intros k. apply Zfloor_lub. apply Rmult_le_pos; [apply pos_INR|auto]. }
  induction ns as [|n ns IH]; intros kp k K FN; cbn [sched]; [auto|].
  inversion FN as [|? ? N1 N2]; subst.
  split.
  - intros k' i K' E. unfold fwd_idx in E.
    destruct (Z.ltb_spec (p0 + Zfloor (INR k' * x)) len) as [LT|]; [|discriminate].
    apply Some_inj in E. subst i. pose proof (Z0 k').
    split; [unfold frame_file; nia|]. split.
    + pose proof (KU kp k' ltac:(lia)) as Q. pose proof (Z0 kp).
      replace (Z.of_nat (c_nbuf c)) with (Z.of_nat (c_nbuf c) - 1 + 1) by lia. rewrite Z.add_assoc.
      apply blk_span; [auto|]. nia.
    + intros i0 E. unfold fwd_idx in E.
      destruct (Z.ltb_spec (p0 + Zfloor (INR k * x)) len) as [LT0|]; [|discriminate].
      apply Some_inj in E. subst i0.
      pose proof (floor_mono x kp k X ltac:(lia)). pose proof (floor_mono x k k' X ltac:(lia)).
      split; apply blk_mono; auto; nia.
  - unfold next_win. destruct n as [|n]; [cbn; rewrite Nat.add_0_r; apply IH; auto|].
    destruct (fwd_idx len p0 x k) as [i0|] eqn:E.
    + pose proof (pulls_length (fun k => option_map (file_frame fl h nch) (fwd_idx len p0 x k)) (S n) k).
      unfold fwd_idx in E. destruct (Z.ltb_spec (p0 + Zfloor (INR k * x)) len) as [LT0|]; [|discriminate].
      apply Some_inj in E. subst i0. apply IH; [|auto]. lia.
    + cbn [pulls]. rewrite E. cbn. rewrite Nat.add_0_r. apply IH; auto.
Qed.

Lemma rate_single_sign : forall x, fin64 x = true -> (0 <= R64 x <= IZR (2 ^ 30))%R -> fle f0 (f_of_d x) = true.
Proof.
  intros x F [P U].
  destruct (f_of_d_ok x F) as [V W].
  { rewrite Rabs_pos_eq by auto. eapply Rle_trans; [exact U|]. rewrite <- bpow_IZR by lia. apply bpow_le. lia. }
  rewrite fle_R by (auto; reflexivity). apply Rle_bool_true. rewrite V. change (R32 f0) with 0%R.
  apply round_ge_generic; try typeclasses eauto; [apply generic_format_0|auto].
Qed.

Lemma windowed_misses : forall c fl J m o r, windowed c fl J m o r -> misses r = 0.
Proof. intros c fl J m o r (f & E & W & _). unfold misses. rewrite E. apply W. Qed.

Lemma forward_open : forall r fl fsam nch h len p garbage ps pb, cfg_ok (r_cfg r) ->
  basic_settings r LNone ps pb -> r_nch r = Z.of_nat nch -> r_hdr r = h -> r_fsize r = fsize fl ->
  r_fsamples r = fsam -> 0 <= fsam -> len = fsam / Z.of_nat nch -> file_holds fl h len nch ->
  (ps = PArbitrary -> 0 <= pb <= len) ->
  grid_rate (r_rate r) -> (0 <= R64 (r_rate r))%R -> ((R64 (r_rate r) + 1) * INR nch <= IZR (2 ^ 30))%R ->
  let p0 := start_frame ps pb in
  let x := R64 (r_rate r) in
  exists r', play_open r fl p garbage = Ok (true, r') /\
    forall ns, sched (r_cfg r) fl h nch (fwd_idx len p0 x) (blk (r_cfg r) (h + p0 * Z.of_nat nch)) 0 ns ->
      exists fuel r2, serviced fuel r' ns = Ok (blocks_spec (file_pitch fl h len nch p0 x) 0 ns, r2) /\ misses r2 = misses r'.
Proof.
  intros r fl fsam nch h len p garbage ps pb C BSET NC HH FZ FQ FQ0 LEN FH PB G P U p0 x.
  destruct (open_state r fl fsam nch h len p garbage LNone ps pb C BSET NC HH FZ FQ FQ0 LEN FH PB (fun _ => eq_refl) (proj1 G) P)
    as (r' & g & E & PL & RT & FS & LP & RM & PS & PO & _ & _ & SR & W).
  specialize (W eq_refl). destruct W as (m & W).
  exists r'. split; [exact E|]. intros ns SC. fold p0 in PO, W.
  assert (P0 : 0 <= p0) by (unfold p0, start_frame; destruct ps; [lia|lia|apply (PB eq_refl)]).
  assert (FS2 : fsize fl <= 2 ^ 31) by (destruct FH as (_ & Q & _); lia).
  assert (Z00 : Zfloor (INR 0 * x) = 0) by (cbn [INR]; rewrite Rmult_0_l; change 0%R with (IZR 0); apply Zfloor_IZR).
  assert (I0 : fwd_inv h len nch p0 (r_rate r) 0 r').
  { destruct BSET as (_ & _ & _ & _ & _ & B6 & B7). constructor; auto.
    - now rewrite RM.
    - rewrite RM, B7. fold x. rewrite Z00. cbn [INR]. lra.
    - rewrite PO. fold x. rewrite Z00, Z.add_0_r. reflexivity. }
  assert (XU : (x <= IZR (2 ^ 30))%R).
  { destruct FH as ((_ & _ & _ & N1 & _) & _). assert (1 <= INR nch)%R by (change 1%R with (INR 1); now apply le_INR).
    unfold x in *. nra. }
  destruct (file_session (r_cfg r) fl h nch C FS2 (fwd_inv h len nch p0 (r_rate r)) (fwd_idx len p0 x)
     (fwd_walk h len nch p0 (r_rate r) (proj1 FH) G P P0 U)) with (ns := ns) (J := blk (r_cfg r) (h + p0 * Z.of_nat nch)) (m := m) (k := O) (r := r')
    as (F & r2 & S & M & _); auto.
  { intros k q HI. rewrite (fw_rate _ _ _ _ _ _ _ HI). apply rate_single_sign; [apply G|]. split; auto. }
  exists F, r2. split; [|rewrite M; symmetry; eapply windowed_misses; eauto].
  rewrite S. do 2 f_equal. apply blocks_ext. intro k. unfold fwd_idx, file_pitch. destruct (_ <? _); reflexivity.
Qed.

Lemma forward_file : forall r fl fsam nch h len p garbage ps pb B, cfg_ok (r_cfg r) ->
  basic_settings r LNone ps pb -> r_nch r = Z.of_nat nch -> r_hdr r = h -> r_fsize r = fsize fl ->
  r_fsamples r = fsam -> 0 <= fsam -> len = fsam / Z.of_nat nch -> file_holds fl h len nch ->
  (ps = PArbitrary -> 0 <= pb <= len) ->
  grid_rate (r_rate r) -> (0 <= R64 (r_rate r))%R -> ((R64 (r_rate r) + 1) * INR nch <= IZR (2 ^ 30))%R ->
  keeps_up (r_cfg r) nch B (R64 (r_rate r)) ->
  exists r', play_open r fl p garbage = Ok (true, r') /\
    file_delivers B r' (file_pitch fl h len nch (start_frame ps pb) (R64 (r_rate r))).
Proof.
  intros r fl fsam nch h len p garbage ps pb B C BSET NC HH FZ FQ FQ0 LEN FH PB G P U KU.
  destruct (forward_open r fl fsam nch h len p garbage ps pb C BSET NC HH FZ FQ FQ0 LEN FH PB G P U) as (r' & E & H).
  exists r'. split; [exact E|]. intros ns FN. apply H.
  assert (P0 : 0 <= start_frame ps pb) by (unfold start_frame; destruct ps; [lia|lia|apply (PB eq_refl)]).
  pose proof (fwd_sched (r_cfg r) fl h len nch (start_frame ps pb) (R64 (r_rate r)) B C FH P0 P KU ns 0%nat 0%nat ltac:(lia) FN) as S.
  replace (Zfloor (INR 0 * R64 (r_rate r))) with 0 in S
    by (cbn [INR]; rewrite Rmult_0_l; change 0%R with (IZR 0); symmetry; apply Zfloor_IZR).
  rewrite Z.add_0_r in S. exact S.
Qed.

(* ---- from the public entry points ----------------------------------------- *)

Lemma r_close_core : forall r, core (r_close r) = core r /\ r_kind (r_close r) = r_kind r.
Proof. intros r. unfold r_close. destruct (r_kind r) eqn:K; repeat split; cbn; auto. Qed.

Definition named (r : reader) : reader := r <| r_fname := true |> <| r_live := r_live r + 1 |>.
Lemma named_core : forall r, core (named r) = core r /\ r_kind (named r) = r_kind r.
Proof. intros. split; reflexivity. Qed.
Lemma nch_core : forall r n, let q := setNumChannels r n in
  (r_dual q, r_interp q, r_loop q, r_pstart q, r_pbstart q, r_rem q, r_rate q, r_hdr q, r_fsize q, r_cfg q, r_kind q) =
  (r_dual r, r_interp r, r_loop r, r_pstart r, r_pbstart r, r_rem r, r_rate r, r_hdr r, r_fsize r, r_cfg r, r_kind r) /\
  r_nch q = s16 n.
Proof. intros. split; reflexivity. Qed.
Definition sized (r : reader) (n : Z) : reader := r <| r_fsize := n |>.
Lemma sized_core : forall r n, let q := sized r n in
  (r_dual q, r_interp q, r_loop q, r_pstart q, r_pbstart q, r_rem q, r_rate q, r_hdr q, r_nch q, r_cfg q, r_kind q) =
  (r_dual r, r_interp r, r_loop r, r_pstart r, r_pbstart r, r_rem r, r_rate r, r_hdr r, r_nch r, r_cfg r, r_kind r) /\
  r_fsize q = n.
Proof. intros. split; reflexivity. Qed.

(* playRaw(file): what reaches play_open *)
Lemma play_raw_open : forall r fl nch stack garbage, r_kind r <> KArray -> 0 <= nch < 2 ^ 15 ->
  0 <= fsize fl < 2 ^ 31 ->
  exists r1, r_play_file r (Some fl) false nch stack garbage = play_open r1 fl 0 garbage /\
    r_cfg r1 = r_cfg r /\ r_nch r1 = nch /\ r_hdr r1 = r_hdr r /\ r_fsize r1 = fsize fl /\
    r_fsamples r1 = fsize fl / 2 /\ r_rate r1 = r_rate r /\
    (r_dual r1, r_interp r1, r_loop r1, r_pstart r1, r_pbstart r1, r_rem r1, r_ls r1, r_lf r1) =
    (r_dual r, r_interp r, r_loop r, r_pstart r, r_pbstart r, r_rem r, r_ls r, r_lf r).
Proof.
  intros r fl nch stack garbage K N S. unfold r_play_file.
  destruct (r_close_core r) as [C1 C2].
  assert (CL : r_ls (r_close r) = r_ls r /\ r_lf (r_close r) = r_lf r) by (unfold r_close; destruct (r_kind r); split; reflexivity).
  set (q0 := r_close r) in *. clearbody q0. destruct CL as [CL1 CL2].
  destruct (nch_core q0 nch) as [D1 D2].
  assert (DL : r_ls (setNumChannels q0 nch) = r_ls q0 /\ r_lf (setNumChannels q0 nch) = r_lf q0) by (split; reflexivity).
  set (q1 := setNumChannels q0 nch) in *. clearbody q1. destruct DL as [DL1 DL2].
  fold (named q1). destruct (named_core q1) as [E1 E2].
  assert (EL : r_ls (named q1) = r_ls q1 /\ r_lf (named q1) = r_lf q1) by (split; reflexivity).
  set (q2 := named q1) in *. clearbody q2. destruct EL as [EL1 EL2]. unfold core in *. cbv zeta in *.
  replace (match r_kind q2 with KArray => None | _ => Some fl end) with (Some fl)
    by (replace (r_kind q2) with (r_kind r) by congruence; destruct (r_kind r); congruence).
  fold (sized q2 (s32 (fsize fl))). destruct (sized_core q2 (s32 (fsize fl))) as [F1 F2].
  assert (FL : r_ls (sized q2 (s32 (fsize fl))) = r_ls q2 /\ r_lf (sized q2 (s32 (fsize fl))) = r_lf q2) by (split; reflexivity).
  set (q3 := sized q2 (s32 (fsize fl))) in *. clearbody q3. destruct FL as [FL1 FL2]. cbn [bind].
  rewrite s32_id in F2 by (unfold in_s32; lia). rewrite s16_id in D2 by (unfold in_s16; lia).
  eexists. split; [reflexivity|].
  assert (QD : Z.quot (r_fsize q3) 2 = fsize fl / 2) by (rewrite F2, Z.quot_div_nonneg by lia; reflexivity).
  rewrite QD. cbv zeta in *.
  assert (W : exists q4, q4 = q3 <| r_fsamples := fsize fl / 2 |> /\ core q4 = core q3 /\ r_fsamples q4 = fsize fl / 2 /\
     r_ls q4 = r_ls q3 /\ r_lf q4 = r_lf q3) by (eexists; split; [reflexivity|]; repeat split).
  destruct W as (q4 & EQ & G1 & G2 & G3 & G4). rewrite <- EQ. clear EQ. unfold core in G1.
  repeat split; congruence.
Qed.

(* ---- WAV files -------------------------------------------------------------- *)

(* A playable WAV file: the format chunk, an optional LIST chunk of even size, a
   data chunk of n bytes which the file holds, not all of it header *)
Definition wav_file (fl : file) (nch : nat) (tags n : Z) : Prop :=
  bytes_ok (fbyte fl) /\ header_valid (fbyte fl) /\ hdr_bits (fbyte fl) = 16 /\
  hdr_channels (fbyte fl) = Z.of_nat nch /\ (1 <= nch)%nat /\
  data_chunk (fbyte fl) tags n /\ Z.even tags = true /\ 0 <= tags /\
  44 + tags + n <= fsize fl < 2 ^ 31 /\ 44 + tags < fsize fl.

Lemma data_chunk_unique : forall b t n t' n', bytes_ok b -> data_chunk b t n -> data_chunk b t' n' -> t = t' /\ n = n'.
Proof.
  intros b t n t' n' BO (A1 & A2 & A3) (B1 & B2 & B3).
  assert (T : t = t').
  { destruct A1 as [->|[L ->]], B1 as [->|[L' ->]]; auto.
    - rewrite Z.add_0_r in A2. rewrite A2 in L'. discriminate.
    - rewrite Z.add_0_r in B2. rewrite B2 in L. discriminate. }
  subst t'. split; congruence.
Qed.

Lemma wav_file_plays : forall fl nch tags n, wav_file fl nch tags n ->
  list_sane (fsize fl) (fbyte fl) /\ header_safe (fbyte fl) /\ file_plays (fsize fl) (fbyte fl) /\
  2 * ((44 + tags) / 2) = 44 + tags /\ 0 <= n.
Proof.
  intros fl nch tags n (BO & HV & HB & HC & N1 & DC & EV & T0 & SZ & SL).
  assert (E2 : 2 * ((44 + tags) / 2) = 44 + tags).
  { apply Z.even_spec in EV. destruct EV as (q & ->).
    replace (44 + 2 * q) with ((22 + q) * 2) by lia. rewrite Z.div_mul by lia. lia. }
  assert (N0 : 0 <= n) by (destruct DC as (_ & _ & ->); apply le32u_range; auto).
  split.
  { intros L. right. split; [lia|]. destruct DC as (D1 & D2 & _). destruct D1 as [->|[_ D1]].
    - rewrite Z.add_0_r in D2. rewrite D2 in L. discriminate.
    - lia. }
  split; [destruct HV as (V1 & V2 & V3 & V4); split; [auto|intros X; congruence]|].
  split; [|auto]. split; [auto|]. split; [auto|]. exists tags, n. split; [auto|lia].
Qed.

Lemma play_wav_open : forall r fl nch tags n nraw stack garbage, r_kind r <> KArray -> bytes_ok stack ->
  wav_file fl nch tags n -> Z.of_nat nch < 2 ^ 15 ->
  exists r1, r_play_file r (Some fl) true nraw stack garbage = play_open r1 fl (44 + tags) garbage /\
    r_cfg r1 = r_cfg r /\ r_nch r1 = Z.of_nat nch /\ r_hdr r1 = (44 + tags) / 2 /\ r_fsize r1 = fsize fl /\
    r_fsamples r1 = n / 2 /\ r_rate r1 = r_rate r /\
    (r_dual r1, r_interp r1, r_loop r1, r_pstart r1, r_pbstart r1, r_rem r1, r_ls r1, r_lf r1) =
    (r_dual r, r_interp r, r_loop r, r_pstart r, r_pbstart r, r_rem r, r_ls r, r_lf r).
Proof.
  intros r fl nch tags n nraw stack garbage K BST WF NB.
  destruct (wav_file_plays fl nch tags n WF) as (LS & HS & FP & E2 & N0).
  destruct WF as (BO & HV & HB & HC & N1 & DC & EV & T0 & SZ & SL).
  unfold r_play_file. destruct (r_close_core r) as [C1 C2].
  assert (CL : r_ls (r_close r) = r_ls r /\ r_lf (r_close r) = r_lf r) by (unfold r_close; destruct (r_kind r); split; reflexivity).
  set (q0 := r_close r) in *. clearbody q0. destruct CL as [CL1 CL2].
  fold (named q0). destruct (named_core q0) as [E1 E2'].
  assert (EL : r_ls (named q0) = r_ls q0 /\ r_lf (named q0) = r_lf q0) by (split; reflexivity).
  set (q2 := named q0) in *. clearbody q2. destruct EL as [EL1 EL2]. unfold core in *. cbv zeta in *.
  replace (match r_kind q2 with KArray => None | _ => Some fl end) with (Some fl)
    by (replace (r_kind q2) with (r_kind r) by congruence; destruct (r_kind r); congruence).
  fold (sized q2 (s32 (fsize fl))). destruct (sized_core q2 (s32 (fsize fl))) as [F1 F2].
  assert (FL : r_ls (sized q2 (s32 (fsize fl))) = r_ls q2 /\ r_lf (sized q2 (s32 (fsize fl))) = r_lf q2) by (split; reflexivity).
  set (q3 := sized q2 (s32 (fsize fl))) in *. clearbody q3. destruct FL as [FL1 FL2].
  rewrite s32_id in F2 by (unfold in_s32; lia).
  destruct (parse_file_ok (c_keep (r_cfg q3)) fl stack BO BST ltac:(lia) HS) as (o & PF).
  pose proof (play_header_parse q3 fl stack) as PP. rewrite PF in PP.
  pose proof (parse_file_spec _ fl stack _ BO BST ltac:(lia) LS PF) as SP.
  destruct o as [[[[p3 hd] fs] ch]|]; [|contradiction].
  destruct SP as (A & B & D & E3). rewrite PP. cbn [bind].
  pose proof (proj1 A FP) as HD.
  destruct (E3 HD) as (t' & n' & DC' & H1 & H2 & H3).
  destruct (data_chunk_unique _ _ _ _ _ BO DC' DC) as [-> ->]. subst hd fs p3.
  eexists. split; [reflexivity|].
  assert (NC : s16 (u16 ch) = Z.of_nat nch).
  { rewrite (D HD), HC. unfold s16, u16. Z.div_mod_to_equations; lia. }
  destruct (nch_core q3 (u16 ch)) as [D1 D2]. rewrite NC in D2.
  assert (DL : r_ls (setNumChannels q3 (u16 ch)) = r_ls q3 /\ r_lf (setNumChannels q3 (u16 ch)) = r_lf q3) by (split; reflexivity).
  set (q4 := setNumChannels q3 (u16 ch)) in *. clearbody q4. destruct DL as [DL1 DL2]. cbv zeta in *.
  assert (W : exists q5, q5 = q4 <| r_hdr := (44 + tags) / 2 |> <| r_fsamples := n / 2 |> /\
     (r_dual q5, r_interp q5, r_loop q5, r_pstart q5, r_pbstart q5, r_rem q5, r_rate q5, r_nch q5, r_fsize q5, r_cfg q5) =
     (r_dual q4, r_interp q4, r_loop q4, r_pstart q4, r_pbstart q4, r_rem q4, r_rate q4, r_nch q4, r_fsize q4, r_cfg q4) /\
     r_fsamples q5 = n / 2 /\ r_hdr q5 = (44 + tags) / 2 /\
     r_ls q5 = r_ls q4 /\ r_lf q5 = r_lf q4) by (eexists; split; [reflexivity|]; repeat split).
  destruct W as (q5 & EQ & G1 & G2 & G3 & G4 & G5). rewrite <- EQ. clear EQ.
  repeat split; congruence.
Qed.

(* ---- the statements ------------------------------------------------------ *)

Lemma settings_same : forall r r1 l ps pb,
  (r_dual r1, r_interp r1, r_loop r1, r_pstart r1, r_pbstart r1, r_rem r1, r_ls r1, r_lf r1) =
  (r_dual r, r_interp r, r_loop r, r_pstart r, r_pbstart r, r_rem r, r_ls r, r_lf r) ->
  basic_settings r l ps pb -> basic_settings r1 l ps pb.
Proof.
  intros r r1 l ps pb E (B1 & B2 & B3 & B4 & B5 & B6 & B7).
  assert (r_rem r1 = r_rem r) by congruence. unfold basic_settings. rewrite H. repeat split; congruence.
Qed.

(* RAW files, given that no header offset is left over *)
Lemma raw_forward : forall r fl nch stack garbage ps pb B, cfg_ok (r_cfg r) -> r_kind r <> KArray ->
  basic_settings r LNone ps pb -> r_hdr r = 0 -> (1 <= nch)%nat -> Z.of_nat nch < 2 ^ 15 -> 0 < fsize fl < 2 ^ 31 ->
  let len := fsize fl / 2 / Z.of_nat nch in
  (ps = PArbitrary -> 0 <= pb <= len) ->
  grid_rate (r_rate r) -> (0 <= R64 (r_rate r))%R -> ((R64 (r_rate r) + 1) * INR nch <= IZR (2 ^ 30))%R ->
  keeps_up (r_cfg r) nch B (R64 (r_rate r)) ->
  exists r', r_play_file r (Some fl) false (Z.of_nat nch) stack garbage = Ok (true, r') /\
    file_delivers B r' (file_pitch fl 0 len nch (start_frame ps pb) (R64 (r_rate r))).
Proof.
  intros r fl nch stack garbage ps pb B C K BSET HH N1 NB S len PB G P U KU.
  destruct (play_raw_open r fl (Z.of_nat nch) stack garbage K ltac:(lia) ltac:(lia)) as (r1 & E & CC & NC & HC & SC & FC & RC & SS).
  rewrite E. rewrite <- RC in G, P, U, KU |- *. rewrite <- CC in C, KU.
  assert (LN : 0 <= len) by (unfold len; apply Z.div_pos; [apply Z.div_pos|]; lia).
  assert (L2 : 2 * (len * Z.of_nat nch) <= fsize fl).
  { unfold len. pose proof (Z.mul_div_le (fsize fl) 2 ltac:(lia)).
    pose proof (Z.mul_div_le (fsize fl / 2) (Z.of_nat nch) ltac:(lia)). lia. }
  apply (forward_file r1 fl (fsize fl / 2) nch 0 len 0 garbage ps pb B); auto; try congruence.
  - now apply (settings_same r).
  - apply Z.div_pos; lia.
  - unfold file_holds, fits. repeat split; auto; lia.
Qed.

Lemma wav_forward : forall r fl nch tags n nraw stack garbage ps pb B, cfg_ok (r_cfg r) -> r_kind r <> KArray ->
  basic_settings r LNone ps pb -> bytes_ok stack -> wav_file fl nch tags n -> Z.of_nat nch < 2 ^ 15 ->
  let len := n / 2 / Z.of_nat nch in
  (ps = PArbitrary -> 0 <= pb <= len) ->
  grid_rate (r_rate r) -> (0 <= R64 (r_rate r))%R -> ((R64 (r_rate r) + 1) * INR nch <= IZR (2 ^ 30))%R ->
  keeps_up (r_cfg r) nch B (R64 (r_rate r)) ->
  exists r', r_play_file r (Some fl) true nraw stack garbage = Ok (true, r') /\
    file_delivers B r' (file_pitch fl ((44 + tags) / 2) len nch (start_frame ps pb) (R64 (r_rate r))).
Proof.
  intros r fl nch tags n nraw stack garbage ps pb B C K BSET BST WF NB len PB G P U KU.
  destruct (play_wav_open r fl nch tags n nraw stack garbage K BST WF NB) as (r1 & E & CC & NC & HC & SC & FC & RC & SS).
  destruct (wav_file_plays fl nch tags n WF) as (_ & _ & _ & E2 & N0).
  destruct WF as (_ & _ & _ & _ & N1 & _ & _ & T0 & SZ & SL).
  rewrite E. rewrite <- RC in G, P, U, KU |- *. rewrite <- CC in C, KU.
  assert (LN : 0 <= len) by (unfold len; apply Z.div_pos; [apply Z.div_pos|]; lia).
  assert (L2 : 2 * (len * Z.of_nat nch) <= n).
  { unfold len. pose proof (Z.mul_div_le n 2 ltac:(lia)).
    pose proof (Z.mul_div_le (n / 2) (Z.of_nat nch) ltac:(lia)). lia. }
  apply (forward_file r1 fl (n / 2) nch ((44 + tags) / 2) len (44 + tags) garbage ps pb B); auto; try congruence.
  - now apply (settings_same r).
  - apply Z.div_pos; lia.
  - unfold file_holds, fits. repeat split; auto; lia.
Qed.

(* keeps_up in terms of the speed *)
Lemma keeps_up_speed : forall c nch B x, (0 <= x)%R -> ((INR (2 * B) * x + 2) * INR nch <= IZR ((Z.of_nat (c_nbuf c) - 1) * BS c))%R ->
  keeps_up c nch B x.
Proof.
  intros c nch B x X H k k' K. apply le_IZR. eapply Rle_trans; [|exact H].
  rewrite mult_IZR, <- INR_IZR_INZ. apply Rmult_le_compat_r; [apply pos_INR|].
  rewrite plus_IZR, minus_IZR. pose proof (Zfloor_lb (INR k' * x)). pose proof (Zfloor_ub (INR k * x)).
  assert (INR k' <= INR k + INR (2 * B))%R by (rewrite <- plus_INR; apply le_INR; lia).
  assert (INR k' * x <= (INR k + INR (2 * B)) * x)%R by (now apply Rmult_le_compat_r).
  lra.
Qed.

(* ---- unity rate ----------------------------------------------------------- *)

Lemma file_unity_stream : forall fl h len nch k, 0 <= len ->
  file_pitch fl h len nch 0 1 k = nth_error (file_frames fl h nch len) k.
Proof.
  intros fl h len nch k H. unfold file_pitch, file_frames. rewrite nth_error_map_seq.
  rewrite Rmult_1_r, INR_IZR_INZ, Zfloor_IZR, Z.add_0_l.
  destruct (Z.ltb_spec (Z.of_nat k) len); destruct (Nat.ltb_spec k (Z.to_nat len)); auto; lia.
Qed.

Lemma file_delivers_ext : forall B r o1 o2, (forall k, o1 k = o2 k) -> file_delivers B r o1 -> file_delivers B r o2.
Proof.
  intros B r o1 o2 E D ns FN. destruct (D ns FN) as (f & r' & H & M). exists f, r'.
  now rewrite <- (blocks_ext o1 o2 E).
Qed.

Lemma keeps_up_1 : forall c nch B, 2 * Z.of_nat B * Z.of_nat nch <= (Z.of_nat (c_nbuf c) - 1) * BS c ->
  keeps_up c nch B 1.
Proof.
  intros c nch B H k k' K. rewrite !Rmult_1_r, !INR_IZR_INZ, !Zfloor_IZR.
  eapply Z.le_trans; [|exact H]. apply Z.mul_le_mono_nonneg_r; lia.
Qed.

Lemma rate1_bound : forall nch, Z.of_nat nch < 2 ^ 15 -> ((R64 d1 + 1) * INR nch <= IZR (2 ^ 30))%R.
Proof.
  intros nch H. rewrite R64_d1. rewrite INR_IZR_INZ. replace (1 + 1)%R with (IZR 2) by lra. rewrite <- mult_IZR. apply IZR_le. lia.
Qed.

Lemma raw_unity : forall r fl nch stack garbage pb B, cfg_ok (r_cfg r) -> r_kind r <> KArray ->
  basic_settings r LNone PSample pb -> r_hdr r = 0 -> (1 <= nch)%nat -> Z.of_nat nch < 2 ^ 15 -> 0 < fsize fl < 2 ^ 31 ->
  r_rate r = d1 -> 2 * Z.of_nat B * Z.of_nat nch <= (Z.of_nat (c_nbuf (r_cfg r)) - 1) * BS (r_cfg r) ->
  exists r', r_play_file r (Some fl) false (Z.of_nat nch) stack garbage = Ok (true, r') /\
    file_delivers B r' (nth_error (file_frames fl 0 nch (fsize fl / 2 / Z.of_nat nch))).
Proof.
  intros r fl nch stack garbage pb B C K BSET HH N1 NB S R H.
  destruct (raw_forward r fl nch stack garbage PSample pb B C K BSET HH N1 NB S) as (r' & E & D).
  - discriminate.
  - rewrite R. apply grid_d1.
  - rewrite R, R64_d1. lra.
  - rewrite R. now apply rate1_bound.
  - rewrite R, R64_d1. now apply keeps_up_1.
  - exists r'. split; auto. eapply file_delivers_ext; [|exact D]. intro k. rewrite R, R64_d1. cbn [start_frame].
    apply file_unity_stream. apply Z.div_pos; [apply Z.div_pos|]; lia.
Qed.

Lemma wav_unity : forall r fl nch tags n nraw stack garbage pb B, cfg_ok (r_cfg r) -> r_kind r <> KArray ->
  basic_settings r LNone PSample pb -> bytes_ok stack -> wav_file fl nch tags n -> Z.of_nat nch < 2 ^ 15 ->
  r_rate r = d1 -> 2 * Z.of_nat B * Z.of_nat nch <= (Z.of_nat (c_nbuf (r_cfg r)) - 1) * BS (r_cfg r) ->
  exists r', r_play_file r (Some fl) true nraw stack garbage = Ok (true, r') /\
    file_delivers B r' (nth_error (file_frames fl ((44 + tags) / 2) nch (n / 2 / Z.of_nat nch))).
Proof.
  intros r fl nch tags n nraw stack garbage pb B C K BSET BST WF NB R H.
  destruct (wav_file_plays fl nch tags n WF) as (_ & _ & _ & _ & N0).
  assert (N1 : (1 <= nch)%nat) by apply WF.
  destruct (wav_forward r fl nch tags n nraw stack garbage PSample pb B C K BSET BST WF NB) as (r' & E & D).
  - discriminate.
  - rewrite R. apply grid_d1.
  - rewrite R, R64_d1. lra.
  - rewrite R. now apply rate1_bound.
  - rewrite R, R64_d1. now apply keeps_up_1.
  - exists r'. split; auto. eapply file_delivers_ext; [|exact D]. intro k. rewrite R, R64_d1. cbn [start_frame].
    apply file_unity_stream. apply Z.div_pos; [apply Z.div_pos|]; lia.
Qed.

(* ---- number of frames ------------------------------------------------------ *)

Lemma file_count_stream : forall fl h len nch x, (0 < x)%R -> 0 <= len ->
  exists frames, (forall k, file_pitch fl h len nch 0 x k = nth_error frames k) /\
    Z.of_nat (length frames) = Zceil (IZR len / x).
Proof.
  intros fl h len nch x X L.
  assert (C0 : 0 <= Zceil (IZR len / x)).
  { apply le_IZR. eapply Rle_trans; [|apply Zceil_ub]. apply Rmult_le_pos; [now apply IZR_le|]. left. now apply Rinv_0_lt_compat. }
  exists (map (fun k => file_frame fl h nch (Zfloor (INR k * x))) (seq 0 (Z.to_nat (Zceil (IZR len / x))))).
  rewrite map_length, seq_length. split; [|lia]. intro k. rewrite nth_error_map_seq. unfold file_pitch. rewrite Z.add_0_l.
  pose proof (floor_lt_ceil k x len X) as Q.
  destruct (Z.ltb_spec (Zfloor (INR k * x)) len); destruct (Nat.ltb_spec k (Z.to_nat (Zceil (IZR len / x)))); auto; lia.
Qed.

(* ---- serial flash: one block per update ------------------------------------ *)

Lemma aligned_sched : forall c fl len, cfg_ok c -> file_holds fl 0 len 1 -> (2 <= c_nbuf c)%nat ->
  forall t q J, 0 <= q -> (J = q \/ J = q - 1) -> 0 <= J ->
  sched c fl 0 1 (fwd_idx len 0 1) J (Z.to_nat (q * BS c)) (repeat (Z.to_nat (BS c)) t).
Proof.
  intros c fl len C (FT & FE & FL) NB. pose proof (BS_pos _ C) as HB.
  assert (ID : forall k, fwd_idx len 0 1 k = if Z.of_nat k <? len then Some (Z.of_nat k) else None).
  { intro k. unfold fwd_idx. rewrite Rmult_1_r, INR_IZR_INZ, Zfloor_IZR, Z.add_0_l. reflexivity. }
  assert (BL : forall q i, q * BS c <= i < (q + 1) * BS c -> blk c i = q).
  { intros q i H. unfold blk. symmetry. apply Z.div_unique with (i - BS c * q); lia. }
  assert (PL : forall n k, pulls (fun k => option_map (file_frame fl 0 1) (fwd_idx len 0 1 k)) k n <> [] ->
     length (pulls (fun k => option_map (file_frame fl 0 1) (fwd_idx len 0 1 k)) k n) = n \/
     fwd_idx len 0 1 (k + length (pulls (fun k => option_map (file_frame fl 0 1) (fwd_idx len 0 1 k)) k n)) = None).
  { induction n as [|n IH]; intros k H; [auto|]. cbn [pulls] in *.
    destruct (fwd_idx len 0 1 k) as [i|] eqn:E; cbn [option_map] in *; [|congruence]. cbn [length].
    destruct (pulls (fun k => option_map (file_frame fl 0 1) (fwd_idx len 0 1 k)) (S k) n) as [|v l] eqn:EP.
    - destruct n as [|n]; [auto|]. right. cbn [pulls] in EP. rewrite Nat.add_1_r.
      destruct (fwd_idx len 0 1 (S k)); [discriminate|reflexivity].
    - rewrite <- EP in *. destruct (IH (S k)) as [IH1|IH1]; [congruence|left; lia|right]. rewrite <- IH1. f_equal. lia. }
  assert (DONE : forall t k J, fwd_idx len 0 1 k = None -> sched c fl 0 1 (fwd_idx len 0 1) J k (repeat (Z.to_nat (BS c)) t)).
  { induction t as [|t IH]; intros k J E; cbn [repeat sched]; [auto|]. split.
    - intros k' i K' E'. rewrite ID in E, E'. destruct (Z.ltb_spec (Z.of_nat k) len); [discriminate|].
      destruct (Z.ltb_spec (Z.of_nat k') len); [lia|discriminate].
    - assert (PE : pulls (fun k => option_map (file_frame fl 0 1) (fwd_idx len 0 1 k)) k (Z.to_nat (BS c)) = []).
      { destruct (Z.to_nat (BS c)); [reflexivity|]. cbn [pulls]. now rewrite E. }
      rewrite PE. cbn [length]. rewrite Nat.add_0_r. apply IH. exact E. }
  induction t as [|t IH]; intros q J Q0 QJ J0; cbn [repeat sched]; [auto|].
  destruct (fwd_idx len 0 1 (Z.to_nat (q * BS c))) as [i|] eqn:E.
  2:{ apply (DONE (S t)). exact E. }
  assert (E' := E). rewrite ID in E'. destruct (Z.ltb_spec (Z.of_nat (Z.to_nat (q * BS c))) len) as [L|]; [|discriminate].
  apply Some_inj in E'. assert (Q1 : 0 <= q * BS c) by nia. rewrite Z2Nat.id in * by auto. subst i.
  split.
  - intros k' i K' E'. rewrite ID in E'. destruct (Z.ltb_spec (Z.of_nat k') len) as [L'|]; [|discriminate].
    apply Some_inj in E'. subst i. cbn [Z.of_nat Pos.of_succ_nat].
    rewrite (BL q (0 + Z.of_nat k' * 1)) by lia.
    replace (0 + Z.of_nat k' * 1 + 1 - 1) with (0 + Z.of_nat k' * 1) by lia. rewrite (BL q) by lia.
    split; [split; lia|]. split; [lia|]. intros i0 E0. rewrite E in E0. apply Some_inj in E0. subst i0.
    rewrite (BL q) by lia. lia.
  - assert (NW : next_win c 0 1 (fwd_idx len 0 1) J (Z.to_nat (q * BS c)) (Z.to_nat (BS c)) = q).
    { unfold next_win. rewrite E. destruct (Z.to_nat (BS c)) eqn:X; [lia|]. apply BL. lia. }
    rewrite NW. destruct (PL (Z.to_nat (BS c)) (Z.to_nat (q * BS c))) as [PE|PE].
    + destruct (Z.to_nat (BS c)) eqn:X; [lia|]. cbn [pulls]. rewrite E. cbn. discriminate.
    + rewrite PE. replace (Z.to_nat (q * BS c) + Z.to_nat (BS c))%nat with (Z.to_nat ((q + 1) * BS c)) by lia.
      apply IH; lia.
    + apply DONE. exact PE.
Qed.

Lemma raw_mono_aligned : forall r fl stack garbage pb, cfg_ok (r_cfg r) -> r_kind r <> KArray ->
  basic_settings r LNone PSample pb -> r_hdr r = 0 -> 0 < fsize fl < 2 ^ 31 ->
  r_rate r = d1 -> (2 <= c_nbuf (r_cfg r))%nat ->
  exists r', r_play_file r (Some fl) false 1 stack garbage = Ok (true, r') /\
    forall t, exists fuel r2, serviced fuel r' (repeat (Z.to_nat (BS (r_cfg r))) t) =
        Ok (blocks_spec (nth_error (file_frames fl 0 1 (fsize fl / 2))) 0 (repeat (Z.to_nat (BS (r_cfg r))) t), r2) /\
      misses r2 = misses r'.
Proof.
  intros r fl stack garbage pb C K BSET HH S R NB.
  destruct (play_raw_open r fl 1 stack garbage K ltac:(lia) ltac:(lia)) as (r1 & E & CC & NC & HC & SC & FC & RC & SS).
  rewrite E. rewrite R in RC.
  assert (FH : file_holds fl 0 (fsize fl / 2) 1).
  { pose proof (Z.mul_div_le (fsize fl) 2 ltac:(lia)). assert (0 <= fsize fl / 2) by (apply Z.div_pos; lia).
    unfold file_holds, fits. cbn [Z.of_nat Pos.of_succ_nat]. repeat split; try lia. }
  destruct (forward_open r1 fl (fsize fl / 2) 1 0 (fsize fl / 2) 0 garbage PSample pb) as (r' & E1 & H); auto; try congruence.
  - now apply (settings_same r).
  - apply Z.div_pos; lia.
  - cbn [Z.of_nat Pos.of_succ_nat]. now rewrite Z.div_1_r.
  - rewrite RC. apply grid_d1.
  - rewrite RC, R64_d1. lra.
  - rewrite RC. apply rate1_bound. lia.
  - exists r'. split; [exact E1|]. intro t.
    destruct (H (repeat (Z.to_nat (BS (r_cfg r))) t)) as (F & r2 & X & M).
    + cbv zeta. rewrite RC, R64_d1. rewrite CC. cbn [start_frame Z.of_nat Pos.of_succ_nat].
      pose proof (aligned_sched (r_cfg r) fl (fsize fl / 2) C FH NB t 0 0 ltac:(lia) ltac:(lia) ltac:(lia)) as A.
      exact A.
    + exists F, r2. split; [|exact M]. rewrite X. do 2 f_equal. apply blocks_ext. intro k. rewrite RC, R64_d1. cbn [start_frame].
      apply file_unity_stream. apply Z.div_pos; lia.
Qed.
