(* Forward playback of files with any interpolator: the window of loaded blocks, and
   sessions of any length (C82). *)

From Coq Require Import ZArith Lia List Bool Reals Lra.
From RecordUpdate Require Import RecordUpdate.
From Flocq Require Import Core.Core IEEE754.BinarySingleNaN.
From Verif Require Import Machine Floats FloatFacts WavModel InterpModel CacheModel ReaderModel ReaderFacts ReaderSpec Sessions StreamFacts Walk
  CacheFacts CacheSpec CacheProofs FileSpec WindowProofs FileProofs FilePlay FileForward FadeProofs QuadProofs InterpSafe MirrorSpec MirrorProofs MirrorFinal PartProofs TrackProofs.
Import ListNotations.
Local Open Scope Z_scope.

Lemma ar1 : forall b s n, 1 <= b -> 1 <= s -> 1 <= n -> (b + 1) * s * n < (2 * b * s + 1) * n.
Proof. intros. apply Z.mul_lt_mono_pos_r; [lia|]. nia. Qed.

Lemma ar2 : forall q p z z1 n s N w, q + z1 * N <= p + (z + n * s) * N -> forall b, 0 <= z <= 1 -> 0 <= n <= b -> 1 <= s -> 1 <= N -> w <= s - 1 ->
  q + z1 * N <= p - w * N + (b + 1) * s * N.
Proof. intros. assert (z + w + n * s <= (b + 1) * s) by nia. nia. Qed.

Section Files.
Variables (c : ccfg) (fl : file) (h len : Z) (nch : nat) (x : b64) (s : Z) (B : nat).
Local Notation N := (Z.of_nat nch).
Hypothesis (C : cfg_ok c) (HF : file_holds fl h len nch) (FX : fin64 x = true) (X0 : (0 <= R64 x)%R) (XS : (R64 x <= IZR s)%R) (S1 : 1 <= s) (SN : (s + 1) * N <= 2 ^ 30).
(* two updates of B frames fit the buffers, up to one *)
Hypothesis KU : (2 * Z.of_nat B * s + 1) * N <= (Z.of_nat (c_nbuf c) - 1) * BS c.

(* the window after the fetches from sample lo on *)
Definition seen (J : Z) (m : nat) (lo : Z) (f : ifile) : Prop :=
  win c fl J m f /\ exists o, marks o f /\ (match o with Some a => (a < m)%nat /\ blk c lo <= J + Z.of_nat a | None => True end).

Lemma seen_hit : forall J m lo hi f i v, win_ok c fl J m -> J <= blk c lo -> blk c (hi - 1) < J + Z.of_nat (c_nbuf c) -> 0 <= lo -> 2 * hi <= fsize fl -> seen J m lo f ->
  mem_sample (part_mem fl lo hi) (- (2 * lo)) i = Some v -> fst (if_get f i) = v /\ seen J m lo (snd (if_get f i)).
Proof.
  intros J m lo hi f i v WO JL JH L0 HH (W & o & MK & BO) M. rewrite part_hit_eq in M.
  destruct (Z.leb_spec lo i), (Z.ltb_spec i hi); try discriminate. apply Some_inj in M. subst v.
  pose proof (blk_mono c C lo i ltac:(lia)) as B1. pose proof (blk_mono c C i (hi - 1) ltac:(lia)) as B2.
  assert (FS : fsize fl <= 2 ^ 31) by (destruct HF as (_ & Q & _); lia).
  destruct (win_get_any c fl J m f i o C FS W WO MK) as (f' & E & W' & A & MK' & _); [split; lia|lia|].
  rewrite E. split; [reflexivity|]. split; [exact W'|]. eexists. split; [exact MK'|]. cbn beta iota.
  destruct o as [a|]; [|split; [exact A|lia]]. destruct BO as [BA BL]. destruct (Nat.min_spec a (Z.to_nat (blk c i - J))) as [[_ ->]|[_ ->]]; split; auto; lia.
Qed.

(* Between two updates: window at J, fetches will be from sample >= u on *)
Definition ready (J u : Z) (m : nat) (r : reader) : Prop :=
  trk h len nch x r /\ (exists f, r_src r = SFile f /\ win c fl J m f /\ marks None f) /\ win_ok c fl J m /\
  0 <= u /\ blk c u <= J /\ 0 <= r_pos1 r - reach r * N /\ J <= blk c (r_pos1 r - reach r * N) /\
  r_pos1 r + nz (r_rem r) * N <= u + (Z.of_nat B + 1) * s * N.

Lemma file_part : forall lo hi i v, 0 <= lo -> 2 * hi <= fsize fl -> lo <= i < hi -> mem_sample (file_mem fl) 0 i = Some v ->
  mem_sample (part_mem fl lo hi) (- (2 * lo)) i = Some v.
Proof.
  intros lo hi i v L H I M. rewrite part_hit_eq. destruct (Z.leb_spec lo i), (Z.ltb_spec i hi); try lia. cbn [andb].
  unfold mem_sample in M. destruct (_ && _); [|discriminate]. rewrite <- M. unfold file_mem, file_sample. cbn [mbyte]. now rewrite Z.add_0_l.
Qed.

Lemma re_on : forall m off m' off' r, re m' off' (on_array m off r) = on_array m' off' r. Proof. reflexivity. Qed.

Lemma track_update : forall n J u m r F l ra, (n <= B)%nat -> ready J u m r ->
  r_read F (on_array (file_mem fl) 0 r) (Z.of_nat n) = Ok (l, ra) ->
  exists r' G r2 J' u', r_read F r (Z.of_nat n) = Ok (l, r') /\ ra = on_array (file_mem fl) 0 r' /\
    (forall extra, r_triggerReload (G + extra) r' = Ok r2) /\ on_array (file_mem fl) 0 r2 = ra /\ ready J' u' m r2.
Proof.
  intros n J u m r F l ra NB RD E. pose proof RD as (T & (f & SR & W & MK) & WO & U0 & UJ & L0 & LJ & UP).
  pose proof HF as (FIT & HS & _). pose proof FIT as (H1 & H2 & H3 & H4 & H5).
  assert (FS : fsize fl <= 2 ^ 31) by lia.
  set (lo := r_pos1 r - reach r * N) in *. set (hi := Z.min (h + len * N) (u + (2 * Z.of_nat B * s + 1) * N)).
  assert (TA : trk h len nch x (on_array (file_mem fl) 0 r)) by (destruct T; constructor; assumption).
  pose proof (reach_nonneg r) as RG. pose proof (trk_reach h len nch x s FIT FX X0 XS S1 SN r T) as RS.
  assert (RATE : fle f0 (f_of_d x) = true).
  { apply rate_single_sign; [exact FX|]. split; [exact X0|]. apply Rle_trans with (1 := XS). apply IZR_le. nia. }
  assert (HI : 2 * hi <= fsize fl) by (unfold hi; lia).
  assert (HB : blk c (hi - 1) < J + Z.of_nat (c_nbuf c)).
  { apply Z.lt_le_trans with (blk c u + Z.of_nat (c_nbuf c)); [|lia]. replace (blk c u + Z.of_nat (c_nbuf c)) with (blk c u + (Z.of_nat (c_nbuf c) - 1) + 1) by lia.
    apply blk_span; [exact C|]. unfold hi. lia. }
  pose proof E as E0. unfold r_read in E0. rewrite (t_play _ _ _ _ _ TA) in E0. cbn [negb] in E0. rewrite (t_nch _ _ _ _ _ TA) in E0. destruct (Z.ltb_spec N 0); [lia|].
  destruct (trk_loop h len nch x s FIT FX X0 XS S1 SN (file_mem fl) (part_mem fl lo hi) 0 (- (2 * lo)) lo hi (fun i v => file_part lo hi i v L0 HI)
    n F F (on_array (file_mem fl) 0 r) l ra TA eq_refl) as (EP & T1 & SR1 & PH1 & CS); [apply Z.le_refl| |exact E0|].
  { change (r_pos1 (on_array (file_mem fl) 0 r)) with (r_pos1 r). change (r_rem (on_array (file_mem fl) 0 r)) with (r_rem r). unfold hi.
    destruct n as [|n]; [|apply Z.min_glb; [lia|]; apply Z.le_trans with (1 := Z.le_min_r _ _); nia].
    assert (r_pos1 r + (nz (r_rem r) + (Z.of_nat 0 - 1) * s + 1) * N <= u + (2 * Z.of_nat B * s + 1) * N) by nia. lia. }
  rewrite re_on in EP.
  assert (EP2 : r_read F (on_array (part_mem fl lo hi) (- (2 * lo)) r) (Z.of_nat n) = Ok (l, re (part_mem fl lo hi) (- (2 * lo)) ra)).
  { unfold r_read. change (r_playing (on_array (part_mem fl lo hi) (- (2 * lo)) r)) with (r_playing r). rewrite (t_play _ _ _ _ _ T).
    change (r_nch (on_array (part_mem fl lo hi) (- (2 * lo)) r)) with (r_nch r). rewrite (t_nch _ _ _ _ _ T). cbn [negb]. destruct (Z.ltb_spec N 0); [lia|]. exact EP. }
  assert (M : mir (part_mem fl lo hi) (- (2 * lo)) (r_kind r) (seen J m lo) (on_array (part_mem fl lo hi) (- (2 * lo)) r) r).
  { split; [reflexivity|]. exists f. split; [split; [exact W|exists None; auto]|]. now apply src_set_self. }
  pose proof (kind_read _ _ _ _ _ E) as KK. change (r_kind (on_array (file_mem fl) 0 r)) with KArray in KK.
  destruct (mir_read _ _ _ _ (fun _ => False) (fun _ _ _ H => H)
    (fun g i v G H => or_introl (seen_hit J m lo hi g i v WO LJ HB L0 HI G H)) F _ _ (Z.of_nat n) M l _ EP2) as [(rf & R & _ & f' & (W' & o & MK' & BO) & RF)|[(s0 & []) _]].
  assert (RF2 : rf = src_set ra (r_kind r) (SFile f')) by (rewrite RF; destruct ra; reflexivity). clear RF.
  assert (SA : r_src ra = SArr (file_mem fl) 0) by (rewrite SR1; reflexivity).
  assert (RA : ra = on_array (file_mem fl) 0 rf) by (rewrite RF2; now apply on_array_back).
  assert (SRF : r_src rf = SFile f') by (rewrite RF2; reflexivity).
  assert (TF : trk h len nch x rf) by (rewrite RF2; now apply trk_src).
  assert (QF : r_pos1 rf = r_pos1 ra /\ r_rem rf = r_rem ra /\ reach rf = reach ra) by (rewrite RF2; repeat split).
  destruct QF as (QF1 & QF2 & QF3).
  change (r_pos1 (on_array (file_mem fl) 0 r)) with (r_pos1 r) in PH1, CS. change (r_rem (on_array (file_mem fl) 0 r)) with (r_rem r) in PH1.
  change (at_end (on_array (file_mem fl) 0 r)) with (at_end r) in CS. rewrite <- QF1, <- QF2 in PH1. rewrite <- QF1, <- QF3 in CS.
  pose proof (nz_range (r_rem r)) as NZ. pose proof (BS_pos _ C) as HBS.
  (* the reload *)
  assert (RL : forall a, o = Some a \/ o = None /\ a = O -> (a < m)%nat -> 2 * ((J + Z.of_nat a) * BS c) < 2 ^ 31 ->
    exists G f2, (forall extra, r_triggerReload (G + extra) rf = Ok (rf <| r_src := SFile f2 |>)) /\ win c fl (J + Z.of_nat a) m f2 /\ win_ok c fl (J + Z.of_nat a) m /\ marks None f2).
  { intros a OA AM AB. assert (OA2 : match o with Some a => a | None => O end = a) by (destruct OA as [->|[-> ->]]; reflexivity).
    destruct (win_reload c fl (f_of_d x) J m f' o C FS RATE W' WO MK') as (G & f2 & EG & W2 & WO2 & MK2); rewrite ?OA2 in *; auto.
    exists G, f2. split; [|auto]. intros extra. unfold r_triggerReload. rewrite SRF, (t_rate _ _ _ _ _ TF), EG. reflexivity. }
  assert (JB : 2 * (J * BS c) < 2 ^ 31) by (destruct WO as (_ & _ & Q & _); lia).
  assert (RB : forall f2, trk h len nch x (rf <| r_src := SFile f2 |>)) by (intro; destruct TF; constructor; assumption).
  assert (QUIET : n = O \/ at_end r = true -> rf = r).
  { intros [ -> |AE].
    - unfold r_read in R. rewrite (t_play _ _ _ _ _ T), (t_nch _ _ _ _ _ T) in R. cbn [negb] in R. destruct (Z.ltb_spec N 0); [lia|].
      destruct F; cbn in R; apply Ok_inj, pair_equal_spec in R; destruct R; congruence.
    - unfold r_read in R. rewrite (t_play _ _ _ _ _ T), (t_nch _ _ _ _ _ T) in R. cbn [negb] in R. destruct (Z.ltb_spec N 0); [lia|].
      destruct F as [|F]; cbn [read_loop] in R; destruct (Z.leb_spec (Z.of_nat n) 0); try discriminate; try (apply Ok_inj, pair_equal_spec in R; destruct R; congruence).
      rewrite frame_end in R; auto; [|apply T|rewrite (t_nch _ _ _ _ _ T); lia|apply T]. rewrite self_cfst in R by apply T. cbn [bind] in R.
      apply Ok_inj, pair_equal_spec in R. destruct R; congruence. }
  destruct (Nat.eq_dec n 0) as [N0|N0]; [|destruct (at_end r) eqn:AE].
  1, 2: rewrite (QUIET ltac:(tauto)) in *; assert (FF : f' = f) by congruence; subst f';
    destruct (RL O) as (G & f2 & EG & W2 & WO2 & MK2);
      [destruct o as [a|]; [exfalso; destruct BO as [BA _]; destruct (nth_error (i_bufs f) a) as [b|] eqn:NA;
         [pose proof (MK a b NA) as Q1; pose proof (proj2 (MK' a b NA) eq_refl) as Q2; cbn in Q1; congruence|apply nth_error_None in NA; pose proof (wi_len _ _ _ _ _ W); lia]|right; auto]
      |destruct WO; lia|rewrite Z.add_0_r; exact JB|];
    rewrite Z.add_0_r in W2, WO2; exists r, G, (r <| r_src := SFile f2 |>), J, u; split; [exact R|]; split; [exact RA|]; split; [exact EG|]; split; [rewrite RA; reflexivity|];
    split; [apply RB|]; split; [exists f2; auto|]; split; [exact WO2|]; auto.
  destruct CS as [CS|[CS|CS]]; [lia|discriminate|].
  assert (AE2 := AE). rewrite (trk_end h len nch x FIT FX X0 r T) in AE2. apply Z.leb_gt in AE2.
  destruct (t_pos _ _ _ _ _ T) as (q & Q0 & PQ).
  assert (P32 : in_s32 (r_pos1 r)) by (unfold in_s32; nia).
  destruct (first_access F (Z.of_nat n) r f l rf SR) as (f2 & SR2 & GT); auto; [apply T|rewrite (t_nch _ _ _ _ _ T); lia|lia|apply T|].
  assert (f2 = f') by congruence. subst f2.
  assert (LQ : lo <= r_pos1 r) by (unfold lo; nia).
  assert (INF : in_file fl (r_pos1 r)) by (split; nia).
  assert (PH : r_pos1 r < hi).
  { unfold hi. apply Z.min_glb_lt; [lia|]. pose proof (ar1 (Z.of_nat B) s N ltac:(lia) S1 ltac:(lia)). pose proof (Z.mul_nonneg_nonneg (nz (r_rem r)) N ltac:(lia) ltac:(lia)). lia. }
  pose proof (blk_mono c C _ _ LQ) as BQ. pose proof (blk_mono c C (r_pos1 r) (hi - 1) ltac:(lia)) as BQ2.
  destruct (win_get_any c fl J m f (r_pos1 r) None C FS W WO MK INF ltac:(lia)) as (f1 & EG & W1 & A1 & _ & b & NB1 & ST).
  rewrite EG in GT. cbn [snd] in GT. destruct (gets_read_kept _ _ GT _ _ NB1 ST) as (b' & NB2 & ST2).
  destruct o as [a|].
  2:{ exfalso. pose proof (MK' _ _ NB2) as Q. cbn in Q. congruence. }
  destruct BO as [AM AL].
  assert (AA : J + Z.of_nat a <= blk c (r_pos1 r)).
  { destruct (Nat.lt_ge_cases (Z.to_nat (blk c (r_pos1 r) - J)) a) as [LT|GE]; [|lia]. exfalso. pose proof (proj1 (MK' _ _ NB2) LT). congruence. }
  pose proof (blk_mod c (r_pos1 r) C) as BM. pose proof (mod_BS c (r_pos1 r) C) as MB.
  assert (AB : 2 * ((J + Z.of_nat a) * BS c) < 2 ^ 31).
  { pose proof (Z.mul_le_mono_nonneg_r _ _ (BS c) ltac:(lia) AA). lia. }
  destruct (RL a (or_introl eq_refl) AM AB) as (G & f2 & EG2 & W2 & WO2 & MK2).
  exists rf, G, (rf <| r_src := SFile f2 |>), (J + Z.of_nat a), lo. split; [exact R|]. split; [exact RA|]. split; [exact EG2|]. split; [rewrite RA; reflexivity|].
  split; [apply RB|]. split; [exists f2; auto|]. split; [exact WO2|]. split; [exact L0|]. split; [exact AL|].
  change (r_pos1 (rf <| r_src := SFile f2 |>)) with (r_pos1 rf). change (r_rem (rf <| r_src := SFile f2 |>)) with (r_rem rf).
  change (reach (rf <| r_src := SFile f2 |>)) with (reach rf).
  pose proof (blk_mono c C _ _ CS). split; [lia|]. split; [lia|]. unfold lo.
  apply (ar2 _ _ _ _ _ _ _ _ PH1); try lia.
Qed.

(* Sessions of any length *)
Lemma track_session : forall ns J u m r F bs ra, Forall (fun n => (n <= B)%nat) ns -> ready J u m r ->
  read_seq F (on_array (file_mem fl) 0 r) ns = Ok (bs, ra) ->
  exists G r', serviced G r ns = Ok (bs, r') /\ ra = on_array (file_mem fl) 0 r' /\ misses r' = 0.
Proof.
  induction ns as [|n ns IH]; intros J u m r F bs ra FN RD E.
  - cbn in E. apply Ok_inj, pair_equal_spec in E. destruct E as [<- <-]. exists O, r. split; [reflexivity|]. split; [reflexivity|].
    destruct RD as (_ & (f & SR & W & _) & _). unfold misses. rewrite SR. apply W.
  - inversion FN as [|? ? N1 N2]; subst. cbn [read_seq] in E. apply bind_ok in E. destruct E as ([l r1] & E1 & E).
    apply bind_ok in E. destruct E as ([bs2 r2] & E2 & E). apply Ok_inj, pair_equal_spec in E. destruct E as [<- <-].
    destruct (track_update n J u m r F l r1 N1 RD E1) as (r' & G & r3 & J' & u' & R1 & RA & RL & RA2 & RD2).
    rewrite <- RA2 in E2. destruct (IH J' u' m r3 F bs2 r2 N2 RD2 E2) as (G2 & r4 & S4 & RA4 & M4).
    exists (F + (G + G2))%nat, r4. split; [|auto]. cbn [serviced].
    rewrite (r_read_fuel F (F + (G + G2)) _ _ _ ltac:(lia) R1). cbn [bind].
    replace (F + (G + G2))%nat with (G + (F + G2))%nat by lia. rewrite RL. cbn [bind].
    rewrite (serviced_fuel ns G2 (G + (F + G2))%nat r3 (bs2, r4)); [reflexivity|lia|exact S4|].
    intros a b X. apply (r_reload_fuel c G2 _ a b); [lia|exact X].
Qed.
End Files.
