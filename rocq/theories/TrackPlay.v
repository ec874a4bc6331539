(* Opening a file with an interpolator set, and what forward playback at rates up to 1
   then delivers (C16, C82-C84). *)

From Coq Require Import ZArith Lia List Bool Reals Lra.
From RecordUpdate Require Import RecordUpdate.
From Flocq Require Import Core.Core IEEE754.BinarySingleNaN.
From Verif Require Import Machine Floats FloatFacts WavModel InterpModel CacheModel ReaderModel ReaderFacts ReaderSpec Sessions StreamFacts Walk ForwardProofs PlayProofs
  CacheFacts CacheSpec CacheProofs FileSpec WindowProofs FileProofs FilePlay FileForward FadeProofs FadeLoop CubicProofs QuadProofs InterpSafe InterpWalk InterpCases
  MirrorSpec MirrorProofs MirrorFinal PartProofs TrackProofs TrackFinal TrackSpec.
Import ListNotations.
Local Open Scope Z_scope.

(* ---- opening ------------------------------------------------------------------- *)

Lemma copy_loop_interp : forall r i, copy_loop (setInterpolationType r i) = setInterpolationType (copy_loop r) i.
Proof. intros [] i. unfold copy_loop, setLoopType, setLoopStart, setLoopFinish. cbn. destruct r_src; reflexivity. Qed.
Lemma open_src_interp : forall r i fs f p g, open_src (setInterpolationType r i) fs f p g = setInterpolationType (open_src r fs f p g) i.
Proof. intros [] i fs f p g. unfold open_src. cbn. destruct r_loop; reflexivity. Qed.
Lemma start_interp : forall r i, start_file (setInterpolationType r i) = ('(b, x) <- start_file r ;; Ok (b, setInterpolationType x i)).
Proof.
  intros r i. unfold start_file. rewrite reset_interp. destruct (r_reset r) as [r1| |]; cbn [bind]; try reflexivity.
  change (r_src (setInterpolationType r1 i)) with (r_src r1). destruct (r_src r1) as [| |g]; cbn [bind]; try reflexivity.
  change (r_pos1 (setInterpolationType r1 i)) with (r_pos1 r1). change (r_rate (setInterpolationType r1 i)) with (r_rate r1).
  destruct (preLoadBuffers _ _ _) as [[t g']| |]; cbn [bind]; reflexivity.
Qed.
Lemma open_interp : forall r i f p g, play_open (setInterpolationType r i) f p g = ('(b, x) <- play_open r f p g ;; Ok (b, setInterpolationType x i)).
Proof.
  intros r i f p g. unfold play_open. change (r_fsize (setInterpolationType r i)) with (r_fsize r). change (r_hdr (setInterpolationType r i)) with (r_hdr r).
  change (r_fsamples (setInterpolationType r i)) with (r_fsamples r). change (r_nch (setInterpolationType r i)) with (r_nch r).
  destruct (_ <=? _); [reflexivity|]. destruct (sdiv32 _ _) as [fs| |]; cbn [bind]; try reflexivity.
  rewrite open_src_interp, copy_loop_interp. apply start_interp.
Qed.

Lemma open_points : forall r f p g r', play_open r f p g = Ok (true, r') -> r_pts r' = r_pts r /\ forall c, 0 <= c < 8 -> r_npts r' c = 0.
Proof.
  intros r f p g r' E. unfold play_open in E. destruct (_ <=? _); [apply Ok_inj, pair_equal_spec in E; destruct E; discriminate|].
  apply bind_ok in E. destruct E as (fs & _ & E).
  assert (P : r_pts (copy_loop (open_src r fs f p g)) = r_pts r) by (unfold copy_loop, open_src, setLoopType, setLoopStart, setLoopFinish; destruct (r_loop r); reflexivity).
  revert P E. generalize (copy_loop (open_src r fs f p g)). intros q P E. unfold start_file in E.
  apply bind_ok in E. destruct E as (q1 & R & E). pose proof (reset_points q q1) as Z. assert (P1 : r_pts q1 = r_pts q).
  { unfold r_reset in R. apply bind_ok in R. destruct R as (x & _ & R). apply Ok_inj in R. rewrite <- R. reflexivity. }
  destruct (r_src q1) as [| |h]; try discriminate. apply bind_ok in E. destruct E as ([t h'] & _ & E). apply Ok_inj, pair_equal_spec in E. destruct E as [_ <-].
  split; [change (r_pts q1 = r_pts r); congruence|]. intros c C. exact (Z c R C).
Qed.

Lemma room_blk : forall c i w, cfg_ok c -> 0 <= w <= i mod BS c -> blk c (i - w) = blk c i.
Proof.
  intros c i w C W. pose proof (mod_BS c i C). pose proof (blk_mod c i C). unfold blk at 1. pose proof (BS_pos _ C).
  replace (i - w) with (blk c i * BS c + (i mod BS c - w)) by lia. rewrite Z.div_add_l by lia. rewrite Z.div_small by lia. lia.
Qed.

Lemma open_track : forall r fl fsam nch h len p garbage i ps pb s B, cfg_ok (r_cfg r) ->
  interp_settings i r LNone ps pb -> r_nch r = Z.of_nat nch -> r_hdr r = h -> r_fsize r = fsize fl ->
  r_fsamples r = fsam -> 0 <= fsam -> len = fsam / Z.of_nat nch -> file_holds fl h len nch ->
  (ps = PArbitrary -> 0 <= pb <= len) -> fin64 (r_rate r) = true -> (0 <= R64 (r_rate r) <= IZR s)%R -> 1 <= s -> (s + 1) * Z.of_nat nch <= 2 ^ 30 ->
  let p0 := start_frame ps pb in start_room (r_cfg r) i s h p0 nch ->
  exists r' J m, play_open r fl p garbage = Ok (true, r') /\ ready (r_cfg r) fl h len nch (r_rate r) s B J (h + p0 * Z.of_nat nch) m r' /\
    r_interp r' = i /\ fwd_inv h len nch p0 (r_rate r) 0 (setInterpolationType r' INone) /\ r_pts r' = r_pts r /\ (forall c, 0 <= c < 8 -> r_npts r' c = 0).
Proof.
  intros r fl fsam nch h len p garbage i ps pb s B C (I & BSET) NC HH FZ FQ FQ0 LEN FH PB FX [X0 XS] S1 SN p0 SR.
  destruct (open_state (setInterpolationType r INone) fl fsam nch h len p garbage LNone ps pb C BSET NC HH FZ FQ FQ0 LEN FH PB (fun _ => eq_refl) FX X0)
    as (r' & g & E & PL & RT & FS & LP & RM & PS & PO & _ & _ & SRC & W).
  specialize (W eq_refl). destruct W as (m & f & SF & W & WO & MK & _). change (r_cfg (setInterpolationType r INone)) with (r_cfg r) in *.
  pose proof (open_interp (setInterpolationType r INone) i fl p garbage) as OI. rewrite E in OI. cbn [bind] in OI. rewrite (interp_set r i I) in OI.
  destruct (open_points _ _ _ _ _ OI) as [PT NP]. fold p0 in PO, W, WO.
  assert (P0 : 0 <= p0) by (unfold p0, start_frame; destruct ps; [lia|lia|apply (PB eq_refl)]).
  destruct BSET as (B1 & B2 & B3 & B4 & B5 & B6 & B7). change (r_rem (setInterpolationType r INone)) with (r_rem r) in *. change (r_rate (setInterpolationType r INone)) with (r_rate r) in *.
  pose proof FH as ((H1 & H2 & H3 & H4 & H5) & HS & _).
  assert (T : trk h len nch (r_rate r) (setInterpolationType r' i)).
  { destruct PL. constructor; try assumption.
    - change (fin64 (r_rem r') = true). now rewrite RM.
    - change (0 <= R64 (r_rem r') <= 1)%R. rewrite RM, B7. lra.
    - exists p0. split; [exact P0|]. exact PO. }
  exists (setInterpolationType r' i), (blk (r_cfg r) (h + p0 * Z.of_nat nch)), m. split; [exact OI|].
  assert (R' : setInterpolationType (setInterpolationType r' i) INone = r').
  { rewrite interp_twice, <- (pl_int _ _ _ PL). destruct r'; reflexivity. }
  set (q := h + p0 * Z.of_nat nch) in *.
  pose proof (reach_nonneg (setInterpolationType r' i)) as RN. pose proof (trk_reach h len nch (r_rate r) s (proj1 FH) FX X0 XS S1 SN _ T) as RS.
  assert (NZ0 : nz (r_rem r') = 0).
  { unfold nz. rewrite dlt_R by (auto using fin_d0; rewrite RM; exact B6). rewrite R64_d0, RM, B7. now rewrite Rlt_bool_false by lra. }
  assert (RZ : i = ILinear -> reach (setInterpolationType r' i) = 0).
  { intros ->. unfold reach. change (r_interp (setInterpolationType r' ILinear)) with ILinear. cbn iota. change (r_rem (setInterpolationType r' ILinear)) with (r_rem r').
    replace (dlt d0 (dabs (r_rem r'))) with false; [now rewrite andb_false_r|]. symmetry.
    rewrite dlt_R by (rewrite ?fin_abs, ?RM; auto using fin_d0). rewrite R64_d0, R64_abs, RM, B7, Rabs_R0. now rewrite Rlt_bool_false by lra. }
  assert (RR : 0 <= reach (setInterpolationType r' i) * Z.of_nat nch <= q mod BS (r_cfg r) /\ reach (setInterpolationType r' i) <= p0).
  { pose proof (mod_BS (r_cfg r) q C) as MB. destruct (Z.eq_dec (reach (setInterpolationType r' i)) 0) as [R0|R0]; [rewrite R0; lia|].
    destruct i; [exfalso; apply R0; reflexivity|exfalso; auto|]. destruct (SR eq_refl ltac:(lia)) as [SR1 SR2]. fold q in SR2. nia. }
  split; [|split; [reflexivity|split; [|split; [exact PT|exact NP]]]].
  - split; [exact T|]. split; [exists f; auto|]. split; [exact WO|]. change (r_pos1 (setInterpolationType r' i)) with (r_pos1 r'). rewrite PO.
    change (r_rem (setInterpolationType r' i)) with (r_rem r'). rewrite NZ0. pose proof (blk_mod (r_cfg r) q C) as BM.
    assert (Q0 : 0 <= q) by (unfold q; nia). split; [exact Q0|]. split; [lia|]. split; [unfold q; nia|]. split; [rewrite room_blk by tauto; lia|]. nia.
  - rewrite R'. constructor; auto.
    + now rewrite RM.
    + rewrite RM, B7. fold (whole (r_rate r) 0) (part (r_rate r) 0). now rewrite part_0.
    + rewrite PO. fold (whole (r_rate r) 0). rewrite whole_0. unfold q. lia.
Qed.

(* ---- file playback and array playback ----------------------------------------------- *)

Lemma ready_like : forall c fl h len nch x s B J u m r, cfg_ok c -> file_holds fl h len nch -> fin64 x = true -> (0 <= R64 x <= IZR s)%R -> 1 <= s -> (s + 1) * Z.of_nat nch <= 2 ^ 30 ->
  room c nch B s -> ready c fl h len nch x s B J u m r -> like_array B fl r.
Proof.
  intros c fl h len nch x s B J u m r C FH FX [X0 XS] S1 SN KU RD ns F bs ra NS E.
  destruct (track_session c fl h len nch x s B C FH FX X0 XS S1 SN KU ns J u m r F bs ra NS RD E) as (G & r' & S & RA & M).
  exists G, r'. auto.
Qed.

Lemma settings_interp : forall r r1 i l ps pb,
  (r_dual r1, r_interp r1, r_loop r1, r_pstart r1, r_pbstart r1, r_rem r1, r_ls r1, r_lf r1) =
  (r_dual r, r_interp r, r_loop r, r_pstart r, r_pbstart r, r_rem r, r_ls r, r_lf r) ->
  interp_settings i r l ps pb -> interp_settings i r1 l ps pb.
Proof.
  intros r r1 i l ps pb E (I & B1 & B2 & B3 & B4 & B5 & B6 & B7). split; [congruence|]. unfold basic_settings in *.
  change (r_rem (setInterpolationType r INone)) with (r_rem r) in *. change (r_rem (setInterpolationType r1 INone)) with (r_rem r1) in *.
  assert (Q : r_rem r1 = r_rem r) by congruence. rewrite Q. cbn in B1, B3, B4, B5. repeat split; auto; cbn; congruence.
Qed.

(* The remembered points are not touched by playing a file *)
Lemma file_points : forall r fo w n st g r', r_play_file r fo w n st g = Ok (true, r') -> r_pts r' = r_pts r.
Proof.
  intros r fo w n st g r' E. unfold r_play_file in E.
  assert (C : r_pts (if w then r_close r else setNumChannels (r_close r) n) = r_pts r) by (unfold r_close, setNumChannels; destruct w, (r_kind r); reflexivity).
  revert C E. generalize (if w then r_close r else setNumChannels (r_close r) n). intros q C E. cbv zeta in E.
  destruct (match r_kind _ with KArray => _ | _ => _ end) as [f|]; [|apply Ok_inj, pair_equal_spec in E; destruct E; discriminate].
  apply bind_ok in E. destruct E as ([o q1] & H & E). destruct o as [p|]; [|apply Ok_inj, pair_equal_spec in E; destruct E; discriminate].
  destruct (open_points _ _ _ _ _ E) as [P _]. rewrite P, <- C. destruct w; [|apply Ok_inj, pair_equal_spec in H; destruct H as [_ <-]; reflexivity].
  unfold play_header in H. apply bind_ok in H. destruct H as ([b hd] & _ & H). destruct (negb _); [apply Ok_inj, pair_equal_spec in H; destruct H; discriminate|].
  cbv zeta in H. apply bind_ok in H. destruct H as (t & _ & H). destruct t; [|apply Ok_inj, pair_equal_spec in H; destruct H; discriminate].
  apply bind_ok in H. destruct H as (d & _ & H). destruct d; apply Ok_inj, pair_equal_spec in H; destruct H as [X <-]; [reflexivity|discriminate].
Qed.

(* playRaw and playWav as instances of one opening *)
Lemma raw_opens : forall r fl nch stack garbage i ps pb s B, cfg_ok (r_cfg r) -> r_kind r <> KArray ->
  interp_settings i r LNone ps pb -> r_hdr r = 0 -> (1 <= nch)%nat -> Z.of_nat nch < 2 ^ 15 -> 0 < fsize fl < 2 ^ 31 ->
  let len := fsize fl / 2 / Z.of_nat nch in
  (ps = PArbitrary -> 0 <= pb <= len) -> fin64 (r_rate r) = true -> (0 <= R64 (r_rate r) <= IZR s)%R -> 1 <= s -> (s + 1) * Z.of_nat nch <= 2 ^ 30 ->
  let p0 := start_frame ps pb in start_room (r_cfg r) i s 0 p0 nch ->
  file_holds fl 0 len nch /\
  exists r' J m, r_play_file r (Some fl) false (Z.of_nat nch) stack garbage = Ok (true, r') /\ ready (r_cfg r) fl 0 len nch (r_rate r) s B J (0 + p0 * Z.of_nat nch) m r' /\
    r_interp r' = i /\ fwd_inv 0 len nch p0 (r_rate r) 0 (setInterpolationType r' INone) /\ r_pts r' = r_pts r /\ (forall c, 0 <= c < 8 -> r_npts r' c = 0).
Proof.
  intros r fl nch stack garbage i ps pb s B C K IS HH N1 NB S len PB FX X S1 SN p0 SR.
  destruct (play_raw_open r fl (Z.of_nat nch) stack garbage K ltac:(lia) ltac:(lia)) as (r1 & E & CC & NC & HC & SC & FC & RC & SS).
  assert (LN : 0 <= len) by (unfold len; apply Z.div_pos; [apply Z.div_pos|]; lia).
  assert (L2 : 2 * (len * Z.of_nat nch) <= fsize fl).
  { unfold len. pose proof (Z.mul_div_le (fsize fl) 2 ltac:(lia)).
    pose proof (Z.mul_div_le (fsize fl / 2) (Z.of_nat nch) ltac:(lia)). lia. }
  assert (FH : file_holds fl 0 len nch) by (unfold file_holds, fits; repeat split; auto; lia).
  split; [exact FH|]. pose proof (file_points r (Some fl) false (Z.of_nat nch) stack garbage) as FP. rewrite E in *. rewrite <- RC in FX, X |- *. rewrite <- CC in C, SR |- *.
  destruct (open_track r1 fl (fsize fl / 2) nch 0 len 0 garbage i ps pb s B) as (r' & J & m & E2 & RD & I & FI & P1 & P2); auto; try congruence.
  - now apply (settings_interp r).
  - apply Z.div_pos; lia.
  - exists r', J, m. split; [exact E2|]. split; [exact RD|]. split; [exact I|]. split; [exact FI|]. split; [exact (FP r' E2)|exact P2].
Qed.
Lemma wav_opens : forall r fl nch tags n nraw stack garbage i ps pb s B, cfg_ok (r_cfg r) -> r_kind r <> KArray ->
  interp_settings i r LNone ps pb -> bytes_ok stack -> wav_file fl nch tags n -> Z.of_nat nch < 2 ^ 15 ->
  let len := n / 2 / Z.of_nat nch in let h := (44 + tags) / 2 in
  (ps = PArbitrary -> 0 <= pb <= len) -> fin64 (r_rate r) = true -> (0 <= R64 (r_rate r) <= IZR s)%R -> 1 <= s -> (s + 1) * Z.of_nat nch <= 2 ^ 30 ->
  let p0 := start_frame ps pb in start_room (r_cfg r) i s h p0 nch ->
  file_holds fl h len nch /\
  exists r' J m, r_play_file r (Some fl) true nraw stack garbage = Ok (true, r') /\ ready (r_cfg r) fl h len nch (r_rate r) s B J (h + p0 * Z.of_nat nch) m r' /\
    r_interp r' = i /\ fwd_inv h len nch p0 (r_rate r) 0 (setInterpolationType r' INone) /\ r_pts r' = r_pts r /\ (forall c, 0 <= c < 8 -> r_npts r' c = 0).
Proof.
  intros r fl nch tags n nraw stack garbage i ps pb s B C K IS BST WF NB len h PB FX X S1 SN p0 SR.
  destruct (play_wav_open r fl nch tags n nraw stack garbage K BST WF NB) as (r1 & E & CC & NC & HC & SC & FC & RC & SS).
  destruct (wav_file_plays fl nch tags n WF) as (_ & _ & _ & E2 & N0).
  destruct WF as (_ & _ & _ & _ & N1 & _ & _ & T0 & SZ & SL).
  assert (LN : 0 <= len) by (unfold len; apply Z.div_pos; [apply Z.div_pos|]; lia).
  assert (L2 : 2 * (len * Z.of_nat nch) <= n).
  { unfold len. pose proof (Z.mul_div_le n 2 ltac:(lia)).
    pose proof (Z.mul_div_le (n / 2) (Z.of_nat nch) ltac:(lia)). lia. }
  assert (FH : file_holds fl h len nch) by (unfold file_holds, fits, h; repeat split; auto; lia).
  split; [exact FH|]. pose proof (file_points r (Some fl) true nraw stack garbage) as FP. rewrite E in *. rewrite <- RC in FX, X |- *. rewrite <- CC in C, SR |- *.
  destruct (open_track r1 fl (n / 2) nch h len (44 + tags) garbage i ps pb s B) as (r' & J & m & E3 & RD & I & FI & P1 & P2); auto; try congruence.
  - now apply (settings_interp r).
  - apply Z.div_pos; lia.
  - exists r', J, m. split; [exact E3|]. split; [exact RD|]. split; [exact I|]. split; [exact FI|]. split; [exact (FP r' E3)|exact P2].
Qed.

Theorem raw_like_array : forall r fl nch stack garbage i ps pb s B, cfg_ok (r_cfg r) -> r_kind r <> KArray ->
  interp_settings i r LNone ps pb -> r_hdr r = 0 -> (1 <= nch)%nat -> Z.of_nat nch < 2 ^ 15 -> 0 < fsize fl < 2 ^ 31 ->
  let len := fsize fl / 2 / Z.of_nat nch in
  (ps = PArbitrary -> 0 <= pb <= len) -> fin64 (r_rate r) = true -> (0 <= R64 (r_rate r) <= IZR s)%R -> 1 <= s -> (s + 1) * Z.of_nat nch <= 2 ^ 30 ->
  start_room (r_cfg r) i s 0 (start_frame ps pb) nch -> room (r_cfg r) nch B s ->
  exists r', r_play_file r (Some fl) false (Z.of_nat nch) stack garbage = Ok (true, r') /\ like_array B fl r'.
Proof.
  intros r fl nch stack garbage i ps pb s B C K IS HH N1 NB S len PB FX X S1 SN SR RO.
  destruct (raw_opens r fl nch stack garbage i ps pb s B C K IS HH N1 NB S PB FX X S1 SN SR) as (FH & r' & J & m & E & RD & _).
  exists r'. split; [exact E|]. eapply ready_like; eauto.
Qed.
Theorem wav_like_array : forall r fl nch tags n nraw stack garbage i ps pb s B, cfg_ok (r_cfg r) -> r_kind r <> KArray ->
  interp_settings i r LNone ps pb -> bytes_ok stack -> wav_file fl nch tags n -> Z.of_nat nch < 2 ^ 15 ->
  let len := n / 2 / Z.of_nat nch in let h := (44 + tags) / 2 in
  (ps = PArbitrary -> 0 <= pb <= len) -> fin64 (r_rate r) = true -> (0 <= R64 (r_rate r) <= IZR s)%R -> 1 <= s -> (s + 1) * Z.of_nat nch <= 2 ^ 30 ->
  start_room (r_cfg r) i s h (start_frame ps pb) nch -> room (r_cfg r) nch B s ->
  exists r', r_play_file r (Some fl) true nraw stack garbage = Ok (true, r') /\ like_array B fl r'.
Proof.
  intros r fl nch tags n nraw stack garbage i ps pb s B C K IS BST WF NB len h PB FX X S1 SN SR RO.
  destruct (wav_opens r fl nch tags n nraw stack garbage i ps pb s B C K IS BST WF NB PB FX X S1 SN SR) as (FH & r' & J & m & E & RD & _).
  exists r'. split; [exact E|]. eapply ready_like; eauto.
Qed.

(* ---- rates up to 1: what is delivered -------------------------------------------------- *)

Lemma ready_slow : forall c fl h len nch x i B J u m r (old : nat -> Z) p0, cfg_ok c -> file_holds fl h len nch -> (nch <= 8)%nat -> i <> INone -> grid_rate x -> (0 < R64 x <= 1)%R -> 0 <= p0 ->
  room c nch B 1 -> ready c fl h len nch x 1 B J u m r -> r_interp r = i -> fwd_inv h len nch p0 x 0 (setInterpolationType r INone) ->
  (forall q, 0 <= q < 8 -> r_npts r q = 0) -> (forall q, old q = y1 (r_pts r (Z.of_nat q))) ->
  file_delivers B r (slow_stream len p0 (R64 x) (fun k => map (late (file_mem fl) (2 * h) nch p0 x i old (canon x k) k) (seq 0 nch))).
Proof.
  intros c fl h len nch x i B J u m r old p0 C FH NC NI G X P0 RO RD I FI NP OLD. pose proof FH as (FIT & HS & HF).
  pose proof FIT as (H1 & H2 & H3 & H4 & H5).
  assert (LA : like_array B fl r). { apply (ready_like c fl h len nch x 1 B J u m r); auto; try apply G; try lra; lia. }
  assert (AH : array_holds (file_mem fl) (2 * h) len nch).
  { unfold array_holds, file_mem. cbn [msize]. repeat split; auto; lia. }
  pose (ra := on_array (file_mem fl) 0 r).
  assert (LI : linv (file_mem fl) (2 * h) h len nch p0 x i old 0 ra).
  { split; [split; [|split]|].
    - destruct FI as [PL ? ? ? ? ? ?]. constructor; try assumption. destruct PL. constructor; assumption.
    - exact I.
    - unfold ra, on_array. cbn. f_equal. lia.
    - intros _ q Hq. cbn [before]. unfold met. change (r_npts ra) with (r_npts r). change (r_pts ra) with (r_pts r). rewrite NP by lia.
      destruct i; auto; repeat split; intros; try lia. symmetry. apply OLD. }
  assert (D : delivers ra (slow_stream len p0 (R64 x) (fun k => map (late (file_mem fl) (2 * h) nch p0 x i old (canon x k) k) (seq 0 nch)))).
  { apply (follows_delivers (linv (file_mem fl) (2 * h) h len nch p0 x i old)); [apply l_follows; auto|exact LI]. }
  intros ns NS. destruct (D ns) as (F & ra' & E). destruct (LA ns F _ _ NS E) as (F' & r' & S & _ & M). exists F', r'. split; [exact S|].
  rewrite M. destruct RD as (_ & (f & SF & W & _) & _). unfold misses. rewrite SF. symmetry. apply W.
Qed.

Lemma file_chan_smp : forall fl h nch c p, (c < nch)%nat -> file_chan fl h nch c p = smp (file_mem fl) (2 * h) nch p c.
Proof.
  intros fl h nch c p C. unfold file_chan, file_frame. rewrite (nth_indep _ 0 (file_sample fl (h + p * Z.of_nat nch + Z.of_nat 0))) by (now rewrite map_length, seq_length).
  rewrite (map_nth (fun c => file_sample fl (h + p * Z.of_nat nch + Z.of_nat c))), seq_nth by auto. unfold smp, src_sample, file_sample, file_mem. cbn [mbyte Nat.add].
  f_equal. ring.
Qed.
Lemma nth_chans : forall nch (g : nat -> Z) c, (c < nch)%nat -> nth c (map g (seq 0 nch)) 0 = g c.
Proof. intros nch g c C. rewrite (nth_indep _ 0 (g O)) by (now rewrite map_length, seq_length). now rewrite map_nth, seq_nth by auto. Qed.

Lemma slow_linear : forall B fl h len nch p0 x old r, (0 <= R64 x)%R -> grid_rate x ->
  file_delivers B r (slow_stream len p0 (R64 x) (fun k => map (late (file_mem fl) (2 * h) nch p0 x ILinear old (canon x k) k) (seq 0 nch))) ->
  file_linear B fl h len nch p0 (R64 x) old r.
Proof.
  intros B fl h len nch p0 x old r X G D. eexists. split; [exact D|]. intros k t K. split; [now rewrite map_length, seq_length|]. intros c C.
  rewrite nth_chans by exact C. destruct (canon_ok _ k (grid_part x k G)) as [C1 C2]. split.
  - intros ->. unfold late. rewrite part_0, Req_bool_true, whole_0 by reflexivity. reflexivity.
  - pose proof (late_linear (file_mem fl) (2 * h) nch p0 x old _ k c C1 C2 X) as L. unfold linear_sample in *. rewrite !file_chan_smp by exact C. exact L.
Qed.
Lemma slow_cubic : forall B fl h len nch p0 x old r, (0 <= R64 x)%R -> grid_rate x ->
  file_delivers B r (slow_stream len p0 (R64 x) (fun k => map (late (file_mem fl) (2 * h) nch p0 x IQuadratic old (canon x k) k) (seq 0 nch))) ->
  file_cubic B fl h len nch p0 (R64 x) r.
Proof.
  intros B fl h len nch p0 x old r X G D. eexists. split; [exact D|]. intros k t K. split; [now rewrite map_length, seq_length|]. intros c C.
  rewrite nth_chans by exact C. destruct (canon_ok _ k (grid_part x k G)) as [C1 C2].
  pose proof (late_cubic (file_mem fl) (2 * h) nch p0 x old _ k c C1 C2 X) as L. unfold cubic_sample in *. rewrite !file_chan_smp by exact C. exact L.
Qed.

Lemma clamp_s16 : forall z, in_s16 z -> clampR (IZR z) = IZR z.
Proof.
  intros z [L H]. assert (H2 : z <= 32767) by lia. change (- 2 ^ 15) with (-32768) in L. apply IZR_le in L, H2. unfold clampR, Rmin, Rmax. repeat destruct (Rle_dec _ _); lra.
Qed.

Lemma near_int : forall a b : Z, (Rabs (IZR a - IZR b) <= 1.17)%R -> Z.abs (a - b) <= 1.
Proof.
  intros a b H. rewrite <- minus_IZR, <- abs_IZR in H. assert (Z.abs (a - b) < 2); [|lia]. apply lt_IZR. lra.
Qed.

Lemma cubic_delayed : forall B fl h len nch p0 r, 0 <= p0 -> file_cubic B fl h len nch p0 1 r -> file_delayed B fl h len nch p0 r.
Proof.
  intros B fl h len nch p0 r P0 (f & D & V).
  assert (FL : forall k, Zfloor (INR k * 1) = Z.of_nat k) by (intro; rewrite Rmult_1_r, INR_IZR_INZ; apply Zfloor_IZR).
  assert (FR : forall k, (INR k * 1 - IZR (Zfloor (INR k * 1)) = 0)%R) by (intro; rewrite FL, <- INR_IZR_INZ; ring).
  exists (fun k => if (k <? 3)%nat then repeat 0 nch else f k). split; [|split].
  - intros ns NS. destruct (D ns NS) as (F & r' & S & M). exists F, r'. split; [|exact M]. rewrite S. do 2 f_equal. apply blocks_ext. intro k.
    unfold slow_stream, finite_stream. rewrite FL. destruct (Z.ltb_spec (p0 + Z.of_nat k) len), (Nat.ltb_spec k (Z.to_nat (len - p0))); try lia; try reflexivity.
    f_equal. destruct (Nat.ltb_spec k 3); [|reflexivity]. destruct (V k) as [L VC]; [now rewrite FL|].
    apply nth_ext with (d := 0) (d' := 0); [now rewrite repeat_length|]. intros c C. rewrite L in C. destruct (VC c C) as [Q _]. rewrite Q by (rewrite FL; lia). now rewrite nth_repeat.
  - intros k K. destruct (Nat.ltb_spec k 3); [reflexivity|lia].
  - intros k K KL. destruct (Nat.ltb_spec k 3); [lia|]. destruct (V k) as [L VC]; [now rewrite FL|].
    split; [rewrite L; unfold file_frame; now rewrite map_length, seq_length|]. intros c C. rewrite L in C. destruct (VC c C) as [_ Q].
    rewrite FR, FL in Q. fold (file_chan fl h nch c (p0 + Z.of_nat k - 2)).
    destruct (cubic_exists (file_chan fl h nch c (p0 + Z.of_nat k - 3)) (file_chan fl h nch c (p0 + Z.of_nat k - 2)) (file_chan fl h nch c (p0 + Z.of_nat k - 1)) (file_chan fl h nch c (p0 + Z.of_nat k)))
      as (g & G & G0 & G1 & G2 & G3).
    specialize (Q ltac:(lia) g G G0 G1 G2 G3). rewrite Rplus_0_r, G1, clamp_s16 in Q; [now apply near_int|].
    rewrite file_chan_smp by exact C. unfold smp. apply le16_range.
Qed.

(* raw files *)
Section Entry.
Variables (r : reader) (fl : file) (nch : nat) (stack : bytes) (garbage : nat -> bytes) (ps : play_start) (pb : Z) (B : nat).
Hypothesis (C : cfg_ok (r_cfg r)) (K : r_kind r <> KArray) (N8 : (nch <= 8)%nat) (G : grid_rate (r_rate r)) (X : (0 < R64 (r_rate r) <= 1)%R) (RO : room (r_cfg r) nch B 1).
Let p0 := start_frame ps pb.
Let old (c : nat) := y1 (r_pts r (Z.of_nat c)).

Lemma raw_slow : forall i, i <> INone -> interp_settings i r LNone ps pb -> r_hdr r = 0 -> (1 <= nch)%nat -> 0 < fsize fl < 2 ^ 31 ->
  let len := fsize fl / 2 / Z.of_nat nch in (ps = PArbitrary -> 0 <= pb <= len) ->
  exists r', r_play_file r (Some fl) false (Z.of_nat nch) stack garbage = Ok (true, r') /\
    file_delivers B r' (slow_stream len p0 (R64 (r_rate r)) (fun k => map (late (file_mem fl) (2 * 0) nch p0 (r_rate r) i old (canon (r_rate r) k) k) (seq 0 nch))).
Proof.
  intros i NI IS HH N1 S len PB.
  destruct (raw_opens r fl nch stack garbage i ps pb 1 B C K IS HH N1 ltac:(lia) S PB (proj1 G) ltac:(lra) ltac:(lia) ltac:(lia) ltac:(intros _ Q; lia)) as (FH & r' & J & m & E & RD & I & FI & P1 & P2).
  exists r'. split; [exact E|]. eapply ready_slow; eauto.
  - unfold p0, start_frame. destruct ps; [lia|lia|apply (PB eq_refl)].
  - intro q. unfold old. now rewrite P1.
Qed.
Lemma wav_slow : forall i tags n nraw, i <> INone -> interp_settings i r LNone ps pb -> bytes_ok stack -> wav_file fl nch tags n ->
  let len := n / 2 / Z.of_nat nch in let h := (44 + tags) / 2 in (ps = PArbitrary -> 0 <= pb <= len) ->
  exists r', r_play_file r (Some fl) true nraw stack garbage = Ok (true, r') /\
    file_delivers B r' (slow_stream len p0 (R64 (r_rate r)) (fun k => map (late (file_mem fl) (2 * h) nch p0 (r_rate r) i old (canon (r_rate r) k) k) (seq 0 nch))).
Proof.
  intros i tags n nraw NI IS BST WF len h PB.
  destruct (wav_opens r fl nch tags n nraw stack garbage i ps pb 1 B C K IS BST WF ltac:(lia) PB (proj1 G) ltac:(lra) ltac:(lia) ltac:(lia) ltac:(intros _ Q; lia)) as (FH & r' & J & m & E & RD & I & FI & P1 & P2).
  exists r'. split; [exact E|]. eapply ready_slow; eauto.
  - unfold p0, start_frame. destruct ps; [lia|lia|apply (PB eq_refl)].
  - intro q. unfold old. now rewrite P1.
Qed.

Theorem raw_linear : interp_settings ILinear r LNone ps pb -> r_hdr r = 0 -> (1 <= nch)%nat -> 0 < fsize fl < 2 ^ 31 ->
  let len := fsize fl / 2 / Z.of_nat nch in (ps = PArbitrary -> 0 <= pb <= len) ->
  exists r', r_play_file r (Some fl) false (Z.of_nat nch) stack garbage = Ok (true, r') /\ file_linear B fl 0 len nch p0 (R64 (r_rate r)) old r'.
Proof.
  intros IS HH N1 S len PB. destruct (raw_slow ILinear ltac:(discriminate) IS HH N1 S PB) as (r' & E & D). exists r'. split; [exact E|]. apply slow_linear; auto. lra.
Qed.
Theorem wav_linear : forall tags n nraw, interp_settings ILinear r LNone ps pb -> bytes_ok stack -> wav_file fl nch tags n ->
  let len := n / 2 / Z.of_nat nch in (ps = PArbitrary -> 0 <= pb <= len) ->
  exists r', r_play_file r (Some fl) true nraw stack garbage = Ok (true, r') /\ file_linear B fl ((44 + tags) / 2) len nch p0 (R64 (r_rate r)) old r'.
Proof.
  intros tags n nraw IS BST WF len PB. destruct (wav_slow ILinear tags n nraw ltac:(discriminate) IS BST WF PB) as (r' & E & D). exists r'. split; [exact E|]. apply slow_linear; auto. lra.
Qed.
Theorem raw_cubic : interp_settings IQuadratic r LNone ps pb -> r_hdr r = 0 -> (1 <= nch)%nat -> 0 < fsize fl < 2 ^ 31 ->
  let len := fsize fl / 2 / Z.of_nat nch in (ps = PArbitrary -> 0 <= pb <= len) ->
  exists r', r_play_file r (Some fl) false (Z.of_nat nch) stack garbage = Ok (true, r') /\ file_cubic B fl 0 len nch p0 (R64 (r_rate r)) r'.
Proof.
  intros IS HH N1 S len PB. destruct (raw_slow IQuadratic ltac:(discriminate) IS HH N1 S PB) as (r' & E & D). exists r'. split; [exact E|]. eapply slow_cubic; eauto. lra.
Qed.
Theorem wav_cubic : forall tags n nraw, interp_settings IQuadratic r LNone ps pb -> bytes_ok stack -> wav_file fl nch tags n ->
  let len := n / 2 / Z.of_nat nch in (ps = PArbitrary -> 0 <= pb <= len) ->
  exists r', r_play_file r (Some fl) true nraw stack garbage = Ok (true, r') /\ file_cubic B fl ((44 + tags) / 2) len nch p0 (R64 (r_rate r)) r'.
Proof.
  intros tags n nraw IS BST WF len PB. destruct (wav_slow IQuadratic tags n nraw ltac:(discriminate) IS BST WF PB) as (r' & E & D). exists r'. split; [exact E|]. eapply slow_cubic; eauto. lra.
Qed.
End Entry.

(* rate 1 *)
Theorem raw_delayed : forall r fl nch stack garbage ps pb B, cfg_ok (r_cfg r) -> r_kind r <> KArray -> (1 <= nch <= 8)%nat -> r_rate r = d1 -> room (r_cfg r) nch B 1 ->
  interp_settings IQuadratic r LNone ps pb -> r_hdr r = 0 -> 0 < fsize fl < 2 ^ 31 ->
  let len := fsize fl / 2 / Z.of_nat nch in (ps = PArbitrary -> 0 <= pb <= len) ->
  exists r', r_play_file r (Some fl) false (Z.of_nat nch) stack garbage = Ok (true, r') /\ file_delayed B fl 0 len nch (start_frame ps pb) r'.
Proof.
  intros r fl nch stack garbage ps pb B C K N R RO IS HH S len PB.
  destruct (raw_cubic r fl nch stack garbage ps pb B C K ltac:(lia) ltac:(rewrite R; apply grid_d1) ltac:(rewrite R, R64_d1; lra) RO IS HH ltac:(lia) S PB) as (r' & E & D).
  exists r'. split; [exact E|]. apply cubic_delayed; [unfold start_frame; destruct ps; [lia|lia|apply (PB eq_refl)]|]. rewrite R, R64_d1 in D. exact D.
Qed.
Theorem wav_delayed : forall r fl nch tags n nraw stack garbage ps pb B, cfg_ok (r_cfg r) -> r_kind r <> KArray -> (nch <= 8)%nat -> r_rate r = d1 -> room (r_cfg r) nch B 1 ->
  interp_settings IQuadratic r LNone ps pb -> bytes_ok stack -> wav_file fl nch tags n ->
  let len := n / 2 / Z.of_nat nch in (ps = PArbitrary -> 0 <= pb <= len) ->
  exists r', r_play_file r (Some fl) true nraw stack garbage = Ok (true, r') /\ file_delayed B fl ((44 + tags) / 2) len nch (start_frame ps pb) r'.
Proof.
  intros r fl nch tags n nraw stack garbage ps pb B C K N R RO IS BST WF len PB.
  destruct (wav_cubic r fl nch stack garbage ps pb B C K N ltac:(rewrite R; apply grid_d1) ltac:(rewrite R, R64_d1; lra) RO tags n nraw IS BST WF PB) as (r' & E & D).
  exists r'. split; [exact E|]. apply cubic_delayed; [unfold start_frame; destruct ps; [lia|lia|apply (PB eq_refl)]|]. rewrite R, R64_d1 in D. exact D.
Qed.
