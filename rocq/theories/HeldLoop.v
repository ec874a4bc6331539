(* Files that fit into the buffers loop without any reload (C138). *)

From Coq Require Import ZArith Lia List Bool Reals Lra.
From RecordUpdate Require Import RecordUpdate.
From Flocq Require Import Core.Core IEEE754.BinarySingleNaN.
From Verif Require Import Machine Floats FloatFacts WavModel InterpModel CacheModel ReaderModel ReaderFacts ReaderSpec Sessions StreamFacts Walk ForwardProofs
  CacheFacts CacheSpec CacheProofs WavSpec FileSpec WindowProofs FileProofs PlayProofs LoopSpec LoopProofs FilePlay FileForward MirrorSpec MirrorProofs MirrorFinal
  HeldSpec HeldProofs HeldPlay HeldLoopSpec.
Import ListNotations.
Local Open Scope Z_scope.

(* ---- the state after opening ------------------------------------------------------- *)

Definition opened (fl : file) (h len : Z) (nch : nat) (ps : play_start) (pb : Z) (r' : reader) : Prop :=
  file_holds fl h len nch /\ plain h nch r' /\ r_pstart r' = ps /\ r_ls r' = 0 /\ r_lf r' = len /\
  fin64 (r_rem r') = true /\ R64 (r_rem r') = 0%R /\ r_pos1 r' = h + start_frame ps pb * Z.of_nat nch.

Lemma opened_state : forall r fl fsam nch h len p garbage ps pb, cfg_ok (r_cfg r) ->
  basic_settings r LNone ps pb -> r_nch r = Z.of_nat nch -> r_hdr r = h -> r_fsize r = fsize fl ->
  r_fsamples r = fsam -> 0 <= fsam -> len = fsam / Z.of_nat nch -> file_holds fl h len nch ->
  (ps = PArbitrary -> 0 <= pb <= len) -> fin64 (r_rate r) = true -> (0 <= R64 (r_rate r))%R ->
  exists r', play_open r fl p garbage = Ok (true, r') /\ r_rate r' = r_rate r /\ opened fl h len nch ps pb r'.
Proof.
  intros r fl fsam nch h len p garbage ps pb C BSET NC HH FZ FQ FQ0 LEN FH PB G P.
  destruct (open_state r fl fsam nch h len p garbage LNone ps pb C BSET NC HH FZ FQ FQ0 LEN FH PB (fun _ => eq_refl) G P)
    as (r' & g' & E & PL & RT & FS & LP & RM & PS & PO & LN & _).
  exists r'. split; [exact E|]. split; [exact RT|]. destruct (LN eq_refl) as [L1 L2]. destruct BSET as (_ & _ & _ & _ & _ & B6 & B7).
  unfold opened. rewrite RM. repeat (split; [solve [auto]|]). exact PO.
Qed.

Lemma raw_opened : forall r fl nch stack garbage ps pb, cfg_ok (r_cfg r) -> r_kind r <> KArray ->
  basic_settings r LNone ps pb -> r_hdr r = 0 -> (1 <= nch)%nat -> Z.of_nat nch < 2 ^ 15 -> 0 < fsize fl < 2 ^ 31 ->
  let len := fsize fl / 2 / Z.of_nat nch in
  (ps = PArbitrary -> 0 <= pb <= len) -> fin64 (r_rate r) = true -> (0 <= R64 (r_rate r))%R ->
  exists r', r_play_file r (Some fl) false (Z.of_nat nch) stack garbage = Ok (true, r') /\ r_rate r' = r_rate r /\ opened fl 0 len nch ps pb r'.
Proof.
  intros r fl nch stack garbage ps pb C K BSET HH N1 NB S len PB G P.
  destruct (play_raw_open r fl (Z.of_nat nch) stack garbage K ltac:(lia) ltac:(lia)) as (r1 & E & CC & NC & HC & SC & FC & RC & SS).
  rewrite <- RC in G, P |- *. rewrite <- CC in C.
  assert (LN : 0 <= len) by (unfold len; apply Z.div_pos; [apply Z.div_pos|]; lia).
  assert (L2 : 2 * (len * Z.of_nat nch) <= fsize fl).
  { unfold len. pose proof (Z.mul_div_le (fsize fl) 2 ltac:(lia)).
    pose proof (Z.mul_div_le (fsize fl / 2) (Z.of_nat nch) ltac:(lia)). lia. }
  rewrite E. apply (opened_state r1 fl (fsize fl / 2) nch 0 len 0 garbage ps pb); auto; try congruence.
  - now apply (settings_same r).
  - apply Z.div_pos; lia.
  - unfold file_holds, fits. repeat split; auto; lia.
Qed.

Lemma wav_opened : forall r fl nch tags n nraw stack garbage ps pb, cfg_ok (r_cfg r) -> r_kind r <> KArray ->
  basic_settings r LNone ps pb -> bytes_ok stack -> wav_file fl nch tags n -> Z.of_nat nch < 2 ^ 15 ->
  let len := n / 2 / Z.of_nat nch in
  (ps = PArbitrary -> 0 <= pb <= len) -> fin64 (r_rate r) = true -> (0 <= R64 (r_rate r))%R ->
  exists r', r_play_file r (Some fl) true nraw stack garbage = Ok (true, r') /\ r_rate r' = r_rate r /\ opened fl ((44 + tags) / 2) len nch ps pb r'.
Proof.
  intros r fl nch tags n nraw stack garbage ps pb C K BSET BST WF NB len PB G P.
  destruct (play_wav_open r fl nch tags n nraw stack garbage K BST WF NB) as (r1 & E & CC & NC & HC & SC & FC & RC & SS).
  destruct (wav_file_plays fl nch tags n WF) as (_ & _ & _ & E2 & N0).
  destruct WF as (_ & _ & _ & _ & N1 & _ & _ & T0 & SZ & SL).
  rewrite <- RC in G, P |- *. rewrite <- CC in C.
  assert (LN : 0 <= len) by (unfold len; apply Z.div_pos; [apply Z.div_pos|]; lia).
  assert (L2 : 2 * (len * Z.of_nat nch) <= n).
  { unfold len. pose proof (Z.mul_div_le n 2 ltac:(lia)).
    pose proof (Z.mul_div_le (n / 2) (Z.of_nat nch) ltac:(lia)). lia. }
  rewrite E. apply (opened_state r1 fl (n / 2) nch ((44 + tags) / 2) len (44 + tags) garbage ps pb); auto; try congruence.
  - now apply (settings_same r).
  - apply Z.div_pos; lia.
  - unfold file_holds, fits. repeat split; auto; lia.
Qed.

(* ---- the calls that set the loop ------------------------------------------------------ *)

Lemma loop_pre : forall a m off l ls lf len pre F os, r_src a = SArr m off -> r_ls a = 0 -> r_lf a = len -> 0 <= ls < lf -> lf <= len -> len < 2 ^ 31 ->
  loop_calls l ls lf len pre -> session F a (pre ++ os) =
    ('(bs, q) <- session F (a <| r_loop := l |> <| r_ls := ls |> <| r_lf := lf |>) os ;; Ok (map (fun _ => []) pre ++ bs, q)).
Proof.
  intros a m off l ls lf len pre F os SR LS LF H1 H2 H3 PRE.
  assert (T : setLoopType a l = a <| r_loop := l |>) by (unfold setLoopType; now rewrite SR).
  assert (S32a : s32 ls = ls) by (apply s32_id; unfold in_s32; lia). assert (S32b : s32 lf = lf) by (apply s32_id; unfold in_s32; lia).
  destruct PRE as [(-> & -> & ->) | [(-> & ->) | ->]]; cbn [app session sop_run bind map].
  - rewrite T. replace (a <| r_loop := l |> <| r_ls := 0 |> <| r_lf := len |>) with (a <| r_loop := l |>) by (destruct a; cbn in *; subst; reflexivity).
    destruct (session F _ os) as [[bs q]| |]; reflexivity.
  - rewrite T. replace (setLoopFinish (a <| r_loop := l |>) lf) with (a <| r_loop := l |> <| r_ls := 0 |> <| r_lf := lf |>).
    + destruct (session F _ os) as [[bs q]| |]; reflexivity.
    + unfold setLoopFinish. destruct a; cbn in *; subst; cbn. rewrite S32b. reflexivity.
  - rewrite T. replace (setLoopFinish (setLoopStart (a <| r_loop := l |>) ls) lf) with (a <| r_loop := l |> <| r_ls := ls |> <| r_lf := lf |>).
    + destruct (session F _ os) as [[bs q]| |]; reflexivity.
    + unfold setLoopFinish, setLoopStart. destruct a; cbn in *; subst; cbn. rewrite S32a, S32b. reflexivity.
Qed.

(* ---- the loop ---------------------------------------------------------------------------- *)

Lemma held_loops : forall r0 fl w n st g r h len nch ps pb num q, cfg_ok (r_cfg r0) -> small_file (r_cfg r0) fl ->
  r_play_file r0 (Some fl) w n st g = Ok (true, r) -> opened fl h len nch ps pb r -> (ps = PArbitrary -> 0 <= pb) ->
  fin64 (r_rate r) = true -> R64 (r_rate r) = (IZR num * bpow radix2 (- q))%R -> 0 <= q <= 52 -> 0 < num <= 2 ^ 52 ->
  ((R64 (r_rate r) + 1) * INR nch <= IZR (2 ^ 30))%R -> h + start_frame ps pb * Z.of_nat nch < BS (r_cfg r0) ->
  loops_alone fl h len nch ps (start_frame ps pb) num q r.
Proof.
  intros r0 fl w n st g r h len nch ps pb num q C SM E (FH & PL & PS & LS & LF & RF & R0 & PO) PB G X Hq Hn U FB l ls lf calls NL HL HF PRE ns.
  set (a := on_array (file_mem fl) 0 r). pose proof FH as (FT & FE & FL). pose proof FT as (H1 & H2 & H3 & H4 & H5).
  assert (P0 : 0 <= start_frame ps pb) by (unfold start_frame; destruct ps; [lia|lia|now apply PB]).
  set (p0 := start_frame ps pb) in *. set (L := loop_of l ps ls lf nch).
  assert (P : (0 <= R64 (r_rate r))%R) by (rewrite X; apply Rmult_le_pos; [apply IZR_le; lia|apply bpow_ge_0]).
  set (b := a <| r_loop := l |> <| r_ls := ls |> <| r_lf := lf |>).
  assert (D : delivers b (endless_stream (fun k => file_frame fl h nch (hd_i (orbit L num (2 ^ q) (mkHead p0 0 false) k))))).
  { assert (HD : 0 < 2 ^ q) by (apply Z.pow_pos_nonneg; lia).
    pose proof (loop_of_ok l ps ls lf nch len HL HF) as LK. fold L in LK.
    assert (HK : head_ok L len (mkHead p0 0 false)) by (unfold head_ok; cbn [hd_back hd_i]; lia).
    pose proof (loop_walk h nch L (r_rate r) num q (mkHead p0 0 false) len FT LK HK G X Hq Hn U HD) as W.
    eapply delivers_ext; [|eapply (follows_delivers _ _ b); [apply (walk_follows (file_mem fl) 0 _ _ _ _ W)|]].
    - intros k. unfold endless_stream. cbn [option_map]. now rewrite file_mem_frame.
    - intros k i EQ. injection EQ as <-.
      assert (Y : 0 <= hd_i (orbit L num (2 ^ q) (mkHead p0 0 false) k) < len).
      { rewrite orbit_pre. eapply turn_ok; eauto. eapply orbit_ok; eauto; lia. }
      unfold frame_in. cbn [file_mem msize]. repeat split; nia.
    - cbn beta. cbn [pre]. split; [|reflexivity]. constructor; auto.
      + destruct PL; constructor; auto.
      + change (l = if loop_eqb l LPingpong then LPingpong else LRepeat). destruct l; try reflexivity. congruence.
      + change (lp_lo L = match r_pstart r with PSample => 0 | _ => ls end). rewrite PS. reflexivity.
      + change (R64 (r_rem r) = (IZR 0 * bpow radix2 (- q))%R). rewrite R0. ring. }
  destruct (D ns) as (F & a' & R).
  assert (SA : session F a (calls ++ reads ns) =
     Ok (map (fun _ => []) calls ++ blocks_spec (endless_stream (fun k => file_frame fl h nch (hd_i (orbit L num (2 ^ q) (mkHead p0 0 false) k)))) 0 ns, a')).
  { rewrite (loop_pre a (file_mem fl) 0 l ls lf len calls F (reads ns)); auto; [|nia]. fold b. rewrite reads_session, R. reflexivity. }
  assert (UU : Forall unserviced (calls ++ reads ns)).
  { apply Forall_app. split; [|apply reads_unserviced]. destruct PRE as [(-> & _) | [(-> & _) | ->]]; repeat constructor; discriminate. }
  assert (FS : fsize fl <= 2 ^ 31) by lia.
  assert (PP : 0 <= r_pos1 r < BS (r_cfg r0)) by (rewrite PO; split; [nia|exact FB]).
  destruct (held_small r0 fl w n st g r F _ _ a' C FS SM E (dge0_true _ G P) PP UU SA) as (r' & S' & _ & M).
  eauto.
Qed.

Theorem raw_loops_alone : forall r fl nch stack garbage ps pb num q, cfg_ok (r_cfg r) -> r_kind r <> KArray ->
  basic_settings r LNone ps pb -> r_hdr r = 0 -> (1 <= nch)%nat -> Z.of_nat nch < 2 ^ 15 -> 0 < fsize fl < 2 ^ 31 -> small_file (r_cfg r) fl ->
  let len := fsize fl / 2 / Z.of_nat nch in
  (ps = PArbitrary -> 0 <= pb <= len) -> start_frame ps pb * Z.of_nat nch < BS (r_cfg r) ->
  fin64 (r_rate r) = true -> R64 (r_rate r) = (IZR num * bpow radix2 (- q))%R -> 0 <= q <= 52 -> 0 < num <= 2 ^ 52 ->
  ((R64 (r_rate r) + 1) * INR nch <= IZR (2 ^ 30))%R ->
  exists r', r_play_file r (Some fl) false (Z.of_nat nch) stack garbage = Ok (true, r') /\ r_playing r' = true /\
    loops_alone fl 0 len nch ps (start_frame ps pb) num q r'.
Proof.
  intros r fl nch stack garbage ps pb num q C K BSET HH N1 NB S SM len PB FB G X Hq Hn U.
  assert (P : (0 <= R64 (r_rate r))%R) by (rewrite X; apply Rmult_le_pos; [apply IZR_le; lia|apply bpow_ge_0]).
  destruct (raw_opened r fl nch stack garbage ps pb C K BSET HH N1 NB S PB G P) as (r' & E & RT & O).
  exists r'. split; [exact E|]. split; [apply O|]. rewrite <- RT in G, X, U.
  eapply held_loops; eauto. intro Y. apply PB in Y. lia.
Qed.

Theorem wav_loops_alone : forall r fl nch tags n nraw stack garbage ps pb num q, cfg_ok (r_cfg r) -> r_kind r <> KArray ->
  basic_settings r LNone ps pb -> bytes_ok stack -> wav_file fl nch tags n -> Z.of_nat nch < 2 ^ 15 -> small_file (r_cfg r) fl ->
  let len := n / 2 / Z.of_nat nch in
  (ps = PArbitrary -> 0 <= pb <= len) -> (44 + tags) / 2 + start_frame ps pb * Z.of_nat nch < BS (r_cfg r) ->
  fin64 (r_rate r) = true -> R64 (r_rate r) = (IZR num * bpow radix2 (- q))%R -> 0 <= q <= 52 -> 0 < num <= 2 ^ 52 ->
  ((R64 (r_rate r) + 1) * INR nch <= IZR (2 ^ 30))%R ->
  exists r', r_play_file r (Some fl) true nraw stack garbage = Ok (true, r') /\ r_playing r' = true /\
    loops_alone fl ((44 + tags) / 2) len nch ps (start_frame ps pb) num q r'.
Proof.
  intros r fl nch tags n nraw stack garbage ps pb num q C K BSET BST WF NB SM len PB FB G X Hq Hn U.
  assert (P : (0 <= R64 (r_rate r))%R) by (rewrite X; apply Rmult_le_pos; [apply IZR_le; lia|apply bpow_ge_0]).
  destruct (wav_opened r fl nch tags n nraw stack garbage ps pb C K BSET BST WF NB PB G P) as (r' & E & RT & O).
  exists r'. split; [exact E|]. split; [apply O|]. rewrite <- RT in G, X, U.
  eapply held_loops; eauto. intro Y. apply PB in Y. lia.
Qed.
