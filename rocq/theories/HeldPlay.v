(* Files that fit into the buffers play completely without any reload (C135). *)

From Coq Require Import ZArith Lia List Bool Reals Lra.
From RecordUpdate Require Import RecordUpdate.
From Flocq Require Import Core.Core IEEE754.BinarySingleNaN.
From Verif Require Import Machine Floats FloatFacts WavModel InterpModel CacheModel ReaderModel ReaderFacts ReaderSpec Sessions StreamFacts Walk ForwardProofs
  CacheFacts CacheSpec CacheProofs WavSpec FileSpec WindowProofs FileProofs PlayProofs FilePlay FileForward MirrorSpec MirrorProofs MirrorFinal HeldSpec HeldProofs.
Import ListNotations.
Local Open Scope Z_scope.

Definition reads (ns : list nat) : list sop := map (fun n => SRead (Z.of_nat n)) ns.
Lemma reads_session : forall F ns r, session F r (reads ns) = read_seq F r ns.
Proof.
  intros F. induction ns as [|n ns IH]; intro r; [reflexivity|]. cbn [reads map session read_seq sop_run].
  destruct (r_read F r (Z.of_nat n)) as [[b r1]| |]; cbn [bind]; auto. fold (reads ns). now rewrite IH.
Qed.
Lemma reads_unserviced : forall ns, Forall unserviced (reads ns).
Proof. induction ns; constructor; [discriminate|auto]. Qed.

Lemma file_mem_frame : forall fl h nch i, src_frame (file_mem fl) (0 + 2 * h) nch i = file_frame fl h nch i.
Proof.
  intros fl h nch i. unfold src_frame, file_frame. apply map_ext. intro k. unfold src_sample, file_sample. cbn [file_mem mbyte].
  f_equal. lia.
Qed.

(* the array reader, and the same after setLoopType(looptype_none) *)
Lemma array_reads : forall fl h len nch p0 x r, file_holds fl h len nch -> grid_rate x -> (0 <= R64 x)%R -> 0 <= p0 -> ((R64 x + 1) * INR nch <= IZR (2 ^ 30))%R ->
  fwd_inv h len nch p0 x 0 r -> r_playing r = true -> r_src r = SArr (file_mem fl) 0 -> delivers r (file_pitch fl h len nch p0 (R64 x)).
Proof.
  intros fl h len nch p0 x r FH G P P0 U I0 PL S. pose proof FH as (FT & FE & FL). pose proof FT as (H1 & H2 & H3 & H4 & H5).
  apply (delivers_ext r (fun k => option_map (src_frame (file_mem fl) (0 + 2 * h) nch) (fwd_idx len p0 (R64 x) k))).
  { intro k. unfold fwd_idx, file_pitch. destruct (_ <? _); cbn [option_map]; [now rewrite file_mem_frame|reflexivity]. }
  eapply follows_delivers; [apply walk_follows; [apply fwd_walk; eauto|]|cbn; auto].
  intros k i E. unfold fwd_idx in E. destruct (Z.ltb_spec (p0 + Zfloor (INR k * R64 x)) len); inversion E; subst.
  assert (0 <= Zfloor (INR k * R64 x)) by (apply Zfloor_lub; apply Rmult_le_pos; auto; apply pos_INR).
  unfold frame_in. cbn [file_mem msize]. repeat split; nia.
Qed.

(* from opening on; [pre] is what the program calls before it reads *)
Lemma held_reads : forall r0 fl w n st g r h len nch p0 pre, cfg_ok (r_cfg r0) -> small_file (r_cfg r0) fl ->
  r_play_file r0 (Some fl) w n st g = Ok (true, r) -> file_holds fl h len nch -> fwd_inv h len nch p0 (r_rate r) 0 r -> r_playing r = true ->
  grid_rate (r_rate r) -> (0 <= R64 (r_rate r))%R -> 0 <= p0 -> ((R64 (r_rate r) + 1) * INR nch <= IZR (2 ^ 30))%R ->
  h + p0 * Z.of_nat nch < BS (r_cfg r0) -> pre = [] \/ pre = [SLoopType LNone] ->
  forall ns, exists fuel r', session fuel r (pre ++ reads ns) = Ok (map (fun _ => []) pre ++ blocks_spec (file_pitch fl h len nch p0 (R64 (r_rate r))) 0 ns, r') /\ misses r' = 0.
Proof.
  intros r0 fl w n st g r h len nch p0 pre C SM E FH I0 PL G P P0 U FB PRE ns.
  set (a := on_array (file_mem fl) 0 r).
  assert (FS : fsize fl <= 2 ^ 31) by (destruct FH as (_ & Q & _); lia).
  assert (Z00 : Zfloor (INR 0 * R64 (r_rate r)) = 0) by (cbn [INR]; rewrite Rmult_0_l; change 0%R with (IZR 0); apply Zfloor_IZR).
  assert (PS : 0 <= r_pos1 r < BS (r_cfg r0)).
  { rewrite (fw_pos _ _ _ _ _ _ _ I0), Z00, Z.add_0_r. destruct FH as ((H1 & H2 & H3 & H4 & H5) & _). nia. }
  assert (Ia : fwd_inv h len nch p0 (r_rate r) 0 a) by (destruct I0 as [[Q1 Q2 Q3 Q4 Q5 Q6] F2 F3 F4 F5 F6 F7]; constructor; auto; constructor; auto).
  assert (Ib : fwd_inv h len nch p0 (r_rate r) 0 (setLoopType a LNone)).
  { destruct Ia as [[Q1 Q2 Q3 Q4 Q5 Q6] F2 F3 F4 F5 F6 F7]; constructor; auto; constructor; auto. }
  assert (X : exists fuel a', session fuel a (pre ++ reads ns) = Ok (map (fun _ => []) pre ++ blocks_spec (file_pitch fl h len nch p0 (R64 (r_rate r))) 0 ns, a')).
  { destruct PRE as [-> | ->].
    - destruct (array_reads fl h len nch p0 (r_rate r) a FH G P P0 U Ia PL eq_refl ns) as (F & a' & R).
      exists F, a'. cbn [app map]. now rewrite reads_session.
    - destruct (array_reads fl h len nch p0 (r_rate r) (setLoopType a LNone) FH G P P0 U Ib PL eq_refl ns) as (F & a' & R).
      exists F, a'. cbn [app map session sop_run bind]. rewrite reads_session, R. reflexivity. }
  destruct X as (F & a' & X).
  assert (UU : Forall unserviced (pre ++ reads ns)).
  { apply Forall_app. split; [|apply reads_unserviced]. destruct PRE as [-> | ->]; repeat constructor; discriminate. }
  destruct (held_small r0 fl w n st g r F _ _ a' C FS SM E (dge0_true _ (proj1 G) P) PS UU X) as (r' & S' & _ & M).
  eauto.
Qed.

Lemma held_open : forall r0 r fl w n st g fsam nch h len p garbage ps pb, cfg_ok (r_cfg r) -> r_cfg r = r_cfg r0 -> small_file (r_cfg r) fl ->
  r_play_file r0 (Some fl) w n st g = play_open r fl p garbage ->
  basic_settings r LNone ps pb -> r_nch r = Z.of_nat nch -> r_hdr r = h -> r_fsize r = fsize fl ->
  r_fsamples r = fsam -> 0 <= fsam -> len = fsam / Z.of_nat nch -> file_holds fl h len nch ->
  (ps = PArbitrary -> 0 <= pb <= len) ->
  grid_rate (r_rate r) -> (0 <= R64 (r_rate r))%R -> ((R64 (r_rate r) + 1) * INR nch <= IZR (2 ^ 30))%R ->
  h + start_frame ps pb * Z.of_nat nch < BS (r_cfg r) ->
  exists r', r_play_file r0 (Some fl) w n st g = Ok (true, r') /\ r_playing r' = true /\ forall pre, pre = [] \/ pre = [SLoopType LNone] ->
    forall ns, exists fuel r2, session fuel r' (pre ++ reads ns) =
      Ok (map (fun _ => []) pre ++ blocks_spec (file_pitch fl h len nch (start_frame ps pb) (R64 (r_rate r))) 0 ns, r2) /\ misses r2 = 0.
Proof.
  intros r0 r fl w n st g fsam nch h len p garbage ps pb C CC SM EP BSET NC HH FZ FQ FQ0 LEN FH PB G P U FB.
  destruct (open_state r fl fsam nch h len p garbage LNone ps pb C BSET NC HH FZ FQ FQ0 LEN FH PB (fun _ => eq_refl) (proj1 G) P)
    as (r' & g' & E & PL & RT & FS & LP & RM & PS & PO & _ & _ & SR & W).
  exists r'. split; [congruence|].
  assert (PY : r_playing r' = true) by apply PL. split; [exact PY|]. intros pre PRE ns.
  set (p0 := start_frame ps pb) in *.
  assert (P0 : 0 <= p0) by (unfold p0, start_frame; destruct ps; [lia|lia|apply (PB eq_refl)]).
  assert (Z00 : Zfloor (INR 0 * R64 (r_rate r)) = 0) by (cbn [INR]; rewrite Rmult_0_l; change 0%R with (IZR 0); apply Zfloor_IZR).
  assert (I0 : fwd_inv h len nch p0 (r_rate r') 0 r').
  { rewrite RT. destruct BSET as (_ & _ & _ & _ & _ & B6 & B7). constructor; auto.
    - now rewrite RM.
    - rewrite RM, B7, Z00. cbn [INR]. lra.
    - rewrite PO, Z00, Z.add_0_r. reflexivity. }
  rewrite <- RT. rewrite CC in *. rewrite <- RT in G, P, U.
  apply (held_reads r0 fl w n st g r' h len nch p0 pre); auto. congruence.
Qed.

(* ---- RAW and WAV files --------------------------------------------------------------- *)

Lemma raw_held : forall r fl nch stack garbage ps pb, cfg_ok (r_cfg r) -> r_kind r <> KArray ->
  basic_settings r LNone ps pb -> r_hdr r = 0 -> (1 <= nch)%nat -> Z.of_nat nch < 2 ^ 15 -> 0 < fsize fl < 2 ^ 31 -> small_file (r_cfg r) fl ->
  let len := fsize fl / 2 / Z.of_nat nch in
  (ps = PArbitrary -> 0 <= pb <= len) -> start_frame ps pb * Z.of_nat nch < BS (r_cfg r) ->
  grid_rate (r_rate r) -> (0 <= R64 (r_rate r))%R -> ((R64 (r_rate r) + 1) * INR nch <= IZR (2 ^ 30))%R ->
  exists r', r_play_file r (Some fl) false (Z.of_nat nch) stack garbage = Ok (true, r') /\ r_playing r' = true /\ forall pre, pre = [] \/ pre = [SLoopType LNone] ->
    forall ns, exists fuel r2, session fuel r' (pre ++ reads ns) =
      Ok (map (fun _ => []) pre ++ blocks_spec (file_pitch fl 0 len nch (start_frame ps pb) (R64 (r_rate r))) 0 ns, r2) /\ misses r2 = 0.
Proof.
  intros r fl nch stack garbage ps pb C K BSET HH N1 NB S SM len PB FB G P U.
  destruct (play_raw_open r fl (Z.of_nat nch) stack garbage K ltac:(lia) ltac:(lia)) as (r1 & E & CC & NC & HC & SC & FC & RC & SS).
  rewrite <- RC in G, P, U |- *. rewrite <- CC in C, SM, FB.
  assert (LN : 0 <= len) by (unfold len; apply Z.div_pos; [apply Z.div_pos|]; lia).
  assert (L2 : 2 * (len * Z.of_nat nch) <= fsize fl).
  { unfold len. pose proof (Z.mul_div_le (fsize fl) 2 ltac:(lia)).
    pose proof (Z.mul_div_le (fsize fl / 2) (Z.of_nat nch) ltac:(lia)). lia. }
  apply (held_open r r1 fl false (Z.of_nat nch) stack garbage (fsize fl / 2) nch 0 len 0 garbage ps pb); auto; try congruence.
  - now apply (settings_same r).
  - apply Z.div_pos; lia.
  - unfold file_holds, fits. repeat split; auto; lia.
Qed.

Lemma wav_held : forall r fl nch tags n nraw stack garbage ps pb, cfg_ok (r_cfg r) -> r_kind r <> KArray ->
  basic_settings r LNone ps pb -> bytes_ok stack -> wav_file fl nch tags n -> Z.of_nat nch < 2 ^ 15 -> small_file (r_cfg r) fl ->
  let len := n / 2 / Z.of_nat nch in
  (ps = PArbitrary -> 0 <= pb <= len) -> (44 + tags) / 2 + start_frame ps pb * Z.of_nat nch < BS (r_cfg r) ->
  grid_rate (r_rate r) -> (0 <= R64 (r_rate r))%R -> ((R64 (r_rate r) + 1) * INR nch <= IZR (2 ^ 30))%R ->
  exists r', r_play_file r (Some fl) true nraw stack garbage = Ok (true, r') /\ r_playing r' = true /\ forall pre, pre = [] \/ pre = [SLoopType LNone] ->
    forall ns, exists fuel r2, session fuel r' (pre ++ reads ns) =
      Ok (map (fun _ => []) pre ++ blocks_spec (file_pitch fl ((44 + tags) / 2) len nch (start_frame ps pb) (R64 (r_rate r))) 0 ns, r2) /\ misses r2 = 0.
Proof.
  intros r fl nch tags n nraw stack garbage ps pb C K BSET BST WF NB SM len PB FB G P U.
  destruct (play_wav_open r fl nch tags n nraw stack garbage K BST WF NB) as (r1 & E & CC & NC & HC & SC & FC & RC & SS).
  destruct (wav_file_plays fl nch tags n WF) as (_ & _ & _ & E2 & N0).
  destruct WF as (_ & _ & _ & _ & N1 & _ & _ & T0 & SZ & SL).
  rewrite <- RC in G, P, U |- *. rewrite <- CC in C, SM, FB.
  assert (LN : 0 <= len) by (unfold len; apply Z.div_pos; [apply Z.div_pos|]; lia).
  assert (L2 : 2 * (len * Z.of_nat nch) <= n).
  { unfold len. pose proof (Z.mul_div_le n 2 ltac:(lia)).
    pose proof (Z.mul_div_le (n / 2) (Z.of_nat nch) ltac:(lia)). lia. }
  apply (held_open r r1 fl true nraw stack garbage (n / 2) nch ((44 + tags) / 2) len (44 + tags) garbage ps pb); auto; try congruence.
  - now apply (settings_same r).
  - apply Z.div_pos; lia.
  - unfold file_holds, fits. repeat split; auto; lia.
Qed.

Theorem raw_alone : forall r fl nch stack garbage ps pb, cfg_ok (r_cfg r) -> r_kind r <> KArray ->
  basic_settings r LNone ps pb -> r_hdr r = 0 -> (1 <= nch)%nat -> Z.of_nat nch < 2 ^ 15 -> 0 < fsize fl < 2 ^ 31 -> small_file (r_cfg r) fl ->
  let len := fsize fl / 2 / Z.of_nat nch in
  (ps = PArbitrary -> 0 <= pb <= len) -> start_frame ps pb * Z.of_nat nch < BS (r_cfg r) ->
  grid_rate (r_rate r) -> (0 <= R64 (r_rate r))%R -> ((R64 (r_rate r) + 1) * INR nch <= IZR (2 ^ 30))%R ->
  exists r', r_play_file r (Some fl) false (Z.of_nat nch) stack garbage = Ok (true, r') /\
    plays_alone r' (file_pitch fl 0 len nch (start_frame ps pb) (R64 (r_rate r))).
Proof.
  intros r fl nch stack garbage ps pb C K BSET HH N1 NB S SM len PB FB G P U.
  destruct (raw_held r fl nch stack garbage ps pb C K BSET HH N1 NB S SM PB FB G P U) as (r' & E & _ & H).
  exists r'. split; [exact E|]. intro ns. destruct (H [] (or_introl eq_refl) ns) as (F & r2 & Q & M). exists F, r2.
  cbn [app map] in Q. rewrite reads_session in Q. auto.
Qed.

Theorem wav_alone : forall r fl nch tags n nraw stack garbage ps pb, cfg_ok (r_cfg r) -> r_kind r <> KArray ->
  basic_settings r LNone ps pb -> bytes_ok stack -> wav_file fl nch tags n -> Z.of_nat nch < 2 ^ 15 -> small_file (r_cfg r) fl ->
  let len := n / 2 / Z.of_nat nch in
  (ps = PArbitrary -> 0 <= pb <= len) -> (44 + tags) / 2 + start_frame ps pb * Z.of_nat nch < BS (r_cfg r) ->
  grid_rate (r_rate r) -> (0 <= R64 (r_rate r))%R -> ((R64 (r_rate r) + 1) * INR nch <= IZR (2 ^ 30))%R ->
  exists r', r_play_file r (Some fl) true nraw stack garbage = Ok (true, r') /\
    plays_alone r' (file_pitch fl ((44 + tags) / 2) len nch (start_frame ps pb) (R64 (r_rate r))).
Proof.
  intros r fl nch tags n nraw stack garbage ps pb C K BSET BST WF NB SM len PB FB G P U.
  destruct (wav_held r fl nch tags n nraw stack garbage ps pb C K BSET BST WF NB SM PB FB G P U) as (r' & E & _ & H).
  exists r'. split; [exact E|]. intro ns. destruct (H [] (or_introl eq_refl) ns) as (F & r2 & Q & M). exists F, r2.
  cbn [app map] in Q. rewrite reads_session in Q. auto.
Qed.
