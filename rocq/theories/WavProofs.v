(* Proofs about the WAV header parser: C01, C02. *)

From Coq Require Import ZArith Lia List Bool.
From Verif Require Import Machine WavModel WavSpec.
Import ListNotations.
Local Open Scope Z_scope.

Lemma tag4_spec : forall rd b o c0 c1 c2 c3,
  (forall i, o <= i < o + 4 -> rd i = Ok (b i)) ->
  exists t, tag4 rd o c0 c1 c2 c3 = Ok t /\ (t = true <-> slice b o 4 = [c0; c1; c2; c3]).
Proof.
  intros rd b o c0 c1 c2 c3 H. unfold tag4.
  rewrite (H o), (H (o + 1)), (H (o + 2)), (H (o + 3)) by lia. cbn [bind].
  unfold slice. cbn [seq map]. change (Z.of_nat 0) with 0. change (Z.of_nat 1) with 1.
  change (Z.of_nat 2) with 2. change (Z.of_nat 3) with 3. rewrite Z.add_0_r.
  destruct (Z.eqb_spec (b o) c0); cbn [negb]; [|exists false; split; auto; split; [discriminate|congruence]].
  destruct (Z.eqb_spec (b (o + 1)) c1); cbn [negb]; [|exists false; split; auto; split; [discriminate|congruence]].
  destruct (Z.eqb_spec (b (o + 2)) c2); cbn [negb]; [|exists false; split; auto; split; [discriminate|congruence]].
  destruct (Z.eqb_spec (b (o + 3)) c3); [exists true|exists false]; split; auto; split; congruence.
Qed.

Lemma tag4_true : forall rd b o c0 c1 c2 c3,
  (forall i, o <= i < o + 4 -> rd i = Ok (b i)) ->
  slice b o 4 = [c0; c1; c2; c3] -> tag4 rd o c0 c1 c2 c3 = Ok true.
Proof.
  intros rd b o c0 c1 c2 c3 H E. destruct (tag4_spec rd b o c0 c1 c2 c3 H) as (t & T & I).
  rewrite T. f_equal. now apply I.
Qed.

Lemma tag4_false : forall rd b o c0 c1 c2 c3,
  (forall i, o <= i < o + 4 -> rd i = Ok (b i)) ->
  slice b o 4 <> [c0; c1; c2; c3] -> tag4 rd o c0 c1 c2 c3 = Ok false.
Proof.
  intros rd b o c0 c1 c2 c3 H E. destruct (tag4_spec rd b o c0 c1 c2 c3 H) as (t & T & I).
  rewrite T. f_equal. destruct t; auto. exfalso. now apply E, I.
Qed.

Lemma rd32_spec : forall rd b o, (forall i, o <= i < o + 4 -> rd i = Ok (b i)) ->
  rd32 rd o = Ok (le32u b o).
Proof.
  intros rd b o H. unfold rd32.
  rewrite (H o), (H (o + 1)), (H (o + 2)), (H (o + 3)) by lia. reflexivity.
Qed.

Lemma rd16_spec : forall rd b o, (forall i, o <= i < o + 2 -> rd i = Ok (b i)) ->
  rd16 rd o = Ok (le16u b o).
Proof.
  intros rd b o H. unfold rd16. rewrite (H o), (H (o + 1)) by lia. reflexivity.
Qed.

Lemma copy4_spec : forall rd b o, (forall i, o <= i < o + 4 -> rd i = Ok (b i)) ->
  copy4 rd o = Ok (slice b o 4).
Proof.
  intros rd b o H. unfold copy4.
  rewrite (H o), (H (o + 1)), (H (o + 2)), (H (o + 3)) by lia. cbn [bind].
  unfold slice. cbn [seq map]. change (Z.of_nat 0) with 0. rewrite Z.add_0_r. reflexivity.
Qed.

Lemma slice_le32 : forall b o v, 0 <= v < 2 ^ 32 -> slice b o 4 = enc32 v -> le32u b o = v.
Proof.
  intros b o v Hv H. unfold slice, enc32 in H. cbn [seq map] in H.
  change (Z.of_nat 0) with 0 in H. rewrite Z.add_0_r in H.
  change (Z.of_nat 1) with 1 in H. change (Z.of_nat 2) with 2 in H. change (Z.of_nat 3) with 3 in H.
  injection H as H0 H1 H2 H3. unfold le32u. rewrite H0, H1, H2, H3.
  pose proof (Z.div_mod v 256 ltac:(lia)).
  pose proof (Z.div_mod (v / 256) 256 ltac:(lia)).
  pose proof (Z.div_mod (v / 256 / 256) 256 ltac:(lia)).
  rewrite !Z.div_div in * by lia. change (256 * 256) with 65536 in *. change (65536 * 256) with 16777216 in *.
  assert (0 <= v / 16777216 < 256).
  { split; [apply Z.div_pos; lia|apply Z.div_lt_upper_bound; lia]. }
  rewrite (Z.mod_small (v / 16777216)) by lia. lia.
Qed.

Lemma slice_le16 : forall b o v, 0 <= v < 2 ^ 16 -> slice b o 2 = enc16 v -> le16u b o = v.
Proof.
  intros b o v Hv H. unfold slice, enc16 in H. cbn [seq map] in H.
  change (Z.of_nat 0) with 0 in H. rewrite Z.add_0_r in H.
  change (Z.of_nat 1) with 1 in H.
  injection H as H0 H1. unfold le16u. rewrite H0, H1.
  assert (0 <= v / 256 < 256).
  { split; [apply Z.div_pos; lia|apply Z.div_lt_upper_bound; lia]. }
  rewrite (Z.mod_small (v / 256)) by lia.
  pose proof (Z.div_mod v 256 ltac:(lia)). lia.
Qed.

(* conversely *)
Lemma le32_slice16 : forall b, bytes_ok b -> forall o, le32u b o = 16 -> slice b o 4 = enc32 16.
Proof.
  intros b B o H. unfold le32u in H.
  pose proof (B o) as B0. pose proof (B (o + 1)) as B1. pose proof (B (o + 2)) as B2.
  pose proof (B (o + 3)) as B3. unfold byte_ok in *.
  unfold slice. cbn [seq map]. change (Z.of_nat 0) with 0. rewrite Z.add_0_r.
  change (Z.of_nat 1) with 1. change (Z.of_nat 2) with 2. change (Z.of_nat 3) with 3.
  change (enc32 16) with [16; 0; 0; 0].
  repeat (apply f_equal2; [lia|]). reflexivity.
Qed.

(* What the parser reports *)
Definition parsed (b : bytes) : wav_header :=
  mkHdr (slice b 0 4) (s32 (le32u b 4)) (slice b 8 4) (slice b 12 4) 16
    (s16 (le16u b 20)) (s16 (le16u b 22)) (s32 (le32u b 24)) (s32 (le32u b 28))
    (s16 (le16u b 32)) (s16 (le16u b 34)).

Lemma parse_valid : forall rd b cs h, (forall i, 0 <= i < 36 -> rd i = Ok (b i)) ->
  header_valid b -> readWaveHeaderFromBuffer rd cs h = Ok (true, parsed b).
Proof.
  intros rd b cs h H (R & W & F & Z16). unfold readWaveHeaderFromBuffer.
  rewrite (tag4_true rd b 0) by (auto; intros; apply H; lia). cbn [bind negb].
  rewrite (copy4_spec rd b 0) by (intros; apply H; lia). cbn [bind].
  rewrite (rd32_spec rd b 4) by (intros; apply H; lia). cbn [bind].
  rewrite (copy4_spec rd b 8) by (intros; apply H; lia). cbn [bind].
  rewrite (tag4_true rd b 8) by (auto; intros; apply H; lia). cbn [bind negb].
  rewrite (copy4_spec rd b 12) by (intros; apply H; lia). cbn [bind].
  rewrite (tag4_true rd b 12) by (auto; intros; apply H; lia). cbn [bind negb].
  rewrite (rd32_spec rd b 16) by (intros; apply H; lia). cbn [bind].
  rewrite (slice_le32 b 16 16) by (auto; lia). cbn [Z.eqb Pos.eqb negb].
  rewrite (rd16_spec rd b 20), (rd16_spec rd b 22), (rd32_spec rd b 24), (rd32_spec rd b 28),
    (rd16_spec rd b 32), (rd16_spec rd b 34) by (intros; apply H; lia).
  reflexivity.
Qed.

(* Complete case analysis of the parser *)
Lemma parse_cases : forall rd b cs h, (forall i, 0 <= i < 36 -> rd i = Ok (b i)) -> bytes_ok b ->
  (header_valid b /\ readWaveHeaderFromBuffer rd cs h = Ok (true, parsed b)) \/
  (~ header_valid b /\
   ((slice b 0 4 <> t_RIFF /\
     readWaveHeaderFromBuffer rd cs h = if cs then Ok (false, h) else UB UbOutOfBounds) \/
    (slice b 0 4 = t_RIFF /\ (slice b 8 4 <> t_WAVE \/ slice b 12 4 <> t_fmt) /\
     readWaveHeaderFromBuffer rd cs h = UB UbPrintf) \/
    (slice b 0 4 = t_RIFF /\ slice b 8 4 = t_WAVE /\ slice b 12 4 = t_fmt /\
     exists h', readWaveHeaderFromBuffer rd cs h = Ok (false, h') /\ h_bits h' = h_bits h))).
Proof.
  intros rd b cs h H B.
  destruct (list_eq_dec Z.eq_dec (slice b 0 4) t_RIFF) as [R|R].
  2:{ right. split; [intros (X & _); contradiction|]. left. split; auto.
      unfold readWaveHeaderFromBuffer. rewrite (tag4_false rd b 0) by (auto; intros; apply H; lia).
      reflexivity. }
  destruct (list_eq_dec Z.eq_dec (slice b 8 4) t_WAVE) as [W|W].
  2:{ right. split; [intros (_ & X & _); contradiction|]. right. left. split; auto. split; auto.
      unfold readWaveHeaderFromBuffer. rewrite (tag4_true rd b 0) by (auto; intros; apply H; lia).
      cbn [bind negb].
      rewrite (copy4_spec rd b 0) by (intros; apply H; lia). cbn [bind].
      rewrite (rd32_spec rd b 4) by (intros; apply H; lia). cbn [bind].
      rewrite (copy4_spec rd b 8) by (intros; apply H; lia). cbn [bind].
      rewrite (tag4_false rd b 8) by (auto; intros; apply H; lia). reflexivity. }
  destruct (list_eq_dec Z.eq_dec (slice b 12 4) t_fmt) as [F|F].
  2:{ right. split; [intros (_ & _ & X & _); contradiction|]. right. left. split; auto. split; auto.
      unfold readWaveHeaderFromBuffer. rewrite (tag4_true rd b 0) by (auto; intros; apply H; lia).
      cbn [bind negb].
      rewrite (copy4_spec rd b 0) by (intros; apply H; lia). cbn [bind].
      rewrite (rd32_spec rd b 4) by (intros; apply H; lia). cbn [bind].
      rewrite (copy4_spec rd b 8) by (intros; apply H; lia). cbn [bind].
      rewrite (tag4_true rd b 8) by (auto; intros; apply H; lia). cbn [bind negb].
      rewrite (copy4_spec rd b 12) by (intros; apply H; lia). cbn [bind].
      rewrite (tag4_false rd b 12) by (auto; intros; apply H; lia). reflexivity. }
  destruct (list_eq_dec Z.eq_dec (slice b 16 4) (enc32 16)) as [Z16|Z16].
  - left. assert (V : header_valid b) by (repeat split; auto). split; auto.
    now apply parse_valid.
  - right. split; [intros (_ & _ & _ & X); contradiction|]. right. right.
    split; auto. split; auto. split; auto.
    unfold readWaveHeaderFromBuffer. rewrite (tag4_true rd b 0) by (auto; intros; apply H; lia).
    cbn [bind negb].
    rewrite (copy4_spec rd b 0) by (intros; apply H; lia). cbn [bind].
    rewrite (rd32_spec rd b 4) by (intros; apply H; lia). cbn [bind].
    rewrite (copy4_spec rd b 8) by (intros; apply H; lia). cbn [bind].
    rewrite (tag4_true rd b 8) by (auto; intros; apply H; lia). cbn [bind negb].
    rewrite (copy4_spec rd b 12) by (intros; apply H; lia). cbn [bind].
    rewrite (tag4_true rd b 12) by (auto; intros; apply H; lia). cbn [bind negb].
    rewrite (rd32_spec rd b 16) by (intros; apply H; lia). cbn [bind].
    destruct (Z.eqb_spec (le32u b 16) 16) as [E|E].
    + exfalso. apply Z16. now apply le32_slice16.
    + cbn [negb]. eexists. split; reflexivity.
Qed.

(* ---- C01 ---- *)

Lemma rd_mem_of : forall l i, 0 <= i < Z.of_nat (length l) ->
  rd_mem (mem_of l) 0 i = Ok (nth (Z.to_nat i) l 0).
Proof.
  intros l i H. unfold rd_mem, mem_of. cbn [msize mbyte]. rewrite Z.add_0_l.
  destruct (Z.leb_spec 0 i); [|lia]. destruct (Z.ltb_spec i (Z.of_nat (length l))); [|lia]. reflexivity.
Qed.

Lemma u16_s16 : forall z, 0 <= z < 2 ^ 16 -> u16 (s16 z) = z.
Proof. intros z H. unfold u16, s16. Z.div_mod_to_equations. lia. Qed.

Lemma u32_of_s32 : forall z, 0 <= z < 2 ^ 32 -> u32 (s32 z) = z.
Proof. intros z H. rewrite u32_s32. apply u32_id. exact H. Qed.

Lemma header_roundtrip : forall chunk format channels rate byte_rate align bits cs h,
  0 <= chunk < 2 ^ 32 -> 0 <= format < 2 ^ 16 -> 0 <= channels < 2 ^ 16 -> 0 <= rate < 2 ^ 32 ->
  0 <= byte_rate < 2 ^ 32 -> 0 <= align < 2 ^ 16 -> 0 <= bits < 2 ^ 16 ->
  exists h', readWaveHeaderFromBuffer
      (rd_mem (mem_of (canonical chunk format channels rate byte_rate align bits)) 0) cs h = Ok (true, h')
    /\ h_riff h' = t_RIFF /\ u32 (h_chunk_size h') = chunk /\ h_wave h' = t_WAVE /\ h_fmt h' = t_fmt
    /\ h_fmt_size h' = 16 /\ u16 (h_format h') = format /\ u16 (h_channels h') = channels
    /\ u32 (h_rate h') = rate /\ u32 (h_byte_rate h') = byte_rate /\ u16 (h_align h') = align
    /\ u16 (h_bits h') = bits.
Proof.
  intros chunk format channels rate byte_rate align bits cs h H1 H2 H3 H4 H5 H6 H7.
  set (l := canonical _ _ _ _ _ _ _). set (b := mbyte (mem_of l)).
  assert (V : header_valid b) by (repeat split; reflexivity).
  exists (parsed b). split.
  { apply parse_valid; auto. intros i Hi. apply rd_mem_of. exact Hi. }
  unfold parsed. cbn [h_riff h_chunk_size h_wave h_fmt h_fmt_size h_format h_channels h_rate
    h_byte_rate h_align h_bits].
  rewrite (slice_le32 b 4 chunk), (slice_le32 b 24 rate), (slice_le32 b 28 byte_rate)
    by (auto; reflexivity).
  rewrite (slice_le16 b 20 format), (slice_le16 b 22 channels), (slice_le16 b 32 align),
    (slice_le16 b 34 bits) by (auto; reflexivity).
  rewrite !u32_of_s32, !u16_s16 by auto. repeat split; apply V.
Qed.

Lemma list_header : forall n, 0 <= n < 2 ^ 32 ->
  readInfoTags (rd_mem (mem_of (t_LIST ++ enc32 n)) 0) 0 = Ok (Some (u32 (n + 8))).
Proof.
  intros n H. set (l := t_LIST ++ enc32 n). set (b := mbyte (mem_of l)).
  assert (R : forall i, 0 <= i < 8 -> rd_mem (mem_of l) 0 i = Ok (b i)) by (intros; now apply rd_mem_of).
  unfold readInfoTags. rewrite (tag4_true _ b) by (auto; intros; apply R; lia). cbn [bind].
  rewrite (rd32_spec _ b) by (intros; apply R; lia). cbn [bind].
  rewrite (slice_le32 b (0 + 4) n) by (auto; reflexivity). reflexivity.
Qed.

Lemma data_header : forall n, 0 <= n < 2 ^ 32 ->
  readInfoTags (rd_mem (mem_of (t_data ++ enc32 n)) 0) 0 = Ok (Some 0) /\
  readDataHeader (rd_mem (mem_of (t_data ++ enc32 n)) 0) 0 = Ok (Some n).
Proof.
  intros n H. set (l := t_data ++ enc32 n). set (b := mbyte (mem_of l)).
  assert (R : forall i, 0 <= i < 8 -> rd_mem (mem_of l) 0 i = Ok (b i)) by (intros; now apply rd_mem_of).
  split.
  - unfold readInfoTags. rewrite (tag4_false _ b) by (try (intros; apply R; lia); vm_compute; discriminate).
    cbn [bind]. rewrite (tag4_true _ b) by (auto; intros; apply R; lia). reflexivity.
  - unfold readDataHeader. rewrite (copy4_spec _ b) by (intros; apply R; lia). cbn [bind].
    rewrite (tag4_true _ b) by (auto; intros; apply R; lia). cbn [bind negb].
    rewrite (rd32_spec _ b) by (intros; apply R; lia). cbn [bind].
    rewrite (slice_le32 b (0 + 4) n) by (auto; reflexivity). reflexivity.
Qed.

(* ---- C02 ---- *)

Lemma header_accepts : forall m cs h, msize m = 36 -> bytes_ok (mbyte m) ->
  (exists h', readWaveHeaderFromBuffer (rd_mem m 0) cs h = Ok (true, h')) <-> header_valid (mbyte m).
Proof.
  intros m cs h S B.
  assert (H : forall i, 0 <= i < 36 -> rd_mem m 0 i = Ok (mbyte m i)).
  { intros i Hi. unfold rd_mem. rewrite Z.add_0_l.
    destruct (Z.leb_spec 0 i); [|lia]. destruct (Z.ltb_spec i (msize m)); [reflexivity|lia]. }
  destruct (parse_cases _ _ cs h H B) as [[V E]|[V [[_ E]|[(_ & _ & E)|(_ & _ & _ & h' & E & _)]]]];
    rewrite E; split; try tauto; intros; eauto; destruct H0 as (h2 & X); try discriminate.
  destruct cs; discriminate.
Qed.

(* The inputs on which the parser has undefined behaviour *)
Lemma header_ub : forall m cs h, msize m = 36 -> bytes_ok (mbyte m) ->
  is_ub (readWaveHeaderFromBuffer (rd_mem m 0) cs h) <->
  ((slice (mbyte m) 0 4 <> t_RIFF /\ cs = false) \/
   (slice (mbyte m) 0 4 = t_RIFF /\ (slice (mbyte m) 8 4 <> t_WAVE \/ slice (mbyte m) 12 4 <> t_fmt))).
Proof.
  intros m cs h S B.
  assert (H : forall i, 0 <= i < 36 -> rd_mem m 0 i = Ok (mbyte m i)).
  { intros i Hi. unfold rd_mem. rewrite Z.add_0_l.
    destruct (Z.leb_spec 0 i); [|lia]. destruct (Z.ltb_spec i (msize m)); [reflexivity|lia]. }
  unfold is_ub.
  destruct (parse_cases _ _ cs h H B) as [[V E]|[V [[R E]|[(R & W & E)|(R & W & F & h' & E & _)]]]];
    rewrite E.
  - destruct V as (V1 & V2 & V3 & V4). split; [intros (w & X); discriminate|].
    intros [[X _]|[_ [X|X]]]; contradiction.
  - destruct cs; split.
    + intros (w & X); discriminate.
    + intros [[_ X]|[X _]]; [discriminate|contradiction].
    + auto.
    + eauto.
  - split; eauto.
  - split; [intros (w & X); discriminate|].
    intros [[X _]|[_ [X|X]]]; contradiction.
Qed.

Lemma header_ub_witness : exists m h,
  msize m = 36 /\ bytes_ok (mbyte m) /\ ~ header_valid (mbyte m) /\
  is_ub (readWaveHeaderFromBuffer (rd_mem m 0) (has_nul (mbyte m) 0 36) h).
Proof.
  exists (mkMem 36 (fun i => if i =? 0 then 82 else if i =? 1 then 73 else if (i =? 2) || (i =? 3) then 70 else 0)), hdr0.
  assert (B : bytes_ok (fun i => if i =? 0 then 82 else if i =? 1 then 73 else if (i =? 2) || (i =? 3) then 70 else 0)).
  { intro i. unfold byte_ok. destruct (i =? 0), (i =? 1), (i =? 2), (i =? 3); cbn; lia. }
  split; [reflexivity|]. split; [exact B|]. split.
  - intros (_ & X & _). vm_compute in X. discriminate.
  - exists UbPrintf. vm_compute. reflexivity.
Qed.
