(* Opening WAV data: C03, C04, C47. *)

From Coq Require Import ZArith Lia List Bool.
From RecordUpdate Require Import RecordUpdate.
From Verif Require Import Machine Floats WavModel WavSpec WavProofs InterpModel CacheModel CacheFacts
  ReaderModel ReaderSpec.
Import ListNotations.
Local Open Scope Z_scope.

Lemma slice_ext : forall b1 b2 o1 o2 n, (forall i, 0 <= i < Z.of_nat n -> b1 (o1 + i) = b2 (o2 + i)) ->
  slice b1 o1 n = slice b2 o2 n.
Proof.
  intros b1 b2 o1 o2 n H. unfold slice. apply map_ext_in. intros i Hi. apply in_seq in Hi.
  apply H. lia.
Qed.

Lemma slice4 : forall b o, slice b o 4 = [b o; b (o + 1); b (o + 2); b (o + 3)].
Proof. intros. unfold slice. cbn [seq map]. change (Z.of_nat 0) with 0. now rewrite Z.add_0_r. Qed.

Lemma le32u_ext : forall b1 b2 o1 o2, (forall i, 0 <= i < 4 -> b1 (o1 + i) = b2 (o2 + i)) ->
  le32u b1 o1 = le32u b2 o2.
Proof.
  intros b1 b2 o1 o2 H. unfold le32u.
  pose proof (H 0 ltac:(lia)) as H0. rewrite !Z.add_0_r in H0.
  rewrite H0, (H 1), (H 2), (H 3) by lia. reflexivity.
Qed.

Lemma header_valid_ext : forall b1 b2, (forall i, 0 <= i < 36 -> b1 i = b2 i) ->
  header_valid b1 -> header_valid b2.
Proof.
  intros b1 b2 H (V1 & V2 & V3 & V4). unfold header_valid.
  rewrite (slice_ext b2 b1 0 0), (slice_ext b2 b1 8 8), (slice_ext b2 b1 12 12), (slice_ext b2 b1 16 16)
    by (intros; symmetry; apply H; lia).
  repeat split; auto.
Qed.

Lemma infoTags_spec : forall rd b o, (forall i, o <= i < o + 8 -> rd i = Ok (b i)) ->
  (slice b o 4 = t_LIST /\ readInfoTags rd o = Ok (Some (u32 (le32u b (o + 4) + 8)))) \/
  (slice b o 4 = t_data /\ readInfoTags rd o = Ok (Some 0)) \/
  (slice b o 4 <> t_LIST /\ slice b o 4 <> t_data /\ readInfoTags rd o = Ok None).
Proof.
  intros rd b o H. unfold readInfoTags.
  destruct (list_eq_dec Z.eq_dec (slice b o 4) t_LIST) as [L|L].
  - left. split; auto. rewrite (tag4_true rd b) by (auto; intros; apply H; lia). cbn [bind].
    rewrite (rd32_spec rd b) by (intros; apply H; lia). reflexivity.
  - right. rewrite (tag4_false rd b) by (auto; intros; apply H; lia). cbn [bind].
    destruct (list_eq_dec Z.eq_dec (slice b o 4) t_data) as [D|D].
    + left. split; auto. rewrite (tag4_true rd b) by (auto; intros; apply H; lia). reflexivity.
    + right. rewrite (tag4_false rd b) by (auto; intros; apply H; lia). auto.
Qed.

Lemma dataHeader_spec : forall rd b o, (forall i, o <= i < o + 8 -> rd i = Ok (b i)) ->
  (slice b o 4 = t_data /\ readDataHeader rd o = Ok (Some (le32u b (o + 4)))) \/
  (slice b o 4 <> t_data /\ readDataHeader rd o = Ok None).
Proof.
  intros rd b o H. unfold readDataHeader.
  rewrite (copy4_spec rd b) by (intros; apply H; lia). cbn [bind].
  destruct (list_eq_dec Z.eq_dec (slice b o 4) t_data) as [D|D].
  - left. split; auto. rewrite (tag4_true rd b) by (auto; intros; apply H; lia). cbn [bind negb].
    rewrite (rd32_spec rd b) by (intros; apply H; lia). reflexivity.
  - right. rewrite (tag4_false rd b) by (auto; intros; apply H; lia). auto.
Qed.

Lemma rd_buf_ok : forall b o n i, o <= i < o + n -> rd_buf b i = Ok (b i).
Proof. reflexivity. Qed.

(* ---- file playback -------------------------------------------------------- *)

(* The header part of r_play_file, as a function of the file only: Some (position
   after the headers, header_offset, file_samples, channels) *)
Definition parse_file (keep : bool) (f : file) (stack : bytes) : res (option (Z * Z * Z * Z)) :=
  let b := fread f 0 36 stack in
  let p := fread_len f 0 36 in
  '(_, h) <- readWaveHeaderFromBuffer (rd_buf b) (has_nul b 0 36) hdr0 ;;
  if negb (h_bits h =? 16) then Ok None
  else
    let b1 := fread f p 8 b in
    let p1 := p + fread_len f p 8 in
    tags <- readInfoTags (rd_buf b1) 0 ;;
    match tags with
    | None => Ok None
    | Some n =>
        let p2 := fseek keep f p1 (u32 (36 + n)) in
        let b2 := fread f p2 8 b1 in
        let p3 := p2 + fread_len f p2 8 in
        dh <- readDataHeader (rd_buf b2) 0 ;;
        match dh with
        | None => Ok None
        | Some db => Ok (Some (p3, u32 (44 + n) / 2, db / 2, h_channels h))
        end
    end.

Lemma fread_at : forall f p n b i, 0 <= i < fread_len f p n -> fread f p n b i = fbyte f (p + i).
Proof.
  intros f p n b i H. unfold fread. cbv zeta.
  destruct (Z.leb_spec 0 i); [|lia]. destruct (Z.ltb_spec i (fread_len f p n)); [reflexivity|lia].
Qed.
Lemma fread_out : forall f p n b i, fread_len f p n <= i -> fread f p n b i = b i.
Proof.
  intros f p n b i H. unfold fread. cbv zeta.
  destruct (Z.ltb_spec i (fread_len f p n)); [lia|]. now rewrite andb_false_r.
Qed.
Lemma fread_ok : forall f p n b, bytes_ok (fbyte f) -> bytes_ok b -> bytes_ok (fread f p n b).
Proof.
  intros f p n b F B i. unfold fread. destruct ((0 <=? i) && (i <? fread_len f p n)); auto.
Qed.

Lemma parse_file_spec : forall keep f stack o, bytes_ok (fbyte f) -> bytes_ok stack ->
  0 <= fsize f -> list_sane (fsize f) (fbyte f) ->
  parse_file keep f stack = Ok o ->
  match o with
  | None => ~ file_plays (fsize f) (fbyte f)
  | Some (p3, hd, fs, ch) =>
      (file_plays (fsize f) (fbyte f) <-> 2 * hd < fsize f) /\ 0 <= hd < 2 ^ 31 /\
      (2 * hd < fsize f -> ch = hdr_channels (fbyte f)) /\
      (2 * hd < fsize f -> exists tags n, data_chunk (fbyte f) tags n /\ hd = (44 + tags) / 2 /\ fs = n / 2
                             /\ p3 = 44 + tags)
  end.
Proof.
  intros keep f stack o BF BS S0 LS H. unfold parse_file in H.
  set (b := fread f 0 36 stack) in *. set (p := fread_len f 0 36) in *.
  assert (Bb : bytes_ok b) by (now apply fread_ok).
  destruct (parse_cases (rd_buf b) b (has_nul b 0 36) hdr0 (fun i _ => eq_refl) Bb)
    as [[V E]|[V E]].
  2:{ (* header not accepted *)
    assert (O : o = None).
    { destruct E as [[R E]|[(R & W & E)|(R & W & F & h' & E & HB)]]; rewrite E in H.
      - destruct (has_nul b 0 36); cbn in H; congruence.
      - discriminate.
      - cbn [bind] in H. rewrite HB in H. cbn in H. congruence. }
    subst o. intros (V2 & B2 & tags & n & D & L).
    apply V. apply (header_valid_ext (fbyte f)); auto.
    assert (T0 : 0 <= tags).
    { destruct D as ([->|[_ ->]] & _); [lia|]. pose proof (le32u_range (fbyte f) 40 BF). unfold in_u32 in *. lia. }
    intros i Hi. symmetry. unfold b. apply fread_at. unfold fread_len.
    assert (44 <= 2 * ((44 + tags) / 2)) by (Z.div_mod_to_equations; lia). lia. }
  rewrite E in H. cbn [bind] in H. change (h_bits (parsed b)) with (le16 b 34) in H.
  destruct (Z.eqb_spec (le16 b 34) 16) as [E16|E16]; cbn [negb] in H.
  2:{ apply Ok_inj in H; subst o. intros (V2 & B2 & tags & n & D & L).
    apply E16. rewrite <- B2. unfold hdr_bits, le16, le16u.
    assert (T0 : 0 <= tags).
    { destruct D as ([->|[_ ->]] & _); [lia|]. pose proof (le32u_range (fbyte f) 40 BF). unfold in_u32 in *. lia. }
    assert (44 <= 2 * ((44 + tags) / 2)) by (Z.div_mod_to_equations; lia).
    unfold b. rewrite !fread_at by (unfold fread_len; lia). reflexivity. }
  set (b1 := fread f p 8 b) in *.
  assert (Bb1 : bytes_ok b1) by (now apply fread_ok).
  destruct (Z.lt_ge_cases (fsize f) 40) as [S40|S40].
  - (* too short to hold a chunk tag: byte 3 is still the F of RIFF *)
    assert (F3 : b1 3 = 70).
    { unfold b1. rewrite fread_out.
      - destruct V as (V1 & _). rewrite slice4 in V1. injection V1. auto.
      - unfold p, fread_len in *. lia. }
    destruct (infoTags_spec (rd_buf b1) b1 0 (fun i _ => eq_refl)) as [[L _]|[[L _]|(_ & _ & X)]].
    + rewrite slice4 in L. injection L. intros. change (0 + 3) with 3 in *. lia.
    + rewrite slice4 in L. injection L. intros. change (0 + 3) with 3 in *. lia.
    + rewrite X in H. cbn [bind] in H. apply Ok_inj in H; subst o.
      intros (V2 & B2 & tags & n & D & L).
      assert (T0 : 0 <= tags).
      { destruct D as ([->|[_ ->]] & _); [lia|]. pose proof (le32u_range (fbyte f) 40 BF). unfold in_u32 in *. lia. }
      assert (44 <= 2 * ((44 + tags) / 2)) by (Z.div_mod_to_equations; lia). lia.
  - assert (P36 : p = 36) by (unfold p, fread_len; lia).
    assert (Eb : forall i, 0 <= i < 36 -> b i = fbyte f i).
    { intros i Hi. unfold b. rewrite fread_at; [now rewrite Z.add_0_l|fold p; lia]. }
    assert (Vf : header_valid (fbyte f)) by (now apply (header_valid_ext b)).
    assert (E16f : hdr_bits (fbyte f) = 16).
    { rewrite <- E16. unfold hdr_bits, le16, le16u. rewrite !Eb by lia. reflexivity. }
    assert (Ch : h_channels (parsed b) = hdr_channels (fbyte f)).
    { cbn. unfold hdr_channels, le16, le16u. rewrite !Eb by lia. reflexivity. }
    assert (Et : slice b1 0 4 = slice (fbyte f) 36 4).
    { apply slice_ext. intros i Hi. rewrite Z.add_0_l. unfold b1. rewrite fread_at; rewrite ?P36; auto.
      unfold fread_len. lia. }
    assert (E8 : 44 <= fsize f -> le32u b1 4 = le32u (fbyte f) 40).
    { intro Q. apply le32u_ext. intros i Hi. unfold b1. rewrite fread_at.
      - rewrite P36. f_equal. lia.
      - rewrite P36. unfold fread_len. lia. }
    destruct (infoTags_spec (rd_buf b1) b1 0 (fun i _ => eq_refl)) as [[L X]|[[L X]|(L & D & X)]];
      rewrite X in H; cbn [bind] in H; rewrite Et in *.
    + (* LIST chunk *)
      destruct (LS L) as [?|[S44 NW]]; [lia|].
      change (0 + 4) with 4 in *. rewrite (E8 S44) in *.
      set (n := le32u (fbyte f) 40) in *.
      assert (N0 : 0 <= n) by (pose proof (le32u_range (fbyte f) 40 BF); unfold in_u32 in *; lia).
      set (t := n + 8) in *.
      assert (UT : u32 t = t) by (apply u32_id; unfold in_u32; lia). rewrite UT in H.
      rewrite (u32_id (36 + t)), (u32_id (44 + t)) in H by (unfold in_u32; lia).
      assert (P1 : p + fread_len f p 8 = 44) by (rewrite P36; unfold fread_len; lia).
      rewrite P1 in H. set (p2 := fseek keep f 44 (36 + t)) in *. set (b2 := fread f p2 8 b1) in *.
      assert (HD : 0 <= (44 + t) / 2 < 2 ^ 31) by (Z.div_mod_to_equations; lia).
      assert (TG : forall tags n0, data_chunk (fbyte f) tags n0 -> tags = t).
      { intros tags n0 ([->|[_ ->]] & D & _); auto. rewrite Z.add_0_r, L in D. discriminate. }
      destruct (Z.lt_ge_cases (2 * ((44 + t) / 2)) (fsize f)) as [A|A].
      * assert (FS : 44 + t <= fsize f) by (Z.div_mod_to_equations; lia).
        assert (P2 : p2 = 36 + t).
        { unfold p2, fseek. destruct (Z.leb_spec (36 + t) (fsize f)); auto. lia. }
        assert (F8 : fread_len f p2 8 = 8) by (rewrite P2; unfold fread_len; lia).
        assert (Ed : slice b2 0 4 = slice (fbyte f) (36 + t) 4).
        { apply slice_ext. intros i Hi. rewrite Z.add_0_l. unfold b2. rewrite fread_at; rewrite ?P2; auto. rewrite P2 in F8. lia. }
        assert (En : le32u b2 4 = le32u (fbyte f) (40 + t)).
        { apply le32u_ext. intros i Hi. unfold b2. rewrite fread_at; [rewrite P2; f_equal; lia|lia]. }
        destruct (dataHeader_spec (rd_buf b2) b2 0 (fun i _ => eq_refl)) as [[D Y]|[D Y]];
          rewrite Y in H; cbn [bind] in H; apply Ok_inj in H; subst o; rewrite Ed in D.
        -- change (0 + 4) with 4. rewrite En, F8, P2.
           assert (DC : data_chunk (fbyte f) t (le32u (fbyte f) (40 + t))).
           { split; [right; auto|]. split; auto. }
           split; [split; auto; intros _; split; auto; split; auto; exists t, (le32u (fbyte f) (40 + t)); auto|].
           split; [exact HD|]. split; [intros _; exact Ch|].
           intros _. exists t, (le32u (fbyte f) (40 + t)). split; auto. split; auto. split; auto. lia.
        -- intros (_ & _ & tags & n0 & DC & _). pose proof (TG _ _ DC). subst tags.
           destruct DC as (_ & D2 & _). contradiction.
      * destruct (dataHeader_spec (rd_buf b2) b2 0 (fun i _ => eq_refl)) as [[D Y]|[D Y]];
          rewrite Y in H; cbn [bind] in H; apply Ok_inj in H; subst o.
        -- split; [split; [|intros; exfalso; lia]|split; [exact HD|split; intros; exfalso; lia]].
           intros (_ & _ & tags & n0 & DC & Q). pose proof (TG _ _ DC). subst tags. exact Q.
        -- intros (_ & _ & tags & n0 & DC & Q). pose proof (TG _ _ DC). subst tags. lia.
    + (* data chunk at once *)
      change (u32 (36 + 0)) with 36 in H. change (u32 (44 + 0) / 2) with 22 in H.
      assert (P2 : fseek keep f (p + fread_len f p 8) 36 = 36).
      { unfold fseek. destruct (Z.leb_spec 36 (fsize f)); auto. lia. }
      rewrite P2 in H. set (b2 := fread f 36 8 b1) in *.
      assert (TG : forall tags n0, data_chunk (fbyte f) tags n0 -> tags = 0).
      { intros tags n0 ([->|[D2 _]] & _); auto. rewrite L in D2. discriminate. }
      destruct (Z.lt_ge_cases 44 (fsize f)) as [A|A].
      * assert (F8 : fread_len f 36 8 = 8) by (unfold fread_len; lia).
        assert (Ed : slice b2 0 4 = slice (fbyte f) 36 4).
        { apply slice_ext. intros i Hi. rewrite Z.add_0_l. unfold b2. rewrite fread_at; auto. lia. }
        assert (En : le32u b2 4 = le32u (fbyte f) 40).
        { apply le32u_ext. intros i Hi. unfold b2. rewrite fread_at; [f_equal; lia|lia]. }
        destruct (dataHeader_spec (rd_buf b2) b2 0 (fun i _ => eq_refl)) as [[D Y]|[D Y]];
          rewrite Y in H; cbn [bind] in H; apply Ok_inj in H; subst o; rewrite Ed in D; [|contradiction].
        change (0 + 4) with 4. rewrite En, F8.
        assert (DC : data_chunk (fbyte f) 0 (le32u (fbyte f) 40)) by (split; [auto|split; auto]).
        split; [split; [intros _; lia|]|].
        { intros _. split; auto. split; auto. exists 0, (le32u (fbyte f) 40). split; [exact DC|].
          change ((44 + 0) / 2) with 22. lia. }
        split; [lia|]. split; [intros _; exact Ch|].
        intros _. exists 0, (le32u (fbyte f) 40). auto.
      * assert (NP : ~ file_plays (fsize f) (fbyte f)).
        { intros (_ & _ & tags & n0 & DC & Q). pose proof (TG _ _ DC). subst tags.
          change ((44 + 0) / 2) with 22 in Q. lia. }
        destruct (dataHeader_spec (rd_buf b2) b2 0 (fun i _ => eq_refl)) as [[D Y]|[D Y]];
          rewrite Y in H; cbn [bind] in H; apply Ok_inj in H; subst o; auto.
        split; [split; [tauto|intros; exfalso; lia]|split; [lia|split; intros; exfalso; lia]].
    + apply Ok_inj in H; subst o.
      intros (_ & _ & tags & n0 & ([->|[D2 _]] & D3 & _) & _); [|contradiction].
      rewrite Z.add_0_r in D3. contradiction.
Qed.

Lemma play_header_parse : forall r f stack,
  match parse_file (c_keep (r_cfg r)) f stack with
  | Ok (Some (p3, hd, fs, ch)) =>
      play_header r f stack =
        Ok (Some p3, setNumChannels r (u16 ch) <| r_hdr := hd |> <| r_fsamples := fs |>)
  | Ok None => play_header r f stack = Ok (None, r) \/
               exists n, play_header r f stack = Ok (None, setNumChannels r n)
  | UB w => play_header r f stack = UB w
  | NoFuel => True
  end.
Proof.
  intros r f stack. unfold parse_file, play_header.
  destruct (readWaveHeaderFromBuffer _ _ _) as [[ok h]| |]; cbn [bind]; auto.
  destruct (negb (h_bits h =? 16)); auto.
  destruct (readInfoTags _ _) as [[n|]| |]; cbn [bind]; eauto.
  destruct (readDataHeader _ _) as [[db|]| |]; cbn [bind]; eauto.
Qed.

Lemma reset_playing : forall r r', r_reset r = Ok r' -> r_playing r' = r_playing r.
Proof.
  intros r r' H. unfold r_reset in H. apply bind_ok in H. destruct H as (p & _ & H).
  apply Ok_inj in H. subst. reflexivity.
Qed.

Lemma reset_nch : forall r r', r_reset r = Ok r' -> r_nch r' = r_nch r.
Proof.
  intros r r' H. unfold r_reset in H. apply bind_ok in H. destruct H as (p & _ & H).
  apply Ok_inj in H. subst. reflexivity.
Qed.

Lemma reset_fields : forall r r', r_reset r = Ok r' ->
  exists p, r' = r <| r_npts := fun c => if (0 <=? c) && (c <? 8) then 0 else r_npts r c |>
        <| r_pos1 := p |> <| r_cf := d0 |> <| r_cfst := 0 |>.
Proof.
  intros r r' H. unfold r_reset in H. apply bind_ok in H. destruct H as (p & _ & H).
  apply Ok_inj in H. subst. eauto.
Qed.


Lemma setLoopType_proj : forall r l g, r_src r = SFile g ->
  let q := setLoopType r l in
  r_src q = SFile (if_setLoopType g l) /\ r_pstart q = r_pstart r /\ r_nch q = r_nch r /\
  r_fsize q = r_fsize r /\ r_hdr q = r_hdr r /\ r_rate q = r_rate r.
Proof. intros r l g H. unfold setLoopType. rewrite H. repeat split. Qed.
Lemma setLoopStart_proj : forall r v g, r_src r = SFile g ->
  let q := setLoopStart r v in
  r_src q = SFile (if_setLoopStart g (spos r (s32 v))) /\ r_pstart q = r_pstart r /\ r_nch q = r_nch r /\
  r_fsize q = r_fsize r /\ r_hdr q = r_hdr r /\ r_rate q = r_rate r.
Proof.
  intros r v g H. unfold setLoopStart. change (r_src (r <| r_ls := s32 v |>)) with (r_src r).
  rewrite H. repeat split.
Qed.
Lemma setLoopFinish_proj : forall r v g, r_src r = SFile g ->
  let q := setLoopFinish r v in
  r_src q = SFile (if_setLoopFinish g (spos r (s32 v))) /\ r_pstart q = r_pstart r /\ r_nch q = r_nch r /\
  r_fsize q = r_fsize r /\ r_hdr q = r_hdr r /\ r_rate q = r_rate r.
Proof.
  intros r v g H. unfold setLoopFinish. change (r_src (r <| r_lf := s32 v |>)) with (r_src r).
  rewrite H. repeat split.
Qed.


Lemma open_src_proj : forall r fs f p garbage,
  let q := open_src r fs f p garbage in
  r_src q = SFile (if_new (r_cfg r) f p garbage) /\ r_pstart q = r_pstart r /\ r_nch q = r_nch r /\
  r_fsize q = r_fsize r /\ r_hdr q = r_hdr r /\ r_rate q = r_rate r.
Proof. intros. unfold q, open_src. destruct (r_loop r); repeat split. Qed.

(* The source object after the loop settings have been copied *)
Lemma copy_loop_proj : forall r g, r_src r = SFile g ->
  let q := copy_loop r in
  (exists g', r_src q = SFile g' /\ i_bufs g' = i_bufs g /\ i_cfg g' = i_cfg g /\ i_file g' = i_file g
     /\ i_pos g' = i_pos g /\ i_loop g' = r_loop r) /\
  r_pstart q = r_pstart r /\ r_nch q = r_nch r /\
  r_fsize q = r_fsize r /\ r_hdr q = r_hdr r /\ r_rate q = r_rate r.
Proof.
  intros r g H q. unfold copy_loop in q.
  destruct (setLoopType_proj r (r_loop r) _ H) as (S2 & P2 & N2 & F2 & H2 & R2).
  subst q. cbv zeta in *.
  set (r2 := setLoopType r (r_loop r)) in *. clearbody r2.
  destruct (setLoopStart_proj r2 (r_ls r2) _ S2) as (S3 & P3 & N3 & F3 & H3 & R3).
  set (r3 := setLoopStart r2 (r_ls r2)) in *. clearbody r3.
  destruct (setLoopFinish_proj r3 (r_lf r3) _ S3) as (S4 & P4 & N4 & F4 & H4 & R4).
  set (r4 := setLoopFinish r3 (r_lf r3)) in *. clearbody r4.
  split.
  { eexists. split; [exact S4|]. repeat split. }
  rewrite P4, N4, F4, H4, R4, P3, N3, F3, H3, R3, P2, N2, F2, H2, R2. repeat split.
Qed.

Lemma start_file_result : forall r ok r', start_file r = Ok (ok, r') ->
  ok = true /\ r_playing r' = true /\ r_nch r' = r_nch r.
Proof.
  intros r ok r' H. unfold start_file in H.
  apply bind_ok in H. destruct H as (r2 & R & H).
  destruct (r_src r2) as [| |g] eqn:S2; try discriminate.
  apply bind_ok in H. destruct H as ([t g'] & _ & H).
  apply Ok_inj in H. injection H as <- <-. split; auto. split; [reflexivity|].
  apply reset_nch in R. exact R.
Qed.

Lemma play_open_result : forall r f p garbage ok r',
  play_open r f p garbage = Ok (ok, r') ->
  (ok = true <-> u32 (r_hdr r * 2) < u32 (r_fsize r)) /\ r_playing r' = ok /\ r_nch r' = r_nch r.
Proof.
  intros r f p garbage ok r' H. unfold play_open in H.
  destruct (Z.leb_spec (u32 (r_fsize r)) (u32 (r_hdr r * 2))) as [L|L].
  - apply Ok_inj in H. injection H as <- <-. split; [split; [discriminate|lia]|split; reflexivity].
  - apply bind_ok in H. destruct H as (fs & _ & H).
    apply start_file_result in H. destruct H as (-> & P & N).
    split; [split; [intros; lia|auto]|]. split; [exact P|]. rewrite N.
    destruct (open_src_proj r fs f p garbage) as (S1 & _ & N1 & _).
    destruct (copy_loop_proj _ _ S1) as (_ & _ & N2 & _). now rewrite N2, N1.
Qed.

Lemma close_fields : forall r, r_playing (r_close r) = false /\ r_kind (r_close r) = r_kind r /\
  r_cfg (r_close r) = r_cfg r.
Proof. intro r. unfold r_close. destruct (r_kind r) eqn:K; cbn; auto. Qed.

Lemma playWav_file_result : forall r fo nraw stack garbage ok r',
  r_kind r <> KArray -> bytes_ok stack ->
  (forall f, fo = Some f -> bytes_ok (fbyte f) /\ 0 <= fsize f < 2 ^ 31 /\ list_sane (fsize f) (fbyte f)) ->
  r_play_file r fo true nraw stack garbage = Ok (ok, r') ->
  (ok = true <-> exists f, fo = Some f /\ file_plays (fsize f) (fbyte f)) /\
  r_playing r' = ok /\
  (forall f, fo = Some f -> ok = true -> r_nch r' = hdr_channels (fbyte f)).
Proof.
  intros r fo nraw stack garbage ok r' K BS HF H. unfold r_play_file in H.
  destruct (close_fields r) as (CP & CK & CC).
  set (r1 := r_close r <| r_fname := true |> <| r_live := r_live (r_close r) + 1 |>) in *.
  assert (KK : match r_kind r1 with KArray => None | _ => fo end = fo).
  { change (r_kind r1) with (r_kind (r_close r)). rewrite CK. destruct (r_kind r); congruence. }
  rewrite KK in H. destruct fo as [f|].
  2:{ apply Ok_inj in H. injection H as <- <-. split; [split; [discriminate|intros (f & X & _); discriminate]|].
      split; [exact CP|]. intros f X; discriminate. }
  destruct (HF f eq_refl) as (BF & S & LS).
  set (r2 := r1 <| r_fsize := s32 (fsize f) |>) in *.
  apply bind_ok in H. destruct H as ([o r3] & PH & H).
  pose proof (play_header_parse r2 f stack) as PP.
  change (r_cfg r2) with (r_cfg (r_close r)) in PP. rewrite CC in PP.
  destruct (parse_file (c_keep (r_cfg r)) f stack) as [[[[[p3 hd] fs] ch]|]|w|] eqn:PF.
  - rewrite PP in PH. apply Ok_inj in PH. injection PH as <- <-.
    pose proof (parse_file_spec _ f stack _ BF BS (proj1 S) LS PF) as (A & B & C & D).
    apply play_open_result in H. destruct H as (H1 & H2 & H3).
    cbn [r_hdr r_fsize r_nch setNumChannels] in *.
    match type of H1 with context [u32 (r_hdr ?q * 2)] =>
      change (r_hdr q) with hd in H1; change (r_fsize q) with (s32 (fsize f)) in H1 end.
    rewrite s32_id in H1 by (unfold in_s32; lia).
    rewrite !u32_id in H1 by (unfold in_u32; lia).
    assert (AC : ok = true <-> file_plays (fsize f) (fbyte f)) by (rewrite H1, A; lia).
    split.
    { rewrite AC. split; [eauto|intros (g & X & Y); injection X as <-; auto]. }
    split; [exact H2|]. intros g X Y. injection X as <-. rewrite H3. cbn.
    assert (H0 : 2 * hd < fsize f) by (apply H1 in Y; lia).
    rewrite (C H0). unfold hdr_channels.
    pose proof (le16_range (fbyte f) 22) as R. unfold in_s16 in R.
    unfold s16, u16. Z.div_mod_to_equations; lia.
  - assert (NP := parse_file_spec _ f stack _ BF BS (proj1 S) LS PF). cbn in NP.
    assert (X : o = None /\ r_playing r3 = false).
    { destruct PP as [PP|[n PP]]; rewrite PP in PH; apply Ok_inj in PH; injection PH as <- <-; auto. }
    destruct X as [-> X]. apply Ok_inj in H. injection H as <- <-.
    split; [split; [discriminate|intros (g & Y & Z); injection Y as <-; contradiction]|].
    split; [exact X|]. discriminate.
  - rewrite PP in PH. discriminate.
  - exfalso. clear PP. revert PF. unfold parse_file.
    destruct (parse_cases (rd_buf (fread f 0 36 stack)) (fread f 0 36 stack)
      (has_nul (fread f 0 36 stack) 0 36) hdr0 (fun i _ => eq_refl) (fread_ok _ _ _ _ BF BS))
      as [[V E]|[V [[R E]|[(R & W & E)|(R & W & F & h' & E & HB)]]]]; rewrite E.
    + cbn [bind]. destruct (negb _); [discriminate|].
      match goal with |- context [readInfoTags (rd_buf ?b1) 0] =>
        destruct (infoTags_spec (rd_buf b1) b1 0 (fun i _ => eq_refl)) as [[_ X]|[[_ X]|(_ & _ & X)]] end;
        rewrite X; cbn [bind]; try discriminate;
      match goal with |- context [readDataHeader (rd_buf ?b1) 0] =>
        destruct (dataHeader_spec (rd_buf b1) b1 0 (fun i _ => eq_refl)) as [[_ Y]|[_ Y]] end;
        rewrite Y; cbn [bind]; discriminate.
    + destruct (has_nul _ 0 36); cbn [bind]; [cbn; discriminate|discriminate].
    + discriminate.
    + cbn [bind]. rewrite HB. cbn. discriminate.
Qed.

(* ---- definedness ---- *)

Lemma reset_total : forall r, r_pstart r = PSample -> in_s16 (r_nch r) -> 0 <= r_fsize r < 2 ^ 31 ->
  0 <= r_hdr r <= 2 ^ 30 ->
  exists p, r_reset r = Ok (r <| r_npts := fun c => if (0 <=? c) && (c <? 8) then 0 else r_npts r c |>
        <| r_pos1 := p |> <| r_cf := d0 |> <| r_cfst := 0 |>) /\ - 2 ^ 30 <= p <= 2 ^ 30 + 2 ^ 15.
Proof.
  intros r P N S H. unfold r_reset, in_s16 in *. rewrite P.
  destruct (dle d0 (r_rate r)).
  - eexists. split; [reflexivity|]. unfold spos, sts. rewrite s32_u32.
    rewrite Z.mul_0_l, Z.add_0_r, s32_id by (unfold in_s32; lia). lia.
  - assert (0 <= Z.quot (r_fsize r) 2 < 2 ^ 30)
      by (rewrite Z.quot_div_nonneg by lia; Z.div_mod_to_equations; lia).
    rewrite chk32_ok by (unfold in_s32; lia).
    eexists. split; [reflexivity|]. lia.
Qed.

Lemma start_file_total : forall r g, r_src r = SFile g -> cfg_ok (i_cfg g) -> i_bufs g = [] ->
  r_pstart r = PSample -> in_s16 (r_nch r) -> 0 <= r_fsize r < 2 ^ 31 -> 0 <= r_hdr r <= 2 ^ 30 ->
  is_ok (start_file r).
Proof.
  intros r g SG C B P N S H. unfold start_file.
  destruct (reset_total r P N S H) as (pp & -> & PB). cbn [bind].
  match goal with |- is_ok (match r_src ?q with _ => _ end) =>
    assert (X : r_src q = SFile g) by exact SG; assert (Y : r_pos1 q = pp) by reflexivity;
    set (r1 := q) in *; clearbody r1 end.
  rewrite X, Y.
  destruct (preLoadBuffers_total g pp (dle d0 (r_rate r1)) C B PB) as [[t g'] ->].
  cbn [bind]. eexists. reflexivity.
Qed.

Lemma play_open_total : forall r f p garbage, cfg_ok (r_cfg r) -> r_pstart r = PSample ->
  (r_hdr r * 2 < r_fsize r -> r_nch r <> 0) -> in_s16 (r_nch r) -> 0 <= r_fsamples r < 2 ^ 31 ->
  0 <= r_fsize r < 2 ^ 31 -> 0 <= r_hdr r < 2 ^ 31 ->
  is_ok (play_open r f p garbage).
Proof.
  intros r f p garbage C P N' NS F S H. unfold play_open.
  rewrite (u32_id (r_fsize r)), (u32_id (r_hdr r * 2)) by (unfold in_u32; lia).
  destruct (Z.leb_spec (r_fsize r) (r_hdr r * 2)) as [L|L]; [eexists; reflexivity|].
  specialize (N' L). rename N' into N.
  unfold sdiv32. destruct (Z.eqb_spec (r_nch r) 0); [contradiction|].
  assert (Q : Z.abs (Z.quot (r_fsamples r) (r_nch r)) <= r_fsamples r).
  { pose proof (Z.quot_abs (r_fsamples r) (r_nch r) N) as A.
    rewrite <- A, (Z.abs_eq (r_fsamples r)) by lia.
    rewrite Z.quot_div_nonneg by lia.
    pose proof (Z.div_le_upper_bound (r_fsamples r) (Z.abs (r_nch r)) (r_fsamples r)). nia. }
  rewrite chk32_ok by (unfold in_s32; lia). cbn [bind].
  set (fs := Z.quot _ _) in *.
  destruct (open_src_proj r fs f p garbage) as (S1 & P1 & N1 & F1 & H1 & _).
  set (r1 := open_src r fs f p garbage) in *. clearbody r1.
  destruct (copy_loop_proj _ _ S1) as ((g' & S2 & B2 & C2 & _) & P2 & N2 & F2 & H2 & _).
  set (r2 := copy_loop r1) in *. clearbody r2.
  apply (start_file_total r2 g' S2).
  - rewrite C2. exact C.
  - exact B2.
  - now rewrite P2, P1.
  - now rewrite N2, N1.
  - now rewrite F2, F1.
  - rewrite H2, H1. lia.
Qed.

(* The headers on which the parser is defined: see header_ub *)
Definition header_safe (b : bytes) : Prop :=
  (slice b 0 4 = t_RIFF -> slice b 8 4 = t_WAVE /\ slice b 12 4 = t_fmt) /\
  (slice b 0 4 <> t_RIFF -> exists i, 0 <= i < 36 /\ b i = 0).

Lemma has_nul_at : forall n b o i, o <= i < o + Z.of_nat n -> b i = 0 -> has_nul b o n = true.
Proof.
  induction n as [|n IH]; intros b o i H E; [lia|]. cbn [has_nul].
  destruct (Z.eq_dec i o) as [->|N].
  - rewrite E. reflexivity.
  - rewrite (IH b (o + 1) i) by (auto; lia). apply orb_true_r.
Qed.

Lemma parse_file_ok : forall keep f stack, bytes_ok (fbyte f) -> bytes_ok stack -> 36 <= fsize f ->
  header_safe (fbyte f) -> exists o, parse_file keep f stack = Ok o.
Proof.
  intros keep f stack BF BS S [H1 H2]. unfold parse_file.
  set (b := fread f 0 36 stack).
  assert (EB : forall i, 0 <= i < 36 -> b i = fbyte f i).
  { intros i Hi. unfold b. rewrite fread_at; [reflexivity|]. unfold fread_len. lia. }
  assert (SB : forall o, 0 <= o <= 32 -> slice b o 4 = slice (fbyte f) o 4).
  { intros o Ho. apply slice_ext. intros i Hi. apply EB. cbn in Hi. lia. }
  destruct (parse_cases (rd_buf b) b (has_nul b 0 36) hdr0 (fun i _ => eq_refl) (fread_ok _ _ _ _ BF BS))
      as [[V E]|[V [[R E]|[(R & W & E)|(R & W & F & h' & E & HB)]]]]; rewrite E.
  - cbn [bind]. destruct (negb _); [eexists; reflexivity|].
    match goal with |- context [readInfoTags (rd_buf ?b1) 0] =>
      destruct (infoTags_spec (rd_buf b1) b1 0 (fun i _ => eq_refl)) as [[_ X]|[[_ X]|(_ & _ & X)]] end;
      rewrite X; cbn [bind]; try (eexists; reflexivity);
    match goal with |- context [readDataHeader (rd_buf ?b1) 0] =>
      destruct (dataHeader_spec (rd_buf b1) b1 0 (fun i _ => eq_refl)) as [[_ Y]|[_ Y]] end;
      rewrite Y; cbn [bind]; eexists; reflexivity.
  - rewrite SB in R by lia. destruct (H2 R) as (i & Hi & Z0).
    rewrite (has_nul_at 36 b 0 i) by (try (rewrite EB by lia); auto). cbn [bind].
    eexists. reflexivity.
  - rewrite !SB in * by lia. destruct (H1 R). destruct W; contradiction.
  - cbn [bind]. rewrite HB. eexists. reflexivity.
Qed.

Lemma parse_file_samples : forall keep f stack p3 hd fs ch, bytes_ok (fbyte f) -> bytes_ok stack ->
  parse_file keep f stack = Ok (Some (p3, hd, fs, ch)) -> 0 <= fs < 2 ^ 31.
Proof.
  intros keep f stack p3 hd fs ch BF BS H. unfold parse_file in H.
  apply bind_ok in H. destruct H as ([k h] & _ & H). destruct (negb _); [discriminate|].
  apply bind_ok in H. destruct H as (tags & _ & H). destruct tags as [n|]; [|discriminate].
  apply bind_ok in H. destruct H as (dh & D & H). destruct dh as [db|]; [|discriminate].
  apply Ok_inj in H. assert (E : fs = db / 2) by congruence. rewrite E. clear H E.
  match type of D with readDataHeader (rd_buf ?b1) 0 = _ =>
    assert (Bb : bytes_ok b1) by (repeat apply fread_ok; auto);
    destruct (dataHeader_spec (rd_buf b1) b1 0 (fun i _ => eq_refl)) as [[_ Y]|[_ Y]] end.
  - rewrite Y in D. apply Ok_inj in D.
    match type of D with Some ?x = _ => replace db with x by congruence end.
    pose proof (le32u_range _ (0 + 4) Bb) as X. unfold in_u32 in X.
    split; [apply Z.div_pos; lia|apply Z.div_lt_upper_bound; lia].
  - rewrite Y in D. discriminate.
Qed.

Lemma r_close_proj : forall r, r_kind (r_close r) = r_kind r /\ r_cfg (r_close r) = r_cfg r /\
  r_pstart (r_close r) = r_pstart r /\ r_playing (r_close r) = false.
Proof. intro r. unfold r_close. destruct (r_kind r) eqn:K; cbn; auto. Qed.

Lemma playWav_file_total : forall r f nraw stack garbage,
  r_kind r <> KArray -> cfg_ok (r_cfg r) -> r_pstart r = PSample ->
  bytes_ok stack -> bytes_ok (fbyte f) -> 36 <= fsize f < 2 ^ 31 -> list_sane (fsize f) (fbyte f) ->
  header_safe (fbyte f) -> (file_plays (fsize f) (fbyte f) -> hdr_channels (fbyte f) <> 0) ->
  is_ok (r_play_file r (Some f) true nraw stack garbage).
Proof.
  intros r f nraw stack garbage K C P BS BF S LS HS CH. unfold r_play_file.
  destruct (r_close_proj r) as (CK & CC & CP & _).
  set (r1 := r_close r <| r_fname := true |> <| r_live := r_live (r_close r) + 1 |>).
  replace (match r_kind r1 with KArray => None | _ => Some f end) with (Some f)
    by (change (r_kind r1) with (r_kind (r_close r)); rewrite CK; destruct (r_kind r); congruence).
  set (r2 := r1 <| r_fsize := s32 (fsize f) |>).
  assert (R2 : r_cfg r2 = r_cfg r /\ r_pstart r2 = r_pstart r /\ r_fsize r2 = fsize f).
  { split; [exact CC|]. split; [exact CP|]. apply s32_id. unfold in_s32. lia. }
  clearbody r2. clear r1 CK CC CP. destruct R2 as (CC & CP & CS).
  destruct (parse_file_ok (c_keep (r_cfg r)) f stack BF BS ltac:(lia) HS) as (o & PF).
  pose proof (play_header_parse r2 f stack) as PP. rewrite CC, PF in PP.
  destruct o as [[[[p3 hd] fs] ch]|].
  - rewrite PP. cbn [bind].
    pose proof (parse_file_spec _ f stack _ BF BS ltac:(lia) LS PF) as (A & B & D & _).
    pose proof (parse_file_samples _ _ _ _ _ _ _ BF BS PF) as FS.
    set (r3 := setNumChannels r2 (u16 ch) <| r_hdr := hd |> <| r_fsamples := fs |>).
    assert (R3 : r_cfg r3 = r_cfg r2 /\ r_pstart r3 = r_pstart r2 /\ r_fsize r3 = r_fsize r2 /\
      r_hdr r3 = hd /\ r_fsamples r3 = fs /\ r_nch r3 = s16 (u16 ch)) by (repeat split).
    clearbody r3. destruct R3 as (E1 & E2 & E3 & E4 & E5 & E6).
    apply play_open_total.
    + now rewrite E1, CC.
    + now rewrite E2, CP.
    + rewrite E3, E4, CS, E6. intros L. assert (L' : 2 * hd < fsize f) by lia.
      rewrite (D L'). apply A in L'. specialize (CH L'). unfold hdr_channels in *.
      pose proof (le16_range (fbyte f) 22) as R. unfold in_s16 in R.
      unfold s16, u16. Z.div_mod_to_equations; lia.
    + rewrite E6. apply s16_range.
    + now rewrite E5.
    + rewrite E3, CS. lia.
    + now rewrite E4.
  - destruct PP as [PP|[n PP]]; rewrite PP; cbn [bind]; eexists; reflexivity.
Qed.

(* ---- C47: malformed channel counts -------------------------------------- *)

(* Zero channels: division by zero while opening *)
Lemma zero_channels_ub : forall r f nraw stack garbage,
  r_kind r <> KArray -> bytes_ok stack -> bytes_ok (fbyte f) -> 36 <= fsize f < 2 ^ 31 ->
  list_sane (fsize f) (fbyte f) -> file_plays (fsize f) (fbyte f) -> hdr_channels (fbyte f) = 0 ->
  r_play_file r (Some f) true nraw stack garbage = UB UbDivZero.
Proof.
  intros r f nraw stack garbage K BS BF S LS FP CH. unfold r_play_file.
  destruct (r_close_proj r) as (CK & CC & CP & _).
  set (r1 := r_close r <| r_fname := true |> <| r_live := r_live (r_close r) + 1 |>).
  replace (match r_kind r1 with KArray => None | _ => Some f end) with (Some f)
    by (change (r_kind r1) with (r_kind (r_close r)); rewrite CK; destruct (r_kind r); congruence).
  set (r2 := r1 <| r_fsize := s32 (fsize f) |>).
  assert (R2 : r_cfg r2 = r_cfg r /\ r_fsize r2 = fsize f).
  { split; [exact CC|]. apply s32_id. unfold in_s32. lia. }
  clearbody r2. clear r1 CK CC CP. destruct R2 as (CC & CS).
  assert (HS : header_safe (fbyte f)).
  { destruct FP as ((V1 & V2 & V3 & _) & _). split; [auto|contradiction]. }
  destruct (parse_file_ok (c_keep (r_cfg r)) f stack BF BS ltac:(lia) HS) as (o & PF).
  pose proof (play_header_parse r2 f stack) as PP. rewrite CC, PF in PP.
  pose proof (parse_file_spec _ f stack _ BF BS ltac:(lia) LS PF) as SP.
  destruct o as [[[[p3 hd] fs] ch]|]; [|contradiction].
  destruct SP as (A & B & D & _). rewrite PP. cbn [bind].
  set (r3 := setNumChannels r2 (u16 ch) <| r_hdr := hd |> <| r_fsamples := fs |>).
  assert (R3 : r_fsize r3 = r_fsize r2 /\ r_hdr r3 = hd /\ r_nch r3 = s16 (u16 ch)) by (repeat split).
  clearbody r3. destruct R3 as (E3 & E4 & E6).
  pose proof (proj1 A FP) as L. rewrite (D L), CH in E6. change (s16 (u16 0)) with 0 in E6.
  unfold play_open. rewrite E3, E4, CS.
  rewrite (u32_id (fsize f)), (u32_id (hd * 2)) by (unfold in_u32; lia).
  destruct (Z.leb_spec (fsize f) (hd * 2)); [lia|]. unfold sdiv32. rewrite E6. reflexivity.
Qed.

(* ---- C04: WAV data in memory ---------------------------------------------- *)

(* The array holds a WAV that playWav accepts *)
Definition array_plays (b : bytes) : Prop := header_valid b /\ exists tags n, data_chunk b tags n.

(* The headers the parser looks at are inside the array *)
Definition headers_inside (m : mem) : Prop :=
  44 <= msize m < 2 ^ 31 /\
  (slice (mbyte m) 36 4 = t_LIST -> le32u (mbyte m) 40 + 52 <= msize m).

Lemma rd_mem_in : forall m i, 0 <= i < msize m -> rd_mem m 0 i = Ok (mbyte m i).
Proof.
  intros m i H. unfold rd_mem. rewrite Z.add_0_l.
  destruct (Z.leb_spec 0 i); [|lia]. destruct (Z.ltb_spec i (msize m)); [reflexivity|lia].
Qed.

Lemma playWav_array_accept : forall r m tags n, bytes_ok (mbyte m) -> headers_inside m ->
  header_valid (mbyte m) -> data_chunk (mbyte m) tags n -> 1 <= hdr_channels (mbyte m) ->
  playWav_array r m =
    (r' <- playRaw_array r m (44 + tags) (n / hdr_channels (mbyte m) / 2) (hdr_channels (mbyte m)) ;;
     Ok (true, r')).
Proof.
  intros r m tags n B [S LI] V [T [D N]] CH. unfold playWav_array.
  assert (R : forall i, 0 <= i < 36 -> rd_mem m 0 i = Ok (mbyte m i)) by (intros; apply rd_mem_in; lia).
  rewrite (parse_valid (rd_mem m 0) (mbyte m) _ _ R V). cbn [bind].
  assert (HC : h_channels (parsed (mbyte m)) = hdr_channels (mbyte m)) by reflexivity.
  rewrite HC.
  pose proof (le16_range (mbyte m) 22) as C16. fold (hdr_channels (mbyte m)) in C16. unfold in_s16 in C16.
  assert (T36 : slice (mbyte m) 36 4 <> t_LIST -> tags = 0) by (destruct T as [T|[T _]]; auto; contradiction).
  assert (X : readInfoTags (rd_mem m 0) 36 = Ok (Some tags) /\ 0 <= tags /\ 44 + tags <= msize m).
  { destruct (infoTags_spec (rd_mem m 0) (mbyte m) 36) as [[L E]|[[L E]|(L1 & L2 & E)]].
    - intros; apply rd_mem_in; lia.
    - destruct T as [->|[_ T]].
      + rewrite Z.add_0_r, L in D. discriminate.
      + specialize (LI L). pose proof (le32u_range _ 40 B) as X. unfold in_u32 in X.
        rewrite E. change (36 + 4) with 40. rewrite u32_id by (unfold in_u32; lia).
        rewrite T. split; [reflexivity|]. lia.
    - rewrite E. destruct T as [->|[T _]]; [|rewrite L in T; discriminate]. split; [reflexivity|]. lia.
    - exfalso. destruct T as [->|[T _]]; [|contradiction]. rewrite Z.add_0_r in D. contradiction. }
  destruct X as (E & T0 & TS). rewrite E. cbn [bind].
  rewrite (u32_id (36 + tags)) by (unfold in_u32; lia).
  destruct (dataHeader_spec (rd_mem m 0) (mbyte m) (36 + tags)) as [[_ Y]|[Y _]].
  { intros; apply rd_mem_in; lia. }
  2: contradiction.
  rewrite Y. cbn [bind]. replace (36 + tags + 4) with (40 + tags) by lia. rewrite <- N.
  rewrite (u32_id (hdr_channels _)) by (unfold in_u32; lia).
  rewrite (u32_id (36 + tags + 8)) by (unfold in_u32; lia).
  rewrite u16_id by (unfold in_u16; lia).
  destruct (Z.eqb_spec (hdr_channels (mbyte m)) 0); [lia|].
  replace (36 + tags + 8) with (44 + tags) by lia. reflexivity.
Qed.

Lemma playWav_array_reject : forall r m, bytes_ok (mbyte m) -> headers_inside m ->
  header_safe (mbyte m) -> ~ array_plays (mbyte m) -> playWav_array r m = Ok (false, r).
Proof.
  intros r m B [S LI] [HS1 HS2] NP. unfold playWav_array.
  assert (R : forall i, 0 <= i < 36 -> rd_mem m 0 i = Ok (mbyte m i)) by (intros; apply rd_mem_in; lia).
  destruct (parse_cases (rd_mem m 0) (mbyte m) (has_nul (mbyte m) 0 (Z.to_nat (msize m))) hdr0 R B)
    as [[V E]|[V [[Q E]|[(Q & W & E)|(Q & W & F & h' & E & HB)]]]]; rewrite E.
  - cbn [bind negb].
    destruct (infoTags_spec (rd_mem m 0) (mbyte m) 36) as [[L X]|[[L X]|(L1 & L2 & X)]].
    + intros; apply rd_mem_in; lia.
    + rewrite X. cbn [bind]. specialize (LI L). pose proof (le32u_range _ 40 B) as Y. unfold in_u32 in Y.
      change (36 + 4) with 40. rewrite (u32_id (_ + 8)) by (unfold in_u32; lia).
      rewrite u32_id by (unfold in_u32; lia).
      destruct (dataHeader_spec (rd_mem m 0) (mbyte m) (36 + (le32u (mbyte m) 40 + 8))) as [[D Z']|[D Z']].
      { intros; apply rd_mem_in; lia. }
      * exfalso. apply NP. split; auto. eexists. eexists. split; [right; split; [exact L|reflexivity]|].
        split; [exact D|reflexivity].
      * rewrite Z'. reflexivity.
    + exfalso. apply NP. split; auto. exists 0, (le32u (mbyte m) 40). split; [auto|].
      split; [exact L|reflexivity].
    + rewrite X. reflexivity.
  - destruct (HS2 Q) as (i & Hi & Z0).
    rewrite (has_nul_at _ _ _ i) by (auto; lia). reflexivity.
  - destruct (HS1 Q). destruct W; contradiction.
  - reflexivity.
Qed.

Lemma playRaw_array_fwd_total : forall r m off len nch, r_pstart r = PSample -> dle d0 (r_rate r) = true ->
  is_ok (playRaw_array r m off len nch).
Proof.
  intros r m off len nch P D. unfold playRaw_array, r_reset.
  cbn [r_rate r_pstart set r_stop setNumChannels]. rewrite D, P. eexists. reflexivity.
Qed.
