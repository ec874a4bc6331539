(* Final forms of C03, C04, C45, C47. *)

From Coq Require Import ZArith Lia List Bool Reals Lra.
From RecordUpdate Require Import RecordUpdate.
From Flocq Require Import Core.Core IEEE754.BinarySingleNaN.
From Verif Require Import Machine Floats FloatFacts WavModel WavSpec WavProofs InterpModel CacheModel CacheFacts
  ReaderModel ReaderFacts ReaderSpec Sessions StreamFacts Walk ForwardProofs PlayProofs WavPlayProofs.
Import ListNotations.
Local Open Scope Z_scope.

(* ---- C03 ---- *)

(* The complete statement for headers on which the parser is defined *)
Lemma playWav_file : forall r f nraw stack garbage,
  r_kind r <> KArray -> cfg_ok (r_cfg r) -> r_pstart r = PSample ->
  bytes_ok stack -> bytes_ok (fbyte f) -> 36 <= fsize f < 2 ^ 31 -> list_sane (fsize f) (fbyte f) ->
  header_safe (fbyte f) -> hdr_channels (fbyte f) <> 0 ->
  exists ok r', r_play_file r (Some f) true nraw stack garbage = Ok (ok, r') /\
    (ok = true <-> file_plays (fsize f) (fbyte f)) /\ r_playing r' = ok /\
    (ok = true -> r_nch r' = hdr_channels (fbyte f)).
Proof.
  intros r f nraw stack garbage K C P BS BF S LS HS CH.
  destruct (playWav_file_total r f nraw stack garbage K C P BS BF S LS HS (fun _ => CH)) as [[ok r'] E].
  exists ok, r'. split; auto.
  destruct (playWav_file_result r (Some f) nraw stack garbage ok r' K BS) as (A & B & D); auto.
  { intros g X. injection X as <-. split; auto. split; [lia|auto]. }
  split; [|split; [exact B|intros; now apply D]].
  rewrite A. split; [intros (g & X & Y); injection X as <-; auto|eauto].
Qed.

Lemma playWav_missing : forall r nraw stack garbage, r_kind r <> KArray ->
  exists r', r_play_file r None true nraw stack garbage = Ok (false, r') /\ r_playing r' = false.
Proof.
  intros r nraw stack garbage K. unfold r_play_file.
  destruct (r_close_proj r) as (CK & CC & CP & PL).
  set (r1 := r_close r <| r_fname := true |> <| r_live := r_live (r_close r) + 1 |>).
  replace (match r_kind r1 with KArray => None | _ => None end) with (@None file)
    by (destruct (r_kind r1); reflexivity).
  eexists. split; [reflexivity|]. exact PL.
Qed.

Definition mkfile (l : list Z) : file := mkFile (Z.of_nat (length l)) (mbyte (mem_of l)).

Definition bytesb (l : list Z) : bool := forallb (fun x => (0 <=? x) && (x <? 256)) l.
Lemma bytesb_ok : forall l, bytesb l = true -> bytes_ok (mbyte (mem_of l)).
Proof.
  intros l H i. unfold mem_of, byte_ok. cbn [mbyte]. unfold bytesb in H. rewrite forallb_forall in H.
  destruct (nth_in_or_default (Z.to_nat i) l 0) as [I| ->]; [|lia].
  apply H in I. apply andb_true_iff in I. lia.
Qed.

(* A complete small stereo WAV file of 3 frames with a LIST chunk of 4 bytes *)
Definition wav_ex : list Z :=
  canonical 60 1 2 44100 176400 4 16 ++ t_LIST ++ enc32 4 ++ [1; 2; 3; 4]
  ++ t_data ++ enc32 12 ++ [10; 0; 20; 0; 30; 0; 40; 0; 50; 0; 60; 0].
(* A LIST size that wraps 32-bit arithmetic, and a data header right after it *)
Definition wav_wrap : list Z :=
  canonical 60 1 1 44100 88200 2 16 ++ t_LIST ++ enc32 (2 ^ 32 - 48)
  ++ t_data ++ enc32 12 ++ [10; 0; 20; 0; 30; 0; 40; 0; 50; 0; 60; 0].
(* RIFF but not WAVE *)
Definition wav_avi : list Z := t_RIFF ++ enc32 60 ++ [65; 86; 73; 32] ++ repeat 0 60.

Lemma wrap_accepted : exists r f nraw stack garbage r',
  r_kind r = KSd /\ bytes_ok (fbyte f) /\ bytes_ok stack /\ 36 <= fsize f < 2 ^ 31 /\
  ~ file_plays (fsize f) (fbyte f) /\ r_play_file r (Some f) true nraw stack garbage = Ok (true, r').
Proof.
  exists (new_reader KSd), (mkfile wav_wrap), 1, (fun _ => 0), (fun _ _ => 0).
  destruct (r_play_file (new_reader KSd) (Some (mkfile wav_wrap)) true 1 (fun _ => 0) (fun _ _ => 0))
    as [[ok r']| |] eqn:E.
  2,3: exfalso; assert (X : match r_play_file (new_reader KSd) (Some (mkfile wav_wrap)) true 1 (fun _ => 0)
     (fun _ _ => 0) with Ok _ => true | _ => false end = true) by (vm_compute; reflexivity);
     rewrite E in X; discriminate.
  assert (X : match r_play_file (new_reader KSd) (Some (mkfile wav_wrap)) true 1 (fun _ => 0)
     (fun _ _ => 0) with Ok (b, _) => b | _ => false end = true) by (vm_compute; reflexivity).
  rewrite E in X. subst ok. exists r'.
  split; [reflexivity|]. split; [apply bytesb_ok; vm_compute; reflexivity|].
  split; [intro; unfold byte_ok; lia|]. split; [vm_compute; split; congruence|].
  split; [|reflexivity].
  intros (_ & _ & tags & n & ([T|[_ T]] & D & _) & _).
  - subst tags. vm_compute in D. discriminate.
  - assert (T' : tags = 4294967256) by (rewrite T; vm_compute; reflexivity). subst tags.
    assert (X : fbyte (mkfile wav_wrap) 4294967292 = 0).
    { unfold mkfile, mem_of. cbn [fbyte mbyte]. apply nth_overflow.
      assert (length wav_wrap = 64%nat) as -> by (vm_compute; reflexivity). lia. }
    rewrite slice4 in D. unfold t_data in D. injection D as D _. congruence.
Qed.

Lemma avi_ub : exists r f nraw stack garbage,
  r_kind r = KSd /\ bytes_ok (fbyte f) /\ bytes_ok stack /\ 36 <= fsize f < 2 ^ 31 /\
  is_ub (r_play_file r (Some f) true nraw stack garbage).
Proof.
  exists (new_reader KSd), (mkfile wav_avi), 1, (fun _ => 0), (fun _ _ => 0).
  split; [reflexivity|]. split; [apply bytesb_ok; vm_compute; reflexivity|].
  split; [intro; unfold byte_ok; lia|]. split; [vm_compute; split; congruence|].
  exists UbPrintf. vm_compute. reflexivity.
Qed.

Lemma wav_ex_case : r_kind (new_reader KSd) <> KArray /\ cfg_ok (r_cfg (new_reader KSd)) /\
  r_pstart (new_reader KSd) = PSample /\ bytes_ok (fbyte (mkfile wav_ex)) /\
  36 <= fsize (mkfile wav_ex) < 2 ^ 31 /\ list_sane (fsize (mkfile wav_ex)) (fbyte (mkfile wav_ex)) /\
  header_safe (fbyte (mkfile wav_ex)) /\ hdr_channels (fbyte (mkfile wav_ex)) = 2 /\
  file_plays (fsize (mkfile wav_ex)) (fbyte (mkfile wav_ex)).
Proof.
  split; [discriminate|]. split; [apply cfg_sd_ok|]. split; [reflexivity|].
  split; [apply bytesb_ok; vm_compute; reflexivity|]. split; [vm_compute; split; congruence|].
  split. { intros _. right. vm_compute. split; congruence. }
  split. { split; intro X; [split; reflexivity|]. exfalso. apply X. reflexivity. }
  split; [reflexivity|].
  split; [repeat split; reflexivity|]. split; [reflexivity|].
  exists 12, 12. split; [|vm_compute; reflexivity].
  split; [right; split; vm_compute; reflexivity|]. split; vm_compute; reflexivity.
Qed.

(* ---- C04 ---- *)

(* In-memory WAV: accepted exactly when the headers are right *)
Lemma playWav_array_iff : forall r m, bytes_ok (mbyte m) -> headers_inside m ->
  header_safe (mbyte m) -> 1 <= hdr_channels (mbyte m) ->
  r_pstart r = PSample -> dle d0 (r_rate r) = true ->
  exists ok r', playWav_array r m = Ok (ok, r') /\ (ok = true <-> array_plays (mbyte m)).
Proof.
  intros r m B HI HS CH P D.
  destruct (list_eq_dec Z.eq_dec (slice (mbyte m) 36 4) t_LIST) as [L|L].
  - assert (DEC : array_plays (mbyte m) \/ ~ array_plays (mbyte m)).
    { unfold array_plays, header_valid.
      destruct (list_eq_dec Z.eq_dec (slice (mbyte m) 0 4) t_RIFF); [|tauto].
      destruct (list_eq_dec Z.eq_dec (slice (mbyte m) 8 4) t_WAVE); [|tauto].
      destruct (list_eq_dec Z.eq_dec (slice (mbyte m) 12 4) t_fmt); [|tauto].
      destruct (list_eq_dec Z.eq_dec (slice (mbyte m) 16 4) (enc32 16)); [|tauto].
      destruct (list_eq_dec Z.eq_dec (slice (mbyte m) (36 + (le32u (mbyte m) 40 + 8)) 4) t_data) as [X|X].
      - left. split; auto. eexists. eexists. split; [right; split; [auto|reflexivity]|]. split; auto.
      - right. intros (_ & tags & n & [T|[_ T]] & Y & _); subst tags; [|contradiction].
        rewrite Z.add_0_r, L in Y. discriminate. }
    destruct DEC as [A|A].
    + pose proof A as (V & tags & n & DC).
      rewrite (playWav_array_accept r m tags n B HI V DC CH).
      destruct (playRaw_array_fwd_total r m (44 + tags) (n / hdr_channels (mbyte m) / 2)
        (hdr_channels (mbyte m)) P D) as (r' & E). rewrite E. cbn [bind]. do 2 eexists. split; [reflexivity|tauto].
    + rewrite (playWav_array_reject r m B HI HS A). do 2 eexists. split; [reflexivity|].
      split; [discriminate|contradiction].
  - assert (DEC : array_plays (mbyte m) \/ ~ array_plays (mbyte m)).
    { unfold array_plays, header_valid.
      destruct (list_eq_dec Z.eq_dec (slice (mbyte m) 0 4) t_RIFF); [|tauto].
      destruct (list_eq_dec Z.eq_dec (slice (mbyte m) 8 4) t_WAVE); [|tauto].
      destruct (list_eq_dec Z.eq_dec (slice (mbyte m) 12 4) t_fmt); [|tauto].
      destruct (list_eq_dec Z.eq_dec (slice (mbyte m) 16 4) (enc32 16)); [|tauto].
      destruct (list_eq_dec Z.eq_dec (slice (mbyte m) 36 4) t_data) as [X|X].
      - left. split; auto. exists 0. eexists. split; [left; reflexivity|]. split; [exact X|reflexivity].
      - right. intros (_ & tags & n & [T|[T _]] & Y & _); [subst tags|contradiction].
        rewrite Z.add_0_r in Y. contradiction. }
    destruct DEC as [A|A].
    + pose proof A as (V & tags & n & DC).
      rewrite (playWav_array_accept r m tags n B HI V DC CH).
      destruct (playRaw_array_fwd_total r m (44 + tags) (n / hdr_channels (mbyte m) / 2)
        (hdr_channels (mbyte m)) P D) as (r' & E). rewrite E. cbn [bind]. do 2 eexists. split; [reflexivity|tauto].
    + rewrite (playWav_array_reject r m B HI HS A). do 2 eexists. split; [reflexivity|].
      split; [discriminate|contradiction].
Qed.

(* ... and then the data region is what is played *)
Lemma playWav_array_plays : forall r m tags n nch pb, bytes_ok (mbyte m) -> headers_inside m ->
  header_valid (mbyte m) -> data_chunk (mbyte m) tags n -> hdr_channels (mbyte m) = Z.of_nat nch ->
  array_holds m (44 + tags) (n / Z.of_nat nch / 2) nch ->
  basic_settings r LNone PSample pb -> r_rate r = d1 ->
  exists r', playWav_array r m = Ok (true, r') /\
    delivers r' (nth_error (source_frames m (44 + tags) nch (n / Z.of_nat nch / 2))).
Proof.
  intros r m tags n nch pb B HI V DC CH A BA R1.
  rewrite (playWav_array_accept r m tags n B HI V DC) by (rewrite CH; destruct A; lia).
  rewrite CH.
  destruct (unity_identity m (44 + tags) (n / Z.of_nat nch / 2) nch r pb A BA R1) as (r' & E & D).
  rewrite E. cbn [bind]. eauto.
Qed.

Lemma wav_ex_array : bytes_ok (mbyte (mem_of wav_ex)) /\ headers_inside (mem_of wav_ex) /\
  header_safe (mbyte (mem_of wav_ex)) /\
  header_valid (mbyte (mem_of wav_ex)) /\ data_chunk (mbyte (mem_of wav_ex)) 12 12 /\
  hdr_channels (mbyte (mem_of wav_ex)) = Z.of_nat 2 /\
  array_holds (mem_of wav_ex) (44 + 12) (12 / Z.of_nat 2 / 2) 2.
Proof.
  split; [apply bytesb_ok; vm_compute; reflexivity|].
  split. { split; [vm_compute; split; congruence|]. intros _. vm_compute. congruence. }
  split. { split; intro X; [split; reflexivity|]. exfalso. apply X. reflexivity. }
  split; [repeat split; reflexivity|].
  split. { split; [right; split; vm_compute; reflexivity|]. split; vm_compute; reflexivity. }
  split; [reflexivity|]. repeat split; try (vm_compute; congruence). lia.
Qed.

(* ---- C45 ---- *)

(* playWav(array, length) plays nothing, whatever the array and the length *)
Lemma playWav_len_silent : forall r m len pb, 0 <= msize m ->
  basic_settings r LNone PSample pb -> r_rate r = d1 ->
  exists r', playWav_array_len r m 0 len = Ok r' /\ delivers r' (nth_error []).
Proof.
  intros r m len pb S B R1.
  assert (A : array_holds m 0 0 1) by (repeat split; cbn; lia).
  destruct (unity_identity m 0 0 1 r pb A B R1) as (r' & E & D). exists r'. split; auto.
Qed.

Lemma playWav_len_refuted : exists r m len r', basic_settings r LNone PSample 0 /\ r_rate r = d1 /\
  header_valid (mbyte m) /\ data_chunk (mbyte m) 12 12 /\ msize m = len /\
  playWav_array_len r m 0 len = Ok r' /\
  ~ delivers r' (nth_error (source_frames m 56 2 3)).
Proof.
  exists (ex_reader d1), (mem_of wav_ex), 68.
  destruct (playWav_len_silent (ex_reader d1) (mem_of wav_ex) 68 0 ltac:(cbn; lia) (ex_basic _) eq_refl)
    as (r' & E & D).
  exists r'. split; [apply ex_basic|]. split; [reflexivity|].
  destruct wav_ex_array as (_ & _ & _ & V & DC & _). split; [exact V|]. split; [exact DC|].
  split; [reflexivity|]. split; [exact E|]. intro D2.
  pose proof (delivers_unique _ _ _ D D2) as X. discriminate.
Qed.

(* ---- C47 ---- *)

(* 0x8000 or more channels: accepted, and the first read is undefined *)
Lemma huge_channels_ub : forall r f nraw stack garbage,
  r_kind r <> KArray -> cfg_ok (r_cfg r) -> r_pstart r = PSample ->
  bytes_ok stack -> bytes_ok (fbyte f) -> 36 <= fsize f < 2 ^ 31 -> list_sane (fsize f) (fbyte f) ->
  file_plays (fsize f) (fbyte f) -> hdr_channels (fbyte f) < 0 ->
  exists r', r_play_file r (Some f) true nraw stack garbage = Ok (true, r') /\
    forall fuel n, r_read fuel r' n = UB UbVla.
Proof.
  intros r f nraw stack garbage K C P BS BF S LS FP CH.
  assert (HS : header_safe (fbyte f)).
  { destruct FP as ((V1 & V2 & V3 & _) & _). split; [auto|contradiction]. }
  destruct (playWav_file r f nraw stack garbage K C P BS BF S LS HS ltac:(lia)) as (ok & r' & E & A & B & D).
  apply A in FP. subst ok. exists r'. split; auto. intros fuel n. unfold r_read. rewrite B. cbn [negb].
  rewrite (D eq_refl). destruct (Z.ltb_spec (hdr_channels (fbyte f)) 0); [reflexivity|lia].
Qed.

(* Nine channels with interpolation: the per-channel tables are overrun *)
Definition wav_nine : list Z :=
  canonical 54 1 9 44100 793800 18 16 ++ t_data ++ enc32 18 ++ repeat 1 18.
Lemma nine_channels_ub : exists m r, header_valid (mbyte m) /\ data_chunk (mbyte m) 0 18 /\
  hdr_channels (mbyte m) = 9 /\ r_interp r = ILinear /\
  is_ub ('(_, r') <- playWav_array r m ;; r_read 20 r' 1).
Proof.
  exists (mem_of wav_nine), (ex_reader d1 <| r_interp := ILinear |>).
  split; [repeat split; reflexivity|].
  split. { split; [left; reflexivity|]. split; vm_compute; reflexivity. }
  split; [reflexivity|]. split; [reflexivity|]. exists UbVector. vm_compute. reflexivity.
Qed.

(* A file declaring zero channels *)
Definition wav_zero : list Z :=
  canonical 48 1 0 44100 88200 2 16 ++ t_data ++ enc32 12 ++ repeat 1 12.
Lemma zero_channels_case : bytes_ok (fbyte (mkfile wav_zero)) /\ 36 <= fsize (mkfile wav_zero) < 2 ^ 31 /\
  list_sane (fsize (mkfile wav_zero)) (fbyte (mkfile wav_zero)) /\
  file_plays (fsize (mkfile wav_zero)) (fbyte (mkfile wav_zero)) /\ hdr_channels (fbyte (mkfile wav_zero)) = 0.
Proof.
  split; [apply bytesb_ok; vm_compute; reflexivity|]. split; [vm_compute; split; congruence|].
  split. { intro X. vm_compute in X. discriminate. }
  split; [|reflexivity]. split; [repeat split; reflexivity|]. split; [reflexivity|].
  exists 0, 12. split; [|vm_compute; reflexivity]. split; [left; reflexivity|]. split; vm_compute; reflexivity.
Qed.
