(* Until a reload, a file opened for reverse playback plays what opening buffered (C140, C141). *)

From Coq Require Import ZArith Lia List Bool Reals Lra.
From RecordUpdate Require Import RecordUpdate.
From Flocq Require Import Core.Core IEEE754.BinarySingleNaN.
From Verif Require Import Machine Floats FloatFacts WavModel InterpModel CacheModel ReaderModel ReaderFacts ReaderSpec Sessions StreamFacts Walk ForwardProofs
  CacheFacts CacheSpec CacheProofs WavSpec FileSpec WindowProofs FileProofs PlayProofs FilePlay FileForward MirrorSpec MirrorProofs MirrorFinal LoopOpen BackWindow BackOpen
  CacheFinal LifeProofs RaceProofs HeldSpec HeldProofs HeldPlay UnitModel UnitProofs UnitCases HeldBackSpec.
Import ListNotations.
Local Open Scope Z_scope.

Lemma rwin_has : forall c fl p s f, cfg_ok c -> 0 <= p -> 2 * (blk c p * BS c) + BS c <= fsize fl -> rwin c fl (blk c p) s f -> rfull c (blk c p) s ->
  buffered c fl f (held_low c fl p) (held_high c fl p).
Proof.
  intros c fl p s f C P HF W (S1 & S2). pose proof (BS_pos _ C) as HB. unfold held_low, held_high. fold (blk c p).
  destruct (Z.leb_spec (2 * (blk c p * BS c) + BS c) (fsize fl)); [|lia].
  assert (FH : 2 * (fsize fl / 2) <= fsize fl) by (pose proof (Z.mul_div_le (fsize fl) 2); lia).
  split; [nia|]. split; [lia|]. intros i I. pose proof (blk_mod c i C) as BM. pose proof (mod_BS c i C) as MB. fold (blk c i).
  assert (L1 : blk c i <= blk c p) by nia.
  assert (L2 : Z.max 0 (blk c p - Z.of_nat (c_nbuf c) + 1) <= blk c i) by nia.
  pose proof (rw_len _ _ _ _ _ W) as LN.
  destruct (nth_error (i_bufs f) (Z.to_nat (blk c p - blk c i))) as [b|] eqn:NE.
  - destruct (rw_run _ _ _ _ _ W _ _ NE) as [X Y]; [lia|]. exists b. split; [eapply nth_error_In; eauto|]. split; [lia|exact Y].
  - apply nth_error_None in NE. lia.
Qed.

Lemma short_has : forall c fl g i n g', cfg_ok c -> fsize fl < 2 ^ 31 -> 0 <= i < 2 ^ 30 -> fsize fl < 2 * (blk c i * BS c) + BS c ->
  i_cfg g = c -> i_file g = fl -> i_bufs g = [] -> preLoadBuffers g i false = Ok (n, g') ->
  buffered c fl g' (held_low c fl i) (held_high c fl i).
Proof.
  intros c fl g i n g' C FS I HF G1 G2 G5 E. pose proof (BS_pos _ C) as HB. pose proof C as (_ & SH & _).
  assert (FH : 2 * (fsize fl / 2) <= fsize fl) by (pose proof (Z.mul_div_le (fsize fl) 2); lia).
  pose proof (blk_mod c i C) as BM. pose proof (mod_BS c i C) as MB. pose proof (proj1 (blk_nonneg c i C ltac:(lia))) as Q0.
  unfold preLoadBuffers in E. rewrite G1 in E. assert (NB : (1 <= c_nbuf c)%nat) by apply C. destruct (c_nbuf c) as [|k]; [lia|].
  replace O with (length (i_bufs g)) in E by (now rewrite G5). rewrite preload_step in E.
  destruct (loadBuffer g _ i) as [[b' q] n1] eqn:LD. cbv zeta in E. rewrite G1 in E.
  assert (N1 : n1 = Z.max 0 (Z.min (BS c * 2) (fsize fl - blk c i * BS c * 2)) \/ fsize fl <= blk c i * BS c * 2).
  { destruct (Z.le_gt_cases (fsize fl) (blk c i * BS c * 2)) as [Y|Y]; [now right|left].
    assert (BA : u32 i - u32 i mod BS c = blk c i * BS c) by (rewrite u32_id by (unfold in_u32; lia); lia).
    unfold loadBuffer in LD. rewrite G1, G2, BA in LD. injection LD as _ _ <-.
    rewrite (u32_id (blk c i * BS c * 2)) by (unfold in_u32; nia). unfold fseek.
    destruct (Z.leb_spec (blk c i * BS c * 2) (fsize fl)) as [L|L]; [|lia]. unfold fread_len. reflexivity. }
  unfold held_low, held_high. fold (blk c i). destruct (Z.leb_spec (2 * (blk c i * BS c) + BS c) (fsize fl)); [lia|].
  split; [nia|]. split; [lia|]. intros j J. pose proof (blk_mod c j C) as BJ. pose proof (mod_BS c j C) as MJ. fold (blk c j).
  assert (EQ : blk c j = blk c i) by nia.
  destruct N1 as [N1|N1]; [|lia]. destruct (Z.ltb_spec n1 (BS c)) as [L|L]; [|lia].
  apply Ok_inj, pair_equal_spec in E. destruct E as [_ <-].
  exists b'. split; [cbn; rewrite G5; left; reflexivity|].
  assert (BI : b_index b' = u32 (blk c i)) by (destruct (load_index _ _ _ _ _ _ LD) as [X _]; now rewrite G1 in X).
  split; [rewrite BI, EQ; apply u32_id; unfold in_u32; nia|].
  assert (BZ : b_size b' = s16 n1) by (unfold loadBuffer in LD; injection LD as <- _ <-; reflexivity).
  rewrite BZ, s16_id; [|unfold in_s16; lia]. lia.
Qed.

Lemma preload_held_back : forall c fl g i n g', cfg_ok c -> fsize fl < 2 ^ 31 -> 0 <= i < 2 ^ 30 ->
  i_cfg g = c -> i_file g = fl -> i_fails g = 0 -> i_bufs g = [] -> preLoadBuffers g i false = Ok (n, g') ->
  buffered c fl g' (held_low c fl i) (held_high c fl i).
Proof.
  intros c fl g i n g' C FS I G1 G2 G4 G5 P.
  destruct (Z.le_gt_cases (2 * (blk c i * BS c) + BS c) (fsize fl)) as [HF|HF]; [|exact (short_has c fl g i n g' C FS I HF G1 G2 G5 P)].
  set (g0 := g <| i_loop := LNone |>).
  assert (EG : g = relooped (i_loop g) (i_lsb g) (i_lfb g) g0) by (unfold relooped, g0; destruct g; reflexivity).
  unfold preLoadBuffers in P. rewrite EG, preload_reloop in P.
  change (i_cfg (relooped (i_loop g) (i_lsb g) (i_lfb g) g0)) with (i_cfg g0) in P.
  destruct (preload_loop (c_nbuf (i_cfg g0)) 0 false g0 i 0) as [[x g1]| |] eqn:P0; try discriminate.
  apply Ok_inj in P. apply pair_equal_spec in P. destruct P as [_ <-].
  destruct (first_rwin c fl g0 i x g1 C FS) as (m & W & MK & WO); auto; [lia|].
  apply buffered_loop. exact (rwin_has c fl i m g1 C (proj1 I) HF W WO).
Qed.

Lemma start_held_back : forall c fl r f r', r_src r = SFile f -> creach c fl f -> i_fails f = 0 -> i_bufs f = [] -> cfg_ok c -> fsize fl < 2 ^ 31 ->
  start_file r = Ok (true, r') -> dle d0 (r_rate r') = false -> 0 <= r_pos1 r' < 2 ^ 30 ->
  exists f', r_src r' = SFile f' /\ creach c fl f' /\ i_fails f' = 0 /\ buffered c fl f' (held_low c fl (r_pos1 r')) (held_high c fl (r_pos1 r')).
Proof.
  intros c fl r f r' S6 R6 F6 B6 C FS E D P. destruct (start_reach c fl r f r' S6 R6 F6 E) as (f' & S' & R' & F').
  exists f'. split; [exact S'|]. split; [exact R'|]. split; [exact F'|].
  unfold start_file in E. apply bind_ok in E. destruct E as (r7 & E7 & E).
  apply reset_same in E7. destruct E7 as (_ & SS & _ & _). rewrite SS, S6 in E.
  apply bind_ok in E. destruct E as ([t g'] & E8 & E). apply Ok_inj, pair_equal_spec in E. destruct E as [_ <-].
  cbn [r_src r_rate r_pos1 set] in *.
  change (r_rate (r7 <| r_src := SFile g' |> <| r_live := r_live r7 + 2 * (Z.of_nat (length (i_bufs g')) - Z.of_nat (length (i_bufs f))) |> <| r_playing := true |>)) with (r_rate r7) in D.
  change (r_pos1 (r7 <| r_src := SFile g' |> <| r_live := r_live r7 + 2 * (Z.of_nat (length (i_bufs g')) - Z.of_nat (length (i_bufs f))) |> <| r_playing := true |>)) with (r_pos1 r7) in *.
  assert (X : SFile g' = SFile f') by exact S'. injection X as <-. rewrite D in E8.
  destruct (creach_coherent c fl f C ltac:(lia) R6) as (Q1 & Q2 & _).
  exact (preload_held_back c fl f (r_pos1 r7) t g' C FS P Q1 Q2 F6 B6 E8).
Qed.

Lemma play_held_back : forall r fl w n st g r', cfg_ok (r_cfg r) -> fsize fl < 2 ^ 31 -> r_play_file r (Some fl) w n st g = Ok (true, r') ->
  dle d0 (r_rate r') = false -> 0 <= r_pos1 r' < 2 ^ 30 ->
  exists f, r_src r' = SFile f /\ creach (r_cfg r) fl f /\ i_fails f = 0 /\
    buffered (r_cfg r) fl f (held_low (r_cfg r) fl (r_pos1 r')) (held_high (r_cfg r) fl (r_pos1 r')).
Proof.
  intros r fl w n st g r' C FS E D P. rewrite play_file_eq in E. pose proof (ready_keeps r w n) as CK. set (r3 := ready_to_open r w n) in *. clearbody r3.
  assert (E' : '(o, r2) <- past_header r3 fl w st ;; match o with None => Ok (false, r2) | Some p => play_open r2 fl p g end = Ok (true, r')).
  { destruct (r_kind r3); [discriminate|exact E..]. }
  clear E. apply bind_ok in E'. destruct E' as ([o r5] & E5 & E). apply past_keeps in E5.
  destruct o as [p|]; [|apply Ok_inj, pair_equal_spec in E; destruct E; discriminate].
  rewrite <- CK, <- E5 in *. clear CK E5 r3.
  unfold play_open in E. destruct (_ <=? _); [apply Ok_inj, pair_equal_spec in E; destruct E; discriminate|].
  apply bind_ok in E. destruct E as (fs & _ & E). destruct (open_reach r5 fs fl p g) as (f & S & R & F).
  assert (SO : r_src (open_src r5 fs fl p g) = SFile (if_new (r_cfg r5) fl p g)) by reflexivity.
  destruct (copy_bufs _ _ SO) as (f2 & S2 & B2). rewrite S in S2. injection S2 as <-.
  exact (start_held_back (r_cfg r5) fl _ f r' S R F B2 C FS E D P).
Qed.

Theorem held_part_back : forall r0 fl w n st g r fuel os bs a, cfg_ok (r_cfg r0) -> fsize fl < 2 ^ 31 ->
  r_play_file r0 (Some fl) w n st g = Ok (true, r) -> dle d0 (r_rate r) = false -> 0 <= r_pos1 r < 2 ^ 30 -> Forall unserviced os ->
  let lo := held_low (r_cfg r0) fl (r_pos1 r) in
  let part := on_array (part_mem fl lo (held_high (r_cfg r0) fl (r_pos1 r))) (- (2 * lo)) in
  session fuel (part r) os = Ok (bs, a) ->
  exists r', session fuel r os = Ok (bs, r') /\ a = part r' /\ misses r' = 0.
Proof.
  intros r0 fl w n st g r fuel os bs a C FS E D P U lo part EA. assert (FS' : fsize fl <= 2 ^ 31) by lia.
  destruct (play_held_back r0 fl w n st g r C FS E D P) as (f & S & R & F & B).
  destruct (session_held (r_cfg r0) fl lo (held_high (r_cfg r0) fl (r_pos1 r)) _ _ C FS' (fun _ _ H => H) fuel os r f bs a 0 U S) as (r' & f' & E2 & E3 & S' & G'); auto.
  { split; [now apply creach_coherent|]. split; [exact B|exact F]. }
  exists r'. split; [exact E2|]. split; [exact E3|]. unfold misses. rewrite S'. apply G'.
Qed.

(* opened in its last block, and that at least half full: the whole of a small file *)
Lemma back_inside : forall c fl p i v, cfg_ok c -> small_file c fl -> half_full c fl p -> 0 <= p -> fsize fl / 2 <= (p / BS c + 1) * BS c ->
  p / BS c < Z.of_nat (c_nbuf c) -> mem_sample (file_mem fl) 0 i = Some v ->
  mem_sample (part_mem fl (held_low c fl p) (held_high c fl p)) (- (2 * held_low c fl p)) i = Some v.
Proof.
  intros c fl p i v C SM HF P L K M. rewrite part_hit_eq. unfold mem_sample in M.
  destruct (Z.leb_spec 0 (0 + 2 * i)), (Z.leb_spec (0 + 2 * i + 2) (msize (file_mem fl))); try discriminate. cbn [andb] in M.
  cbn [file_mem msize mbyte] in *. injection M as <-. unfold held_low, held_high, half_full in *.
  pose proof (BS_pos _ C) as HB. destruct (Z.leb_spec (2 * (p / BS c * BS c) + BS c) (fsize fl)); [|lia].
  replace (Z.max 0 (p / BS c - Z.of_nat (c_nbuf c) + 1)) with 0 by lia. rewrite Z.mul_0_l.
  assert (i + 1 <= fsize fl / 2) by (apply Z.div_le_lower_bound; lia).
  destruct (Z.leb_spec 0 i), (Z.ltb_spec i (Z.min (fsize fl / 2) ((p / BS c + 1) * BS c))); cbn [andb]; try lia. reflexivity.
Qed.

Theorem held_small_back : forall r0 fl w n st g r fuel os bs a, cfg_ok (r_cfg r0) -> fsize fl < 2 ^ 31 -> small_file (r_cfg r0) fl ->
  r_play_file r0 (Some fl) w n st g = Ok (true, r) -> dle d0 (r_rate r) = false -> 0 <= r_pos1 r < 2 ^ 30 ->
  half_full (r_cfg r0) fl (r_pos1 r) -> fsize fl / 2 <= (r_pos1 r / BS (r_cfg r0) + 1) * BS (r_cfg r0) -> Forall unserviced os ->
  session fuel (on_array (file_mem fl) 0 r) os = Ok (bs, a) ->
  exists r', session fuel r os = Ok (bs, r') /\ a = on_array (file_mem fl) 0 r' /\ misses r' = 0.
Proof.
  intros r0 fl w n st g r fuel os bs a C FS SM E D P HF L U EA. assert (FS' : fsize fl <= 2 ^ 31) by lia. pose proof (BS_pos _ C) as HB.
  destruct (play_held_back r0 fl w n st g r C FS E D P) as (f & S & R & F & B).
  assert (K : r_pos1 r / BS (r_cfg r0) < Z.of_nat (c_nbuf (r_cfg r0))) by (unfold small_file, half_full in *; nia).
  destruct (session_held (r_cfg r0) fl _ _ (file_mem fl) 0 C FS' (fun i v => back_inside _ fl _ i v C SM HF (proj1 P) L K) fuel os r f bs a 0 U S)
    as (r' & f' & E2 & E3 & S' & G'); auto.
  { split; [now apply creach_coherent|]. split; [exact B|exact F]. }
  exists r'. split; [exact E2|]. split; [exact E3|]. unfold misses. rewrite S'. apply G'.
Qed.

(* ---- cases: mono, two buffers of 4 samples, backwards at single speed ----------- *)

Definition back_tiny : reader := reader_init KSd <| r_cfg := mkCfg 2 2 true true |> <| r_rate := d_of_Z (-1) |>.
Definition seven_file : file := mkFile 14 ramp_byte.
Definition five_file : file := mkFile 10 ramp_byte.


(* seven samples, the last block three quarters full: all of them *)
Lemma seven_reads : shown_run (r_play_file back_tiny (Some seven_file) false 1 (fun _ => 0) (fun _ _ => 0)) (fun r => read_seq 100 r [4%nat; 4%nat])
  = Ok ([[[6]; [5]; [4]; [3]]; [[2]; [1]; [0]]], 0).
Proof. vm_compute. reflexivity. Qed.
(* five samples: only the last *)
Lemma five_reads : shown_run (r_play_file back_tiny (Some five_file) false 1 (fun _ => 0) (fun _ _ => 0)) (fun r => read_seq 100 r [4%nat; 4%nat])
  = Ok ([[[4]; [0]; [0]; [0]]; [[0]]], 4).
Proof. vm_compute. reflexivity. Qed.

Definition back_both (o : res (bool * reader)) (m : mem) : res (Z * bool * list (list (list Z)) * list (list (list Z))) :=
  '(ok, r) <- o ;;
  if ok : bool then
    '(bs, _) <- read_seq 100 (on_array m 0 r) [5%nat] ;; '(bs', _) <- read_seq 100 r [5%nat] ;;
    Ok (r_pos1 r, dle d0 (r_rate r), bs, bs')
  else NoFuel.
Lemma back_both_inv : forall o m p d bs bs', back_both o m = Ok (p, d, bs, bs') ->
  exists r a q, o = Ok (true, r) /\ r_pos1 r = p /\ dle d0 (r_rate r) = d /\
    read_seq 100 (on_array m 0 r) [5%nat] = Ok (bs, a) /\ read_seq 100 r [5%nat] = Ok (bs', q).
Proof.
  intros o m p d bs bs' H. destruct o as [[[|] r]| |]; try discriminate. unfold back_both in H. cbn [bind] in H.
  destruct (read_seq 100 (on_array m 0 r) [5%nat]) as [[x a]| |] eqn:E1; try discriminate. cbn [bind] in H.
  destruct (read_seq 100 r [5%nat]) as [[y q]| |] eqn:E2; try discriminate. cbn [bind] in H.
  apply Ok_inj in H. apply pair_equal_spec in H. destruct H as [H <-]. apply pair_equal_spec in H. destruct H as [H <-].
  apply pair_equal_spec in H. destruct H as [<- <-]. exists r, a, q. split; [reflexivity|]. split; [reflexivity|]. split; [reflexivity|]. split; [exact E1|exact E2].
Qed.
Lemma five_both : back_both (r_play_file back_tiny (Some five_file) false 1 (fun _ => 0) (fun _ _ => 0)) (file_mem five_file)
  = Ok (4, false, [[[4]; [3]; [2]; [1]; [0]]], [[[4]; [0]; [0]; [0]; [0]]]).
Proof. vm_compute. reflexivity. Qed.

Lemma short_block : exists r0 fl r fuel bs a bs' q, cfg_ok (r_cfg r0) /\ small_file (r_cfg r0) fl /\
  r_play_file r0 (Some fl) false 1 (fun _ => 0) (fun _ _ => 0) = Ok (true, r) /\ dle d0 (r_rate r) = false /\ 2 * r_pos1 r + 2 = fsize fl /\
  read_seq fuel (on_array (file_mem fl) 0 r) [5%nat] = Ok (bs, a) /\ read_seq fuel r [5%nat] = Ok (bs', q) /\ bs' <> bs.
Proof.
  destruct (back_both_inv _ _ _ _ _ _ five_both) as (r & a & q & E & P & D & E1 & E2).
  exists back_tiny, five_file, r, 100%nat, [[[4]; [3]; [2]; [1]; [0]]], a, [[[4]; [0]; [0]; [0]; [0]]], q.
  split; [unfold cfg_ok; cbn; lia|]. split; [unfold small_file; cbn; lia|].
  split; [exact E|]. split; [exact D|]. split; [rewrite P; reflexivity|]. split; [exact E1|]. split; [exact E2|]. discriminate.
Qed.
