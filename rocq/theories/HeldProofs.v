(* Files that are played without any reload (C134): what opening a file puts into
   the buffers stays there, and all of it can be played like an array. *)

From Coq Require Import ZArith Lia List Bool.
From RecordUpdate Require Import RecordUpdate.
From Flocq Require Import IEEE754.BinarySingleNaN.
From Verif Require Import Machine Floats WavModel InterpModel CacheModel ReaderModel ReaderFacts CacheFacts CacheSpec CacheProofs WindowProofs FileSpec
  FilePlay CacheFinal LifeProofs RaceProofs MirrorSpec MirrorProofs MirrorFinal LoopOpen HeldSpec.
Import ListNotations.
Local Open Scope Z_scope.

(* ---- what opening buffers ----------------------------------------------------- *)

Lemma win_has : forall c fl p m f, cfg_ok c -> 0 <= p -> win c fl (blk c p) m f -> win_ok c fl (blk c p) m ->
  buffered c fl f (held_from c p) (held_to c fl p).
Proof.
  intros c fl p m f C P W (ML & J0 & J1 & CV). pose proof (BS_pos _ C) as HB. unfold held_from, held_to. fold (blk c p).
  assert (FH : 2 * (fsize fl / 2) <= fsize fl) by (pose proof (Z.mul_div_le (fsize fl) 2); lia).
  split; [unfold held_from; fold (blk c p); nia|]. split; [lia|]. unfold held_from. fold (blk c p). intros i I.
  pose proof (blk_mod c i C) as BM. pose proof (mod_BS c i C) as MB. fold (blk c i).
  assert (L1 : blk c p <= blk c i) by nia.
  assert (L2 : blk c i < blk c p + Z.of_nat (c_nbuf c)) by nia.
  assert (L3 : 2 * (blk c i * BS c) < fsize fl) by nia.
  assert (L4 : blk c i < blk c p + Z.of_nat m) by (destruct CV as [ -> | CV]; [lia|nia]).
  destruct (nth_error (i_bufs f) (Z.to_nat (blk c i - blk c p))) as [b|] eqn:NE.
  - destruct (wi_idx _ _ _ _ _ W _ _ NE) as [X Y]. exists b. split; [eapply nth_error_In; eauto|].
    assert (Q : b_index b = blk c i) by lia. split; [exact Q|]. apply Y. rewrite Q. exact L3.
  - apply nth_error_None in NE. rewrite (wi_len _ _ _ _ _ W) in NE. lia.
Qed.

Lemma buffered_loop : forall l s e c fl f lo hi, buffered c fl f lo hi -> buffered c fl (relooped l s e f) lo hi.
Proof. intros l s e c fl f lo hi B. exact B. Qed.

Lemma preload_held : forall c fl g i n g', cfg_ok c -> fsize fl <= 2 ^ 31 -> 0 <= i -> i < 2 ^ 30 ->
  i_cfg g = c -> i_file g = fl -> i_fails g = 0 -> i_bufs g = [] -> preLoadBuffers g i true = Ok (n, g') ->
  buffered c fl g' (held_from c i) (held_to c fl i).
Proof.
  intros c fl g i n g' C FS I0 I1 G1 G2 G4 G5 P.
  set (g0 := g <| i_loop := LNone |>).
  assert (EG : g = relooped (i_loop g) (i_lsb g) (i_lfb g) g0) by (unfold relooped, g0; destruct g; reflexivity).
  unfold preLoadBuffers in P. rewrite EG, preload_reloop in P.
  change (i_cfg (relooped (i_loop g) (i_lsb g) (i_lfb g) g0)) with (i_cfg g0) in P.
  destruct (preload_loop (c_nbuf (i_cfg g0)) 0 true g0 i 0) as [[x g1]| |] eqn:P0; try discriminate.
  apply Ok_inj in P. apply pair_equal_spec in P. destruct P as [_ <-].
  destruct (first_win c fl g0 i x g1 C FS I0 I1) as (m & W & WO & MK); auto.
  apply buffered_loop. exact (win_has c fl i m g1 C I0 W WO).
Qed.

Lemma start_held : forall c fl r f r', r_src r = SFile f -> creach c fl f -> i_fails f = 0 -> i_bufs f = [] -> cfg_ok c -> fsize fl <= 2 ^ 31 ->
  start_file r = Ok (true, r') -> dle d0 (r_rate r') = true -> 0 <= r_pos1 r' < 2 ^ 30 ->
  exists f', r_src r' = SFile f' /\ creach c fl f' /\ i_fails f' = 0 /\ buffered c fl f' (held_from c (r_pos1 r')) (held_to c fl (r_pos1 r')).
Proof.
  intros c fl r f r' S6 R6 F6 B6 C FS E D P. destruct (start_reach c fl r f r' S6 R6 F6 E) as (f' & S' & R' & F').
  exists f'. split; [exact S'|]. split; [exact R'|]. split; [exact F'|].
  unfold start_file in E. apply bind_ok in E. destruct E as (r7 & E7 & E).
  apply reset_same in E7. destruct E7 as (_ & SS & _ & _). rewrite SS, S6 in E.
  apply bind_ok in E. destruct E as ([t g'] & E8 & E). apply Ok_inj, pair_equal_spec in E. destruct E as [_ <-].
  cbn [r_src r_rate r_pos1 set] in *.
  change (r_rate (r7 <| r_src := SFile g' |> <| r_live := r_live r7 + 2 * (Z.of_nat (length (i_bufs g')) - Z.of_nat (length (i_bufs f))) |> <| r_playing := true |>)) with (r_rate r7) in D.
  change (r_pos1 (r7 <| r_src := SFile g' |> <| r_live := r_live r7 + 2 * (Z.of_nat (length (i_bufs g')) - Z.of_nat (length (i_bufs f))) |> <| r_playing := true |>)) with (r_pos1 r7) in *.
  assert (X : SFile g' = SFile f') by exact S'. injection X as <-. rewrite D in E8.
  destruct (creach_coherent c fl f C FS R6) as (Q1 & Q2 & _).
  eapply preload_held; eauto; lia.
Qed.

Lemma copy_bufs : forall r f, r_src r = SFile f -> exists f', r_src (copy_loop r) = SFile f' /\ i_bufs f' = i_bufs f.
Proof.
  intros r f S. unfold copy_loop. cbv zeta. pose proof (type_src r (r_loop r) f S) as S1. set (r1 := setLoopType _ _) in *. clearbody r1.
  destruct (lstart_src r1 (r_ls r1) _ S1) as (z1 & S2). set (r2 := setLoopStart _ _) in *. clearbody r2.
  destruct (lfinish_src r2 (r_lf r2) _ S2) as (z2 & S3). eexists. split; [exact S3|reflexivity].
Qed.

Lemma play_held : forall r fl w n st g r', cfg_ok (r_cfg r) -> fsize fl <= 2 ^ 31 -> r_play_file r (Some fl) w n st g = Ok (true, r') ->
  dle d0 (r_rate r') = true -> 0 <= r_pos1 r' < 2 ^ 30 ->
  exists f, r_src r' = SFile f /\ creach (r_cfg r) fl f /\ i_fails f = 0 /\
    buffered (r_cfg r) fl f (held_from (r_cfg r) (r_pos1 r')) (held_to (r_cfg r) fl (r_pos1 r')).
Proof.
  intros r fl w n st g r' C FS E D P. rewrite play_file_eq in E. pose proof (ready_keeps r w n) as CK. set (r3 := ready_to_open r w n) in *. clearbody r3.
  assert (E' : '(o, r2) <- past_header r3 fl w st ;; match o with None => Ok (false, r2) | Some p => play_open r2 fl p g end = Ok (true, r')).
  { destruct (r_kind r3); [discriminate|exact E..]. }
  clear E. apply bind_ok in E'. destruct E' as ([o r5] & E5 & E). apply past_keeps in E5.
  destruct o as [p|]; [|apply Ok_inj, pair_equal_spec in E; destruct E; discriminate].
  rewrite <- CK, <- E5 in *. clear CK E5 r3.
  unfold play_open in E. destruct (_ <=? _); [apply Ok_inj, pair_equal_spec in E; destruct E; discriminate|].
  apply bind_ok in E. destruct E as (fs & _ & E). destruct (open_reach r5 fs fl p g) as (f & S & R & F).
  assert (SO : r_src (open_src r5 fs fl p g) = SFile (if_new (r_cfg r5) fl p g)) by reflexivity.
  destruct (copy_bufs _ _ SO) as (f2 & S2 & B2). rewrite S in S2. injection S2 as <-.
  exact (start_held (r_cfg r5) fl _ f r' S R F B2 C FS E D P).
Qed.

(* ---- sessions without reloads --------------------------------------------------- *)

Section Held.
Variables (c : ccfg) (fl : file) (lo hi : Z) (m : mem) (off : Z).
Hypotheses (C : cfg_ok c) (FS : fsize fl <= 2 ^ 31).
(* the memory has no other samples than those *)
Hypothesis inside : forall i v, mem_sample m off i = Some v -> mem_sample (part_mem fl lo hi) (- (2 * lo)) i = Some v.

Notation good := (part_good c fl lo hi).

Lemma read_held : forall r f fuel n out ra k, r_src r = SFile f -> good k f -> r_read fuel (on_array m off r) n = Ok (out, ra) ->
  exists r' f', r_read fuel r n = Ok (out, r') /\ ra = on_array m off r' /\ r_src r' = SFile f' /\ good k f'.
Proof.
  intros r f fuel n out ra k S G E.
  assert (M : mir m off (r_kind r) (good k) (on_array m off r) r).
  { split; [reflexivity|]. exists f. split; [exact G|]. now apply src_set_self. }
  pose proof (kind_read _ _ _ _ _ E) as KK.
  destruct (mir_read m off (r_kind r) (good k) (fun _ => False) (fun _ _ _ H => H)
    (fun g i v G H => or_introl (part_hit c fl lo hi k g i v C FS G (inside i v H))) fuel _ _ n M out ra E) as [(rf & R & S2 & g & GG & ->)|[(s & []) _]].
  eexists. exists g. split; [exact R|]. split; [now apply on_array_back|]. split; [reflexivity|exact GG].
Qed.

Lemma op_held : forall fuel o r f b a k, unserviced o -> r_src r = SFile f -> good k f -> sop_run fuel o (on_array m off r) = Ok (b, a) ->
  exists r' f', sop_run fuel o r = Ok (b, r') /\ a = on_array m off r' /\ r_src r' = SFile f' /\ good k f'.
Proof.
  intros fuel o r f b a k U S G EA. destruct o; cbn [sop_run] in EA |- *.
  - eapply read_held; eauto.
  - now elim U.
  - apply bind_ok in EA. destruct EA as (a1 & A1 & A2). apply Ok_inj, pair_equal_spec in A2. destruct A2 as [<- <-].
    destruct (rate_array _ _ _ _ _ A1) as (r2 & E & -> & SS). exists r2, f. rewrite E. cbn [bind]. split; [reflexivity|]. split; [reflexivity|].
    split; [congruence|auto].
  - cbn [bind] in *. apply Ok_inj, pair_equal_spec in EA. destruct EA as [<- <-].
    exists (setLoopType r l), (if_setLoopType f l). split; [reflexivity|]. split; [unfold setLoopType; rewrite S; reflexivity|].
    split; [now apply type_src|exact G].
  - cbn [bind] in *. apply Ok_inj, pair_equal_spec in EA. destruct EA as [<- <-].
    destruct (lstart_src r v f S) as (z & Z1). exists (setLoopStart r v). eexists. split; [reflexivity|].
    split; [|split; [exact Z1|exact G]]. unfold setLoopStart. cbv zeta. change (r_src (r <| r_ls := s32 v |>)) with (r_src r). rewrite S. reflexivity.
  - cbn [bind] in *. apply Ok_inj, pair_equal_spec in EA. destruct EA as [<- <-].
    destruct (lfinish_src r v f S) as (z & Z1). exists (setLoopFinish r v). eexists. split; [reflexivity|].
    split; [|split; [exact Z1|exact G]]. unfold setLoopFinish. cbv zeta. change (r_src (r <| r_lf := s32 v |>)) with (r_src r). rewrite S. reflexivity.
  - apply bind_ok in EA. destruct EA as (a1 & A1 & A2). apply Ok_inj, pair_equal_spec in A2. destruct A2 as [<- <-].
    destruct (here_array _ _ _ _ _ A1) as (r2 & E & -> & SS). exists r2, f. rewrite E. cbn [bind]. split; [reflexivity|]. split; [reflexivity|].
    split; [congruence|auto].
  - cbn [bind] in *. apply Ok_inj, pair_equal_spec in EA. destruct EA as [<- <-]. eexists. exists f. split; [reflexivity|]. split; [reflexivity|]. split; [exact S|exact G].
  - cbn [bind] in *. apply Ok_inj, pair_equal_spec in EA. destruct EA as [<- <-]. eexists. exists f. split; [reflexivity|]. split; [reflexivity|]. split; [exact S|exact G].
  - cbn [bind] in *. apply Ok_inj, pair_equal_spec in EA. destruct EA as [<- <-]. eexists. exists f. split; [reflexivity|]. split; [reflexivity|]. split; [exact S|exact G].
  - cbn [bind] in *. apply Ok_inj, pair_equal_spec in EA. destruct EA as [<- <-]. eexists. exists f. split; [reflexivity|]. split; [reflexivity|]. split; [exact S|exact G].
  - cbn [bind] in *. apply Ok_inj, pair_equal_spec in EA. destruct EA as [<- <-]. eexists. exists f. split; [reflexivity|]. split; [reflexivity|]. split; [exact S|exact G].
Qed.

Lemma session_held : forall fuel os r f bs a k, Forall unserviced os -> r_src r = SFile f -> good k f -> session fuel (on_array m off r) os = Ok (bs, a) ->
  exists r' f', session fuel r os = Ok (bs, r') /\ a = on_array m off r' /\ r_src r' = SFile f' /\ good k f'.
Proof.
  intros fuel. induction os as [|o os IH]; intros r f bs a k U S G EA; cbn [session] in EA |- *.
  - apply Ok_inj, pair_equal_spec in EA. destruct EA as [<- <-]. eauto 6.
  - apply bind_ok in EA. destruct EA as ([b0 a1] & A1 & EA). apply bind_ok in EA. destruct EA as ([bs0 a2] & A2 & EA).
    apply Ok_inj, pair_equal_spec in EA. destruct EA as [<- <-]. inversion U as [|? ? U1 U2]; subst.
    destruct (op_held fuel o r f b0 a1 k U1 S G A1) as (r1 & f1 & E1 & -> & S1 & G1).
    destruct (IH r1 f1 bs0 a2 k U2 S1 G1 A2) as (r2 & f2 & E2 & -> & S2 & G2).
    exists r2, f2. rewrite E1. cbn [bind]. rewrite E2. cbn [bind]. auto.
Qed.
End Held.

Theorem held_part : forall r0 fl w n st g r fuel os bs a, cfg_ok (r_cfg r0) -> fsize fl <= 2 ^ 31 ->
  r_play_file r0 (Some fl) w n st g = Ok (true, r) -> dle d0 (r_rate r) = true -> 0 <= r_pos1 r < 2 ^ 30 -> Forall unserviced os ->
  let lo := held_from (r_cfg r0) (r_pos1 r) in
  let part := on_array (part_mem fl lo (held_to (r_cfg r0) fl (r_pos1 r))) (- (2 * lo)) in
  session fuel (part r) os = Ok (bs, a) ->
  exists r', session fuel r os = Ok (bs, r') /\ a = part r' /\ misses r' = 0.
Proof.
  intros r0 fl w n st g r fuel os bs a C FS E D P U lo part EA.
  destruct (play_held r0 fl w n st g r C FS E D P) as (f & S & R & F & B).
  destruct (session_held (r_cfg r0) fl lo (held_to (r_cfg r0) fl (r_pos1 r)) _ _ C FS (fun _ _ H => H) fuel os r f bs a 0 U S) as (r' & f' & E2 & E3 & S' & G'); auto.
  { split; [now apply creach_coherent|]. split; [exact B|exact F]. }
  exists r'. split; [exact E2|]. split; [exact E3|]. unfold misses. rewrite S'. apply G'.
Qed.

Lemma small_inside : forall c fl i v, cfg_ok c -> small_file c fl -> mem_sample (file_mem fl) 0 i = Some v ->
  mem_sample (part_mem fl 0 (held_to c fl 0)) (- (2 * 0)) i = Some v.
Proof.
  intros c fl i v C SM M. rewrite part_hit_eq. unfold mem_sample in M.
  destruct (Z.leb_spec 0 (0 + 2 * i)), (Z.leb_spec (0 + 2 * i + 2) (msize (file_mem fl))); try discriminate. cbn [andb] in M.
  cbn [file_mem msize mbyte] in *. injection M as <-. unfold held_to, held_from, small_file in *.
  pose proof (BS_pos _ C) as HB. rewrite Z.div_0_l, Z.mul_0_l, Z.add_0_l by lia.
  assert (i + 1 <= fsize fl / 2) by (apply Z.div_le_lower_bound; lia).
  destruct (Z.leb_spec 0 i), (Z.ltb_spec i (Z.min (fsize fl / 2) (Z.of_nat (c_nbuf c) * BS c))); cbn [andb]; try lia. reflexivity.
Qed.

Theorem held_small : forall r0 fl w n st g r fuel os bs a, cfg_ok (r_cfg r0) -> fsize fl <= 2 ^ 31 -> small_file (r_cfg r0) fl ->
  r_play_file r0 (Some fl) w n st g = Ok (true, r) -> dle d0 (r_rate r) = true -> 0 <= r_pos1 r < BS (r_cfg r0) -> Forall unserviced os ->
  session fuel (on_array (file_mem fl) 0 r) os = Ok (bs, a) ->
  exists r', session fuel r os = Ok (bs, r') /\ a = on_array (file_mem fl) 0 r' /\ misses r' = 0.
Proof.
  intros r0 fl w n st g r fuel os bs a C FS SM E D P U EA. pose proof (BS_pos _ C) as HB.
  destruct (play_held r0 fl w n st g r C FS E D) as (f & S & R & F & B); [lia|].
  assert (H0 : held_from (r_cfg r0) (r_pos1 r) = 0) by (unfold held_from; rewrite Z.div_small by lia; reflexivity).
  assert (H1 : held_to (r_cfg r0) fl (r_pos1 r) = held_to (r_cfg r0) fl 0).
  { unfold held_to. rewrite H0. unfold held_from. rewrite Z.div_0_l by lia. reflexivity. }
  rewrite H0, H1 in B.
  destruct (session_held (r_cfg r0) fl 0 (held_to (r_cfg r0) fl 0) (file_mem fl) 0 C FS (fun i v => small_inside _ fl i v C SM) fuel os r f bs a 0 U S)
    as (r' & f' & E2 & E3 & S' & G'); auto.
  { split; [now apply creach_coherent|]. split; [exact B|exact F]. }
  exists r'. split; [exact E2|]. split; [exact E3|]. unfold misses. rewrite S'. apply G'.
Qed.
