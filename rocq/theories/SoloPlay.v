(* C109, C110: array players from the array to the outputs. *)

From Coq Require Import ZArith Lia List Bool Reals Lra.
From RecordUpdate Require Import RecordUpdate.
From Flocq Require Import Core.Core IEEE754.BinarySingleNaN.
From Verif Require Import Machine Floats FloatFacts WavModel InterpModel CacheModel ReaderModel ReaderFacts ResponderModel ResponderSpec
  PlayerModel CacheFacts ReaderSpec FileSpec LifeSpec UpdateProofs LifeProofs WorldProofs WavSpec WavFinal WavPlayProofs ForwardProofs FilePlay LoopSpec LoopProofs QuadProofs InterpWalk StageSpec StageProofs
  TapeSpec TapeProofs BackSpec BackProofs BackOpen ReelProofs ReelOpen SoloSpec SoloProofs.
Import ListNotations.
Local Open Scope Z_scope.

(* ---- what is heard, from what is seen ---- *)

Definition heard_of (x : bool + list bact) : list (list (Z * list Z)) :=
  match x with inl _ => [] | inr a => [map (fun t => (snd t, snd (fst t))) (sent a)] end.

Lemma heard_seen : forall i xs, heard i xs = flat_map heard_of (seen i xs).
Proof.
  intros i. unfold heard, seen. induction xs as [|x xs IH]; [reflexivity|]. cbn [flat_map]. rewrite flat_map_app, <- IH. f_equal.
  destruct x; cbn [heard1 seen1]; try reflexivity; try (destruct (Nat.eqb _ i); reflexivity).
  induction l as [|[j a] l IHl]; [reflexivity|]. cbn [flat_map fst snd]. rewrite flat_map_app, IHl. destruct (Nat.eqb j i); reflexivity.
Qed.

(* ---- its own operations while it plays ---- *)

Definition turns (i : nat) (o : wop) : Prop := (exists alloc, o = WUpdate i alloc) \/ (exists x, o = WCall i (CRate x)).
Lemma deck_own : forall i o, deck_op i o -> Forall (turns i) (own i o).
Proof.
  intros i o D. destruct o; cbn [own deck_op] in *; try (destruct (Nat.eqb_spec i0 i) as [->|]; [|solve [constructor | rewrite Forall_map; apply Forall_forall; intros e _; left; eauto]]);
    try contradiction; try solve [constructor].
  - apply Forall_cons; [|constructor]. right. destruct (D eq_refl) as (x & ->). eauto.
  - apply Forall_cons; [|constructor]. left. eauto.
Qed.
Lemma deck_file : forall i o, deck_op i o -> ~ plays_file o i.
Proof. intros i o D P. destruct o; cbn in *; contradiction. Qed.

Definition deckable (nch : nat) (r : reader) : Prop :=
  r_playing r = true /\ r_nch r = Z.of_nat nch /\ exists m o, r_src r = SArr m o.

Lemma deckable_read : forall nch fuel r n l r', deckable nch r -> r_read fuel r n = Ok (l, r') -> deckable nch r'.
Proof.
  intros nch fuel r n l r' (P & N & m & o & S) E. apply r_read_statics in E. split; [rewrite <- (statics_playing _ _ E); exact P|].
  split; [rewrite <- (statics_nch _ _ E); exact N|]. exists m, o. destruct E as [_ G]. rewrite S in G. now inversion G.
Qed.
Lemma deckable_rate : forall nch r x r', deckable nch r -> setPlaybackRate r x = Ok r' -> deckable nch r'.
Proof. intros nch r x r' (P & N & S) E. apply rate_keeps in E. destruct E as (A & B & C & _). unfold deckable. rewrite A, B, C. auto. Qed.
Lemma deckable_reload : forall nch F r, deckable nch r -> r_triggerReload F r = Ok r.
Proof. intros nch F r (_ & _ & m & o & S). unfold r_triggerReload. now rewrite S. Qed.

Lemma gets_all : forall nch alloc l, StageSpec.gets nch (alloc, l) = forallb (fun c => got (alloc c)) (seq 0 nch). Proof. reflexivity. Qed.

Lemma deck_run : forall i nch fuel F, (1 <= nch)%nat -> forall ol r x r' bs r1, Forall (turns i) ol -> deckable nch r ->
  alones fuel ol r = Ok (x, r') -> spun F r (flat_map (deck1 nch) ol) = Ok (bs, r1) ->
  r' = r1 /\ deckable nch r1 /\ flat_map heard_of x = aired nch (flat_map (chance1 nch) ol) bs.
Proof.
  intros i nch fuel F N1. induction ol as [|o ol IH]; intros r x r' bs r1 T D A S.
  - cbn in A, S. apply Ok_inj, pair_equal_spec in A, S. destruct A as [<- <-]. destruct S as [<- <-]. auto.
  - apply Forall_cons_iff in T. destruct T as [[(alloc & ->)|(y & ->)] T]; cbn [alones alone] in A; apply bind_ok in A; destruct A as ([a q] & A1 & A);
      apply bind_ok in A; destruct A as ([b q2] & A2 & A); apply Ok_inj, pair_equal_spec in A; destruct A as [<- <-]; cbn [flat_map deck1 chance1] in S |- *.
    + unfold alone1 in A1. apply bind_ok in A1. destruct A1 as ([[acts ev] q0] & A1 & A3). apply Ok_inj, pair_equal_spec in A3. destruct A3 as [<- <-].
      pose proof D as (P & NC & _). pose proof (player_update _ _ _ _ _ _ nch A1 P NC N1) as U. rewrite gets_all in U.
      cbn [app flat_map heard_of]. destruct (forallb _ (seq 0 nch)).
      * destruct U as (frames & R & _ & H & _). cbn [app spun] in S. apply bind_ok in S. destruct S as ([c s1] & S1 & S). apply bind_ok in S. destruct S as (s2 & S2 & S).
        apply bind_ok in S. destruct S as ([cs s3] & S3 & S). apply Ok_inj, pair_equal_spec in S. destruct S as [<- <-].
        change (Z.of_nat 128) with 128 in S1. apply (r_read_fuel _ (fuel + F)) in R; [|lia]. apply (r_read_fuel _ (fuel + F)) in S1; [|lia]. rewrite R in S1.
        apply Ok_inj, pair_equal_spec in S1. destruct S1 as [<- <-]. pose proof (deckable_read _ _ _ _ _ _ D R) as D1.
        rewrite (deckable_reload nch) in S2 by exact D1. apply Ok_inj in S2. subst s2. destruct (IH _ _ _ _ _ T D1 A2 S3) as (E1 & E2 & E3).
        split; [exact E1|]. split; [exact E2|]. cbn [aired]. now rewrite H, E3.
      * destruct U as (H & _ & ->). cbn [app] in S. destruct (IH _ _ _ _ _ T D A2 S) as (E1 & E2 & E3). split; [exact E1|]. split; [exact E2|].
        cbn [aired]. now rewrite H, E3.
    + cbn [call_run] in A1. apply bind_ok in A1. destruct A1 as (q0 & A1 & A3). apply Ok_inj, pair_equal_spec in A3. destruct A3 as [<- <-].
      cbn [app spun] in S. rewrite A1 in S. cbn [bind] in S. cbn [app]. exact (IH _ _ _ _ _ T (deckable_rate _ _ _ _ D A1) A2 S).
Qed.

(* ---- the run after the calls ---- *)

Lemma history_iso : forall kinds flags i w, array_history kinds flags i w -> isolated i (w_sys w).
Proof. intros kinds flags i w (fuel & l & xs & _ & NF & E). exact (proj1 (alone_wops _ _ _ _ _ _ (iso0 i flags : isolated i (w_sys (world0 kinds flags))) NF E)). Qed.

Lemma alone_runs_iso : forall i fuel l w a r', isolated i (w_sys w) -> Forall (fun o => own i o = [o]) l -> (forall o, In o l -> ~ plays_file o i) ->
  alones fuel l (w_rd w i) = Ok (a, r') -> exists xs w', wops fuel l w = Ok (xs, w') /\ seen i xs = a /\ w_rd w' i = r' /\ isolated i (w_sys w').
Proof.
  intros i fuel l w a r' I OW NF E. destruct (alone_runs _ _ _ _ _ _ I OW NF E) as (xs & w' & A & B & C). exists xs, w'.
  split; [exact A|]. split; [exact B|]. split; [exact C|]. exact (proj1 (alone_wops _ _ _ _ _ _ I NF A)).
Qed.

Lemma update_next : forall i nch w F x, isolated i (w_sys w) -> deckable nch (w_rd w i) -> (1 <= nch)%nat -> r_read F (w_rd w i) 128 = Ok x ->
  forall alloc, exists fuel2 y, w_update fuel2 i alloc w = Ok y.
Proof.
  intros i nch w F [frames r'] I (P & NC & _) N1 R alloc. exists F.
  assert (exists acts ev q, p_update F alloc (w_rd w i) = Ok (acts, ev, q)) as (acts & ev & q & U).
  { unfold p_update. rewrite P. cbn [negb]. change ABS with 128. rewrite R. cbn [bind]. cbv zeta.
    destruct (Z.eqb_spec (r_nch (w_rd w i)) (-1)); [eauto|]. destruct (Z.ltb_spec (r_nch (w_rd w i)) 0); [lia|]. destruct (forallb _ _); eauto. }
  unfold w_update. rewrite U. cbn [bind]. destruct ev as [st|]; [|eauto].
  destruct (iso_trigger_self i st (w_sys (set_rd w i q)) I) as (s' & T & _). rewrite T. cbn [bind]. eauto.
Qed.

Lemma deck_stage : forall kinds flags i calls nch (ok : list tape_op -> Prop) out w r2, array_history kinds flags i w -> (1 <= nch)%nat ->
  Forall (fun o => own i o = [o]) calls -> (forall o, In o calls -> ~ plays_file o i) ->
  alones 0 calls (w_rd w i) = Ok ([inl true], r2) -> deckable nch r2 ->
  (forall l, ok l -> ok (l ++ [Block 128])) ->
  (forall l, ok l -> exists fuel s, spun fuel r2 l = Ok (out l, s)) ->
  plays_deck i calls nch ok out w.
Proof.
  intros kinds flags i calls nch ok out w r2 H N1 OW NF E D OK SP. apply history_iso in H.
  destruct (alone_runs_iso _ _ _ _ _ _ H OW NF E) as (ys & w0 & W0 & S0 & R0 & I0). exists ys, w0. split; [exact W0|]. split; [exact S0|].
  intros fuel l xs w' DO OKL EW. destruct (SP _ OKL) as (F1 & s1 & E1). destruct (SP _ (OK _ OKL)) as (F2 & s2 & E2).
  apply spun_app in E2. destruct E2 as (b1 & s3 & b2 & E2 & E3 & _).
  assert (ES : s3 = s1).
  { apply (spun_fuel _ _ (F1 + F2)) in E1; [|lia]. apply (spun_fuel _ _ (F1 + F2)) in E2; [|lia]. rewrite E1 in E2. apply Ok_inj, pair_equal_spec in E2. now symmetry. }
  subst s3. cbn [spun] in E3. apply bind_ok in E3. destruct E3 as (x & E3 & _). change (Z.of_nat 128) with 128 in E3.
  assert (T : Forall (turns i) (flat_map (own i) l)). { apply Forall_flat_map. eapply Forall_impl; [|exact DO]. intros o Ho. now apply deck_own. }
  assert (NF2 : forall o, In o l -> ~ plays_file o i). { intros o Ho. apply deck_file. rewrite Forall_forall in DO. now apply DO. }
  destruct (alone_wops _ _ _ _ _ _ I0 NF2 EW) as [I1 A]. rewrite R0 in A. destruct (deck_run i nch fuel F1 N1 _ _ _ _ _ _ T D A E1) as (R1 & D1 & HE).
  rewrite heard_seen. split; [exact HE|]. rewrite R1. split; [apply D1|]. apply (update_next i nch w' F2 x I1); rewrite ?R1; auto.
Qed.

(* ---- what the calls leave ---- *)

Lemma setup_nch : forall r m off len nch, r_nch (raw_setup r m off len nch) = s16 nch. Proof. reflexivity. Qed.
Lemma reset_keeps : forall r r', r_reset r = Ok r' -> r_nch r' = r_nch r /\ r_src r' = r_src r.
Proof. intros r r' E. unfold r_reset in E. apply bind_ok in E. destruct E as (p & _ & E). apply Ok_inj in E. rewrite <- E. split; reflexivity. Qed.
Lemma now_playing : forall nch r m off, r_nch r = Z.of_nat nch -> r_src r = SArr m off -> deckable nch (r <| r_playing := true |>).
Proof. intros nch r m off N S. split; [reflexivity|]. split; [exact N|]. exists m, off. exact S. Qed.
Lemma raw_deckable : forall r m off len nch r', Z.of_nat nch < 2 ^ 15 -> playRaw_array r m off len (Z.of_nat nch) = Ok r' -> deckable nch r'.
Proof.
  intros r m off len nch r' NB E. rewrite playRaw_setup in E. apply bind_ok in E. destruct E as (r3 & E & E2). apply Ok_inj in E2. rewrite <- E2.
  apply reset_keeps in E. destruct E as [A B]. rewrite setup_nch in A. rewrite setup_src in B. apply (now_playing _ _ m off); [|exact B].
  rewrite A. apply s16_id. split; lia.
Qed.
Lemma raw_alones : forall i w m off len nch r2, playRaw_array (r_stop (w_rd w i)) m off len nch = Ok r2 ->
  alones 0 [WPlayRaw i m off len nch] (w_rd w i) = Ok ([inl true], r2).
Proof. intros i w m off len nch r2 E. cbn [alones alone]. unfold started_with, always. rewrite E. reflexivity. Qed.
Lemma wav_alones : forall i w m r2, playWav_array (r_stop (w_rd w i)) m = Ok (true, r2) -> alones 0 [WPlayWav i m] (w_rd w i) = Ok ([inl true], r2).
Proof. intros i w m r2 E. cbn [alones alone]. unfold started_with. rewrite E. reflexivity. Qed.
Lemma own_raw : forall i m off len nch, Forall (fun o => own i o = [o]) [WPlayRaw i m off len nch].
Proof. intros. constructor; [|constructor]. cbn [own]. now rewrite Nat.eqb_refl. Qed.
Lemma own_wav : forall i m, Forall (fun o => own i o = [o]) [WPlayWav i m].
Proof. intros. constructor; [|constructor]. cbn [own]. now rewrite Nat.eqb_refl. Qed.
Lemma no_file : forall i m off len nch o, In o [WPlayRaw i m off len nch] -> ~ plays_file o i.
Proof. intros i m off len nch o [<-|[]] []. Qed.
Lemma no_file_wav : forall i m o, In o [WPlayWav i m] -> ~ plays_file o i.
Proof. intros i m o [<-|[]] []. Qed.

(* ---- C109 ---- *)

Lemma tape_more : forall q X l, Forall (tape_ok q X 128) l -> Forall (tape_ok q X 128) (l ++ [Block 128]).
Proof. intros q X l F. apply Forall_app. split; [exact F|repeat constructor]. Qed.
Lemma rtape_more : forall q X t x l, Forall (rtape_ok q X 128) l /\ above t x l -> Forall (rtape_ok q X 128) (l ++ [Block 128]) /\ above t x (l ++ [Block 128]).
Proof. intros q X t x l [F A]. split; [apply Forall_app; split; [exact F|repeat constructor]|now apply above_block]. Qed.

Theorem deck_raw : forall q, 0 <= q <= 52 -> forall kinds flags i w m off len nch ps pb X, array_history kinds flags i w -> array_holds m off len nch ->
  basic_settings (w_rd w i) LNone ps pb -> (ps = PArbitrary -> 0 <= pb <= len) -> let x := r_rate (w_rd w i) in
  rate_ok q X x -> ((X + 1) * INR nch <= IZR (2 ^ 30))%R ->
  plays_deck i [WPlayRaw i m off len (Z.of_nat nch)] nch (Forall (tape_ok q X 128)) (tape (src_frame m off nch) len (IZR (start_frame ps pb)) (R64 x)) w.
Proof.
  intros q Q kinds flags i w m off len nch ps pb X H AH BS0 PB x RX XB. pose proof AH as (_ & _ & _ & _ & N1 & NB).
  destruct (tape_mem q Q (r_stop (w_rd w i)) m off len nch ps pb 128 X AH BS0 PB RX XB) as (r2 & E & S).
  apply (deck_stage kinds flags i _ nch _ _ w r2 H N1 (own_raw _ _ _ _ _) (no_file _ _ _ _ _) (raw_alones _ _ _ _ _ _ _ E) (raw_deckable _ _ _ _ _ _ NB E)).
  - apply tape_more.
  - exact S.
Qed.

Theorem deck_back : forall q, 0 <= q <= 52 -> forall kinds flags i w m off len nch ps pb p0 X, array_history kinds flags i w -> array_holds m off len nch ->
  basic_settings (w_rd w i) LNone ps pb -> 0 <= p0 < len -> (match ps with
   | PSample => p0 * Z.of_nat nch = len - Z.of_nat nch
   | PLoop => nch = 1%nat /\ p0 = len - 1
   | PArbitrary => p0 = pb
   end) -> let x := r_rate (w_rd w i) in
  back_ok q X x -> ((X + 1) * INR nch <= IZR (2 ^ 30))%R ->
  plays_deck i [WPlayRaw i m off len (Z.of_nat nch)] nch (fun l => Forall (rtape_ok q X 128) l /\ above (IZR p0) (R64 x) l)
    (rtape (src_frame m off nch) (IZR p0) (R64 x)) w.
Proof.
  intros q Q kinds flags i w m off len nch ps pb p0 X H AH BS0 P0 PS x RX XB. pose proof AH as (_ & _ & _ & _ & N1 & NB).
  destruct (back_mem q Q (r_stop (w_rd w i)) m off len nch ps pb p0 128 X AH BS0 P0 PS RX XB) as (r2 & E & S).
  apply (deck_stage kinds flags i _ nch _ _ w r2 H N1 (own_raw _ _ _ _ _) (no_file _ _ _ _ _) (raw_alones _ _ _ _ _ _ _ E) (raw_deckable _ _ _ _ _ _ NB E)).
  - apply rtape_more.
  - intros l [F A]. exact (S l F A).
Qed.

Theorem deck_wav : forall q, 0 <= q <= 52 -> forall kinds flags i w m tags n nch ps pb X, array_history kinds flags i w ->
  bytes_ok (mbyte m) -> headers_inside m -> header_valid (mbyte m) -> data_chunk (mbyte m) tags n -> hdr_channels (mbyte m) = Z.of_nat nch ->
  let len := n / Z.of_nat nch / 2 in
  array_holds m (44 + tags) len nch ->
  basic_settings (w_rd w i) LNone ps pb -> (ps = PArbitrary -> 0 <= pb <= len) -> let x := r_rate (w_rd w i) in
  rate_ok q X x -> ((X + 1) * INR nch <= IZR (2 ^ 30))%R ->
  plays_deck i [WPlayWav i m] nch (Forall (tape_ok q X 128)) (tape (src_frame m (44 + tags) nch) len (IZR (start_frame ps pb)) (R64 x)) w.
Proof.
  intros q Q kinds flags i w m tags n nch ps pb X H B HI V DC CH len AH BS0 PB x RX XB. pose proof AH as (_ & _ & _ & _ & N1 & NB).
  destruct (tape_mem q Q (r_stop (w_rd w i)) m (44 + tags) len nch ps pb 128 X AH BS0 PB RX XB) as (r2 & E & S).
  assert (EW : playWav_array (r_stop (w_rd w i)) m = Ok (true, r2)).
  { rewrite (playWav_array_accept _ m tags n B HI V DC) by (rewrite CH; lia). rewrite CH. fold len. rewrite E. reflexivity. }
  apply (deck_stage kinds flags i _ nch _ _ w r2 H N1 (own_wav _ _) (no_file_wav _ _) (wav_alones _ _ _ _ EW) (raw_deckable _ _ _ _ _ _ NB E)).
  - apply tape_more.
  - exact S.
Qed.

(* ---- at a constant rate: whatever the reader delivers ---- *)

Lemma spun_blocks : forall nch F ns r bs r', deckable nch r -> read_seq F r ns = Ok (bs, r') -> spun F r (map Block ns) = Ok (bs, r').
Proof.
  intros nch F. induction ns as [|n ns IH]; intros r bs r' D E; cbn [read_seq map spun] in *; [exact E|].
  apply bind_ok in E. destruct E as ([b r1] & E1 & E). apply bind_ok in E. destruct E as ([bs2 r2] & E2 & E). apply Ok_inj, pair_equal_spec in E. destruct E as [<- <-].
  rewrite E1. cbn [bind]. pose proof (deckable_read _ _ _ _ _ _ D E1) as D1. rewrite (deckable_reload nch) by exact D1. cbn [bind].
  rewrite (IH _ _ _ D1 E2). reflexivity.
Qed.

Lemma deck_constant : forall kinds flags i calls nch out w r2, array_history kinds flags i w -> (1 <= nch)%nat ->
  Forall (fun o => own i o = [o]) calls -> (forall o, In o calls -> ~ plays_file o i) ->
  alones 0 calls (w_rd w i) = Ok ([inl true], r2) -> deckable nch r2 -> delivers r2 out ->
  plays_deck i calls nch (Forall (eq (Block 128))) (steady out) w.
Proof.
  intros kinds flags i calls nch out w r2 H N1 OW NF E D DE. apply (deck_stage kinds flags i calls nch _ _ w r2 H N1 OW NF E D).
  - intros l F. apply Forall_app. split; [exact F|repeat constructor].
  - intros l F. destruct (DE (repeat 128%nat (length l))) as (F1 & s & R). exists F1, s. apply (spun_blocks nch) in R; [|exact D].
    assert (L : map Block (repeat 128%nat (length l)) = l). { clear - F. induction F as [|o l <- F IH]; [reflexivity|]. cbn. now rewrite IH. }
    rewrite L in R. exact R.
Qed.

(* ---- C110: loops ---- *)

Lemma loop_deckable : forall nch r ls lf, deckable nch r -> deckable nch (with_loop r ls lf).
Proof.
  intros nch r ls lf (P & N & m & o & S). assert (A : setLoopStart r ls = r <| r_ls := s32 ls |>). { unfold setLoopStart. cbv zeta. change (r_src (r <| r_ls := s32 ls |>)) with (r_src r). now rewrite S. }
  unfold with_loop. rewrite A. set (r1 := r <| r_ls := s32 ls |>). assert (S1 : r_src r1 = SArr m o) by exact S. assert (P1 : r_playing r1 = true) by exact P. assert (N1 : r_nch r1 = Z.of_nat nch) by exact N.
  clearbody r1. unfold setLoopFinish. cbv zeta. change (r_src (r1 <| r_lf := s32 lf |>)) with (r_src r1). rewrite S1. split; [exact P1|]. split; [exact N1|]. exists m, o. exact S1.
Qed.
Lemma own_loop : forall i m off len nch ls lf, Forall (fun o => own i o = [o]) (loop_calls i m off len nch ls lf).
Proof. intros. unfold loop_calls. repeat (apply Forall_cons; [cbn [own]; now rewrite Nat.eqb_refl|]). constructor. Qed.
Lemma no_file_loop : forall i m off len nch ls lf o, In o (loop_calls i m off len nch ls lf) -> ~ plays_file o i.
Proof. intros i m off len nch ls lf o H. unfold loop_calls in H. repeat (destruct H as [<-|H]; [intros []|]). destruct H. Qed.
Lemma loop_alones : forall i w m off len nch ls lf r1, playRaw_array (r_stop (w_rd w i)) m off len (Z.of_nat nch) = Ok r1 ->
  alones 0 (loop_calls i m off len nch ls lf) (w_rd w i) = Ok ([inl true], with_loop r1 ls lf).
Proof. intros i w m off len nch ls lf r1 E. unfold loop_calls. cbn [alones alone]. unfold started_with, always. rewrite E. reflexivity. Qed.

Theorem deck_loop : forall kinds flags i w m off len nch l ps pb ls lf num q, array_history kinds flags i w -> array_holds m off len nch ->
  basic_settings (w_rd w i) l ps pb -> l <> LNone -> (ps = PArbitrary -> 0 <= pb <= len) -> 0 <= ls < lf -> lf <= len ->
  let x := r_rate (w_rd w i) in
  is_finite x = true -> B2R x = (IZR num * bpow radix2 (- q))%R ->
  0 <= q <= 52 -> 0 < num <= 2 ^ 52 -> ((B2R x + 1) * INR nch <= IZR (2 ^ 30))%R ->
  plays_deck i (loop_calls i m off len nch ls lf) nch (Forall (eq (Block 128)))
    (steady (endless_stream (fun k => src_frame m off nch
        (hd_i (orbit (loop_of l ps ls lf nch) num (2 ^ q) (mkHead (match ps with PArbitrary => pb | _ => 0 end) 0 false) k))))) w.
Proof.
  intros kinds flags i w m off len nch l ps pb ls lf num q H AH BS0 NL PB LS LF x FX EX Q NM U. pose proof AH as (_ & _ & _ & _ & N1 & NB).
  destruct (forward_loop m off len nch (r_stop (w_rd w i)) l ps pb ls lf num q AH BS0 NL PB LS LF FX EX Q NM U) as (r1 & E & D).
  exact (deck_constant kinds flags i _ nch _ w _ H N1 (own_loop _ _ _ _ _ _ _) (no_file_loop _ _ _ _ _ _ _) (loop_alones _ _ _ _ _ _ _ _ _ E) (loop_deckable _ _ _ _ (raw_deckable _ _ _ _ _ _ NB E)) D).
Qed.

Theorem deck_loop_back : forall kinds flags i w m off len nch l ps pb ls lf num q p0, array_history kinds flags i w -> array_holds m off len nch ->
  basic_settings (w_rd w i) l ps pb -> l <> LNone -> (ps = PArbitrary -> 0 <= pb <= len) -> 0 <= ls < lf -> lf <= len ->
  let x := r_rate (w_rd w i) in
  is_finite x = true -> B2R x = (- (IZR num * bpow radix2 (- q)))%R ->
  0 <= q <= 52 -> 0 < num <= 2 ^ 52 -> ((- B2R x + 1) * INR nch <= IZR (2 ^ 30))%R ->
  p0 < len ->
  (match ps with
   | PSample => p0 * Z.of_nat nch = len - Z.of_nat nch
   | PLoop => nch = 1%nat /\ p0 = len - 1
   | PArbitrary => p0 = pb
   end) ->
  (l = LRepeat -> match ps with PSample => 0 | _ => ls end <= lf - Z.of_nat nch) ->
  plays_deck i (loop_calls i m off len nch ls lf) nch (Forall (eq (Block 128)))
    (steady (endless_stream (fun k => src_frame m off nch (hd_i (orbit (loop_of l ps ls lf nch) num (2 ^ q) (mkHead p0 0 true) k))))) w.
Proof.
  intros kinds flags i w m off len nch l ps pb ls lf num q p0 H AH BS0 NL PB LS LF x FX EX Q NM U P0 PS LR. pose proof AH as (_ & _ & _ & _ & N1 & NB).
  destruct (backward_loop m off len nch (r_stop (w_rd w i)) l ps pb ls lf num q p0 AH BS0 NL PB LS LF FX EX Q NM U P0 PS LR) as (r1 & E & D).
  exact (deck_constant kinds flags i _ nch _ w _ H N1 (own_loop _ _ _ _ _ _ _) (no_file_loop _ _ _ _ _ _ _) (loop_alones _ _ _ _ _ _ _ _ _ E) (loop_deckable _ _ _ _ (raw_deckable _ _ _ _ _ _ NB E)) D).
Qed.

(* ---- C111: interpolated ---- *)

Theorem deck_linear : forall kinds flags i w m off len nch ps pb, array_history kinds flags i w -> array_holds m off len nch -> (nch <= 8)%nat ->
  interp_settings ILinear (w_rd w i) LNone ps pb -> let x := r_rate (w_rd w i) in
  grid_rate x -> (0 < R64 x <= 1)%R -> (ps = PArbitrary -> 0 <= pb <= len) ->
  let p0 := match ps with PArbitrary => pb | _ => 0 end in let t k := (INR k * R64 x)%R in
  exists f, plays_deck i [WPlayRaw i m off len (Z.of_nat nch)] nch (Forall (eq (Block 128))) (steady (slow_stream len p0 (R64 x) f)) w /\
    forall k, p0 + Zfloor (t k) < len -> length (f k) = nch /\ forall c, (c < nch)%nat ->
      (k = O -> nth c (f k) 0 = y1 (r_pts (w_rd w i) (Z.of_nat c))) /\
      linear_sample (fun p => nth c (src_frame m off nch p) 0) p0 (Zfloor (t k)) (t k - IZR (Zfloor (t k)))%R (nth c (f k) 0).
Proof.
  intros kinds flags i w m off len nch ps pb H AH N8 BS0 x G R PB p0 t. pose proof AH as (_ & _ & _ & _ & N1 & NB).
  destruct (linear_playback m off len nch (r_stop (w_rd w i)) ps pb AH N8 BS0 G R PB) as (r1 & f & E & D & V). exists f. split; [|exact V].
  exact (deck_constant kinds flags i _ nch _ w _ H N1 (own_raw _ _ _ _ _) (no_file _ _ _ _ _) (raw_alones _ _ _ _ _ _ _ E) (raw_deckable _ _ _ _ _ _ NB E) D).
Qed.

Theorem deck_cubic : forall kinds flags i w m off len nch ps pb, array_history kinds flags i w -> array_holds m off len nch -> (nch <= 8)%nat ->
  interp_settings IQuadratic (w_rd w i) LNone ps pb -> let x := r_rate (w_rd w i) in
  grid_rate x -> (0 < R64 x <= 1)%R -> (ps = PArbitrary -> 0 <= pb <= len) ->
  let p0 := match ps with PArbitrary => pb | _ => 0 end in let t k := (INR k * R64 x)%R in
  exists f, plays_deck i [WPlayRaw i m off len (Z.of_nat nch)] nch (Forall (eq (Block 128))) (steady (slow_stream len p0 (R64 x) f)) w /\
    forall k, p0 + Zfloor (t k) < len -> length (f k) = nch /\ forall c, (c < nch)%nat ->
      cubic_sample (fun p => nth c (src_frame m off nch p) 0) p0 (Zfloor (t k)) (t k - IZR (Zfloor (t k)))%R (nth c (f k) 0).
Proof.
  intros kinds flags i w m off len nch ps pb H AH N8 BS0 x G R PB p0 t. pose proof AH as (_ & _ & _ & _ & N1 & NB).
  destruct (cubic_playback m off len nch (r_stop (w_rd w i)) ps pb AH N8 BS0 G R PB) as (r1 & f & E & D & V). exists f. split; [|exact V].
  exact (deck_constant kinds flags i _ nch _ w _ H N1 (own_raw _ _ _ _ _) (no_file _ _ _ _ _) (raw_alones _ _ _ _ _ _ _ E) (raw_deckable _ _ _ _ _ _ NB E) D).
Qed.
