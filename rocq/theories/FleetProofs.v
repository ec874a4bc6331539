(* Any number of players of all four kinds used forwards (C125). *)

From Coq Require Import ZArith Lia List Bool Reals Lra.
From RecordUpdate Require Import RecordUpdate.
From Flocq Require Import Core.Core IEEE754.BinarySingleNaN.
From Verif Require Import Machine Floats FloatFacts WavModel WavSpec WavProofs WavPlayProofs WavFinal InterpModel CacheModel CacheFacts CacheSpec CacheProofs
  ReaderModel ReaderFacts ReaderSpec Walk ForwardProofs LifeProofs FileSpec FilePlay FadeSpec FadeProofs FadeLoop CubicProofs QuadProofs
  InterpSafe ReelProofs ResponderModel ResponderSpec QueueProofs PlayerModel LifeSpec WorldProofs ScheduleProofs StageProofs
  SketchProofs SketchArray ManySpec ManyProofs FleetSpec ArraySafe.
Import ListNotations.
Local Open Scope Z_scope.

(* ---- one array player ---- *)

Definition paced (slow : bool) (r : reader) : Prop := if slow then (R64 (r_rate r) <= 1)%R else r_interp r <> IQuadratic.
Definition aplays (r : reader) : Prop := exists m off len nch, array_holds m off len nch /\ (nch <= 8)%nat /\ aplay m off len nch r.
Definition ainv (slow : bool) (r : reader) : Prop := life KArray r /\ mset r /\ paced slow r /\ (r_playing r = true -> aplays r).

Lemma a_new : forall slow, ainv slow (new_reader KArray).
Proof.
  intros slow. destruct (m_new KArray) as (L & S & _). split; [exact L|]. split; [exact S|]. split; [|discriminate].
  destruct slow; [|discriminate]. change (R64 d1 <= 1)%R. rewrite R64_d1. lra.
Qed.

Lemma read_interp : forall fuel r n l r', r_read fuel r n = Ok (l, r') -> r_interp r' = r_interp r.
Proof. intros fuel r n l r' H. destruct (r_read_statics _ _ _ _ _ H) as [ST _]. symmetry. now apply (f_equal r_interp) in ST. Qed.

Lemma arr_read : forall slow r, ainv slow r -> r_playing r = true -> exists fr r', total (fun f => r_read f r ABS) (fr, r') /\ ainv slow r'.
Proof.
  intros slow r (L & S & PC & H) PL. destruct (H PL) as (m & off & len & nch & HA & N8 & F).
  destruct (safe_read _ _ (aplay_safe m off len nch HA N8) r F) as (fr & r' & T & F'). exists fr, r'. split; [exact T|].
  destruct T as [n T]. specialize (T n (le_n n)). split; [eapply life_read; eauto|].
  pose proof F as (p1 & A1 & _). pose proof F' as (p & AF & _).
  assert (Q5 : r_rate r' = r_rate r) by (eapply read_rate; [split; [apply A1|apply A1]|exact T]).
  split; [|split; [|intros _; exists m, off, len, nch; auto]].
  - destruct (r_read_statics _ _ _ _ _ T) as [ST _].
    assert (Q2 : r_pstart r' = r_pstart r) by (symmetry; now apply (f_equal r_pstart) in ST).
    destruct AF. destruct S. constructor; try assumption; rewrite ?Q2, ?Q5; try assumption; [rewrite a_hdr; lia|right; rewrite a_nch; lia].
  - unfold paced. rewrite Q5, (read_interp _ _ _ _ _ T). exact PC.
Qed.

Lemma arr_stop : forall slow r, ainv slow r -> ainv slow (r_stop r).
Proof.
  intros slow r (L & S & P & H). split; [now apply life_stop|]. split; [eapply mset_same; [exact S|reflexivity]|]. split; [exact P|discriminate].
Qed.

Lemma arr_src : forall k r, k = KArray -> life k r -> r_src r = SNull \/ exists m o, r_src r = SArr m o.
Proof. intros k r K L. destruct (li_arr _ _ L K) as [_ N]. destruct (r_src r) as [|m o|f] eqn:E; [auto|eauto|now elim (N f)]. Qed.

Lemma arr_reload : forall f r, life KArray r -> r_triggerReload f r = Ok r.
Proof. intros f r L. unfold r_triggerReload. destruct (arr_src _ _ eq_refl L) as [->|(m & o & ->)]; reflexivity. Qed.

Lemma arr_response : forall slow st r, ainv slow r -> exists r', total (fun f => response f st r) r' /\ ainv slow r'.
Proof.
  intros slow st r H. unfold response. destruct (st =? evReload).
  - exists r. split; [|exact H]. exists O. intros f _. apply arr_reload. apply H.
  - destruct (st =? evClose).
    + exists (r_close r). split; [apply total_ok|]. unfold r_close. rewrite (li_kind _ _ (proj1 H)). now apply arr_stop.
    + exists r. split; [apply total_ok|exact H].
Qed.

Lemma aplays_same : forall r r', aplays r -> (r_dual r', r_nch r', r_hdr r', r_playing r', r_src r', r_cfst r', r_fsamples r', r_loop r', r_pos1 r', r_pts r', r_rem r') =
  (r_dual r, r_nch r, r_hdr r, r_playing r, r_src r, r_cfst r, r_fsamples r, r_loop r, r_pos1 r, r_pts r, r_rem r) -> onwards (r_rate r') ->
  (r_interp r' = IQuadratic -> (R64 (r_rate r') <= 1)%R) -> aplays r'.
Proof.
  intros r r' (m & off & len & nch & HA & N8 & p & AF & B) E [O1 O2] G. rewrite !pair_equal_spec in E.
  destruct E as ((((((((((E1 & E2) & E3) & E4) & E5) & E6) & E7) & E8) & E9) & E10) & E11).
  exists m, off, len, nch. split; [exact HA|]. split; [exact N8|]. exists p. split; [|exact B].
  destruct AF. constructor; rewrite ?E1, ?E2, ?E3, ?E4, ?E5, ?E6, ?E7, ?E8, ?E9, ?E10, ?E11; assumption.
Qed.

Lemma paced_slow : forall slow r, paced slow r -> r_interp r = IQuadratic -> (R64 (r_rate r) <= 1)%R.
Proof. intros [] r P Q; [exact P|contradiction]. Qed.

Lemma arr_call : forall slow c r, mild_arr slow c -> ainv slow r -> exists r', total (fun f => call_run f c r) r' /\ ainv slow r'.
Proof.
  intros slow c r [M MC] I. pose proof I as (L & S & PC & H).
  assert (SAME : forall r', (forall f, call_run f c r = Ok r') -> mset r' -> paced slow r' ->
    ((r_dual r', r_nch r', r_hdr r', r_playing r', r_src r', r_cfst r', r_fsamples r', r_loop r', r_pos1 r', r_pts r', r_rem r') =
     (r_dual r, r_nch r, r_hdr r, r_playing r, r_src r, r_cfst r, r_fsamples r, r_loop r, r_pos1 r, r_pts r, r_rem r)) ->
    exists r', total (fun f => call_run f c r) r' /\ ainv slow r').
  { intros r' E S' P' Q. exists r'. split; [exists O; intros f _; apply E|]. split; [eapply (life_call _ 0 c); [exact L|apply E]|]. split; [exact S'|]. split; [exact P'|].
    intros PL. apply (aplays_same r); [|exact Q|apply S'|now apply (paced_slow slow)].
    rewrite !pair_equal_spec in Q. destruct Q as ((((((((((_ & _) & _) & E4) & _) & _) & _) & _) & _) & _) & _). apply H. congruence. }
  assert (SRC := arr_src _ _ eq_refl L).
  destruct c; cbn [mild] in M.
  - destruct M as [F X].
    assert (E : (forall f, call_run f (CRate x) r = Ok (r <| r_rate := x |>)) \/
      r_pos1 r < r_hdr r /\ exists q, forall f, call_run f (CRate x) r = Ok (r <| r_rate := x |> <| r_pos1 := q |>)).
    { cbn [call_run]. unfold setPlaybackRate. cbv zeta. change (r_dual (r <| r_rate := x |>)) with (r_dual r). rewrite (ms_dual r S). cbn [negb].
      rewrite dlt_R by auto using fin_d0. rewrite R64_d0, Rlt_bool_false by apply X.
      change (r_pos1 (r <| r_rate := x |>)) with (r_pos1 r). change (r_hdr (r <| r_rate := x |>)) with (r_hdr r).
      destruct (dle d0 x); cbn [andb]; [|auto]. destruct (Z.ltb_spec (r_pos1 r) (r_hdr r)); eauto. }
    assert (PP : forall r', r_rate r' = x -> r_interp r' = r_interp r -> paced slow r').
    { intros r' E1 E2. unfold paced in *. destruct slow; [rewrite E1; auto|rewrite E2; exact PC]. }
    destruct E as [E|(LT & q & E)].
    + apply (SAME (r <| r_rate := x |>)); auto. destruct S. constructor; try assumption. split; assumption.
    + assert (NP : r_playing r = false).
      { destruct (r_playing r); [|reflexivity]. destruct (H eq_refl) as (m & off & len & nch & _ & _ & p & AF & B). rewrite (a_pos _ _ _ _ _ _ AF), (a_hdr _ _ _ _ _ _ AF) in LT. lia. }
      eexists. split; [exists O; intros f _; apply E|]. split; [eapply (life_call _ 0 (CRate x)); [exact L|apply E]|].
      split; [destruct S; constructor; try assumption; split; assumption|]. split; [apply PP; reflexivity|]. intros PL. change (r_playing r = true) in PL. congruence.
  - subst l. assert (E : setLoopType r LNone = r).
    { pose proof (ms_loop r S) as LP. unfold setLoopType. destruct SRC as [Z|(m & o & Z)]; rewrite Z; destruct r; cbn in *; subst; reflexivity. }
    apply (SAME r); auto. intros f. cbn [call_run]. now rewrite E.
  - apply (SAME (r <| r_ls := s32 v |>)); auto.
    + intros f. cbn [call_run]. unfold setLoopStart. cbv zeta. change (r_src (r <| r_ls := s32 v |>)) with (r_src r). destruct SRC as [->|(m & o & ->)]; reflexivity.
    + eapply mset_same; [exact S|reflexivity].
  - apply (SAME (r <| r_lf := s32 v |>)); auto.
    + intros f. cbn [call_run]. unfold setLoopFinish. cbv zeta. change (r_src (r <| r_lf := s32 v |>)) with (r_src r). destruct SRC as [->|(m & o & ->)]; reflexivity.
    + eapply mset_same; [exact S|reflexivity].
  - subst b. apply (SAME (setUseDualPlaybackHead r false)); auto.
    + destruct S. constructor; try assumption. reflexivity.
    + unfold setUseDualPlaybackHead. cbn. rewrite (ms_dual r S). reflexivity.
  - apply (SAME (setCrossfadeDuration r n)); auto. destruct S. constructor; assumption.
  - subst p. apply (SAME (setPlayStart r PSample v)); auto. destruct S. constructor; try assumption. reflexivity.
  - apply (SAME (setInterpolationType r i)); auto.
    + destruct S. constructor; assumption.
    + unfold paced in *. destruct slow; [exact PC|]. cbn. auto.
  - exists (r_begin r). split; [exists O; reflexivity|]. split; [eapply (life_call _ 0 CBegin); [exact L|reflexivity]|].
    split; [eapply mset_same; [exact S|reflexivity]|]. split; [exact PC|discriminate].
  - exists r. split; [|exact I]. exists O. intros f _. cbn [call_run]. now apply arr_reload.
Qed.

(* ---- starting an array ---- *)

Lemma arr_raw : forall slow r m off len nch, array_holds m off len nch -> (nch <= 8)%nat -> ainv slow r ->
  exists r', playRaw_array r m off len (Z.of_nat nch) = Ok r' /\ ainv slow r'.
Proof.
  intros slow r m off len nch HA N8 (L & S & PC & _).
  assert (Q : exists r', playRaw_array r m off len (Z.of_nat nch) = Ok r' /\ mset r' /\ paced slow r' /\ aplay m off len nch r').
  { rewrite playRaw_setup. unfold raw_setup. set (r0 := setNumChannels _ _). pose proof HA as (H0 & L0 & B & B2 & N1 & _).
    assert (NC : r_nch r0 = Z.of_nat nch) by (unfold r0; cbn; apply s16_id; unfold in_s16; lia).
    assert (FS : r_fsamples r0 = len) by (unfold r0; cbn; apply s32_id; unfold in_s32; nia).
    assert (RD : dle d0 (r_rate r0) = true) by (change (r_rate r0) with (r_rate r); apply dge0_true; apply S).
    assert (SP : spos r0 0 = 0).
    { unfold spos, sts. rewrite NC. change (r_hdr r0) with 0. rewrite s32_u32. apply s32_id. unfold in_s32. lia. }
    unfold r_reset. rewrite RD. change (r_pstart r0) with (r_pstart r). rewrite (ms_ps r S), SP. cbn [bind].
    eexists. split; [reflexivity|].
    split; [|split; [exact PC|]].
    - destruct S. constructor; try assumption; [cbn; lia|]. right. change (0 <= r_nch r0). rewrite NC. lia.
    - exists 0. split; [|lia]. pose proof (paced_slow slow r PC) as G. destruct S. constructor; try assumption; try reflexivity; apply ms_rate. }
  destruct Q as (r' & E & S' & P' & A'). exists r'. split; [exact E|]. split; [exact (proj1 (life_playRaw _ _ _ _ _ _ L E))|]. split; [exact S'|]. split; [exact P'|].
  intros _. exists m, off, len, nch. auto.
Qed.

Lemma arr_wav : forall slow r m, mem_wav m -> ainv slow r -> exists b r', playWav_array r m = Ok (b, r') /\ ainv slow r'.
Proof.
  intros slow r m (BM & HI & HS & nch & CH & N8 & DC) I. pose proof I as (L & S & _).
  assert (RD : dle d0 (r_rate r) = true) by (apply dge0_true; apply S).
  destruct (playWav_array_iff r m BM HI HS ltac:(lia) (ms_ps r S) RD) as (b & r' & E & A). exists b, r'. split; [exact E|]. destruct b.
  - destruct (proj1 A eq_refl) as (V & tags & n & D). rewrite (playWav_array_accept r m tags n BM HI V D ltac:(lia)), CH in E.
    destruct (arr_raw slow r m (44 + tags) (n / Z.of_nat nch / 2) nch (DC _ _ D) ltac:(lia) I) as (r2 & E2 & I2). rewrite E2 in E. cbn [bind] in E.
    apply Ok_inj, pair_equal_spec in E. destruct E as [_ <-]. exact I2.
  - destruct (life_playWav _ _ _ _ L E) as [_ ->]; auto.
Qed.

(* ---- all players ---- *)

Section Fleet.
Variables (kinds : nat -> rkind) (slow : nat -> bool).

Definition kinv (i : nat) (r : reader) : Prop := match kinds i with KArray => ainv (slow i) r | k => minv k r end.
Lemma kinv_arr : forall i r, kinds i = KArray -> kinv i r = ainv (slow i) r.
Proof. intros i r K. unfold kinv. now rewrite K. Qed.
Lemma kinv_file : forall i r, kinds i <> KArray -> kinv i r = minv (kinds i) r.
Proof. intros i r K. unfold kinv. destruct (kinds i); congruence. Qed.
Lemma kind_dec : forall i, kinds i = KArray \/ kinds i <> KArray.
Proof. intros i. destruct (kinds i); auto; right; discriminate. Qed.

Lemma k_new : forall i, kinv i (new_reader (kinds i)).
Proof. intros i. destruct (kind_dec i) as [K|K]; [rewrite kinv_arr, K by exact K; apply a_new|rewrite kinv_file by exact K; apply m_new]. Qed.
Lemma k_read : forall i r, kinv i r -> r_playing r = true -> exists fr r', total (fun f => r_read f r ABS) (fr, r') /\ kinv i r'.
Proof.
  intros i r H PL. destruct (kind_dec i) as [K|K].
  - rewrite kinv_arr in H by exact K. destruct (arr_read _ _ H PL) as (fr & r' & T & H'). exists fr, r'. rewrite kinv_arr by exact K. auto.
  - rewrite kinv_file in H by exact K. destruct (m_read _ _ H PL) as (fr & r' & T & H'). exists fr, r'. rewrite kinv_file by exact K. auto.
Qed.
Lemma k_nch : forall i r, kinv i r -> r_nch r = -1 \/ 0 <= r_nch r.
Proof.
  intros i r H. destruct (kind_dec i) as [K|K]; [rewrite kinv_arr in H by exact K|rewrite kinv_file in H by exact K]; apply H.
Qed.
Lemma k_stop : forall i r, kinv i r -> kinv i (r_stop r).
Proof.
  intros i r H. destruct (kind_dec i) as [K|K]; [rewrite kinv_arr in * by exact K; now apply arr_stop|rewrite kinv_file in * by exact K; now apply m_stop].
Qed.
Lemma k_response : forall i st r, kinv i r -> exists r', total (fun f => response f st r) r' /\ kinv i r'.
Proof.
  intros i st r H. destruct (kind_dec i) as [K|K].
  - rewrite kinv_arr in H by exact K. destruct (arr_response _ st _ H) as (r' & T & H'). exists r'. rewrite kinv_arr by exact K. auto.
  - rewrite kinv_file in H by exact K. destruct (m_response _ st _ K H) as (r' & T & H'). exists r'. rewrite kinv_file by exact K. auto.
Qed.
Lemma k_call : forall i c r, mild_any kinds slow (WCall i c) -> kinv i r -> exists r', total (fun f => call_run f c r) r' /\ kinv i r'.
Proof.
  intros i c r M H. cbn [mild_any] in M. destruct (kind_dec i) as [K|K].
  - rewrite K in M. rewrite kinv_arr in H by exact K. destruct (arr_call _ c _ M H) as (r' & T & H'). exists r'. rewrite kinv_arr by exact K. auto.
  - assert (M' : mild c) by (destruct (kinds i); auto; now elim K). rewrite kinv_file in H by exact K. destruct (m_call _ c _ M' H) as (r' & T & H'). exists r'. rewrite kinv_file by exact K. auto.
Qed.

Definition flotilla (d : Z) (w : world) : Prop := (exists a q v, ystate w a q d v) /\ forall i, kinv i (w_rd w i).

Lemma fl_rd : forall d w i r, flotilla d w -> kinv i r -> flotilla d (set_rd w i r).
Proof.
  intros d w i r ((a & q & v & Y) & A) H. split; [exists a, q, v; eapply ys_rd; [exact Y|reflexivity]|].
  intros j. rewrite rd_set. destruct (Nat.eqb_spec j i); [subst j; exact H|apply A].
Qed.

(* update(), whatever the lists of events are *)
Lemma k_update : forall i g w, (forall i, kinv i (w_rd w i)) -> exists acts ev r', total (fun f => p_update f g (w_rd w i)) (acts, ev, r') /\ kinv i r'.
Proof.
  intros i g w A. pose proof (A i) as H.
  unfold p_update. destruct (Z.eqb_spec (r_nch (w_rd w i)) (-1)); [do 3 eexists; split; [apply total_ok|exact H]|].
  destruct (Z.ltb_spec (r_nch (w_rd w i)) 0); [destruct (k_nch _ _ H); lia|].
  destruct (r_playing (w_rd w i)) eqn:PL; cbn [negb]; [|do 3 eexists; split; [apply total_ok|exact H]].
  destruct (forallb got _); [|do 3 eexists; split; [apply total_ok|exact H]].
  destruct (k_read _ _ H PL) as (fr & r' & T & H'). do 3 eexists. split; [|exact H'].
  eapply total_bind; [exact T|]. apply total_ok.
Qed.

Lemma fl_update : forall d i g w, flotilla d w -> exists acts w', total (fun f => w_update f i g w) (acts, w') /\ flotilla d w'.
Proof.
  intros d i g w ((a & q & v & Y) & A). destruct (k_update i g w A) as (acts & ev & r' & [F T] & H').
  assert (Q : exists w', forall f, (F <= f)%nat -> w_update f i g w = Ok (acts, w')).
  { destruct ev as [st|].
    - destruct (y_trigger_inv _ _ _ i st (proj1 Y)) as (s' & TE & _).
      exists (set_rd w i r' <| w_sys := s' |>). intros f L. unfold w_update. rewrite T by exact L. cbn [bind].
      change (w_sys (set_rd w i r')) with (w_sys w). rewrite TE. reflexivity.
    - exists (set_rd w i r'). intros f L. unfold w_update. rewrite T by exact L. reflexivity. }
  destruct Q as (w' & E). exists acts, w'. split; [exists F; exact E|].
  destruct (ys_update F i g w a q d v acts w' Y (E F (le_n F))) as (ev2 & r2 & E2 & R2 & Y'). rewrite (T F (le_n F)) in E2. apply Ok_inj in E2.
  rewrite !pair_equal_spec in E2. destruct E2 as [_ <-]. split; [eexists a, _, v; exact Y'|].
  intros j. rewrite R2. destruct (Nat.eqb_spec j i); [subst j; exact H'|apply A].
Qed.

Lemma fl_updates : forall d l w, flotilla d w -> exists acts w', total (fun f => w_updates f l w) (acts, w') /\ flotilla d w'.
Proof.
  intros d. induction l as [|[i g] l IH]; intros w H; [exists [], w; split; [apply total_ok|exact H]|].
  destruct (fl_update d i g w H) as (a1 & w1 & T1 & H1). destruct (IH w1 H1) as (a2 & w2 & T2 & H2).
  exists ((i, a1) :: a2), w2. split; [|exact H2]. cbn [w_updates]. eapply total_bind; [exact T1|]. cbv beta. eapply total_bind; [exact T2|]. apply total_ok.
Qed.

Definition goes (o : wop) (w : world) : Prop := exists x w', total (fun f => wop_run f o w) (x, w') /\ flotilla 0 w'.

Lemma fl_yield : forall w, flotilla 0 w -> goes WYield w.
Proof.
  intros w ((a & q & v & Y) & A).
  assert (Q : exists w', total (fun f => w_yield f w) w' /\ forall i, kinv i (w_rd w' i)).
  { unfold w_yield. destruct (Z.testbit (s_flags (w_sys w)) 2); [|exists w; split; [apply total_ok|exact A]].
    destruct (y_pop_inv _ _ _ (proj1 Y)) as [P _]. destruct (y_pop (w_sys w)) as [e s]. cbn [fst snd] in P. subst e.
    destruct q as [|[i st] q']; cbn [hd_error]; [exists w; split; [apply total_ok|exact A]|].
    destruct (k_response i st _ (A i)) as (r' & T & H').
    eexists. split.
    - unfold event_response. eapply total_bind; [exact T|]. apply total_ok.
    - intros j. rewrite rd_sys, rd_set. destruct (Nat.eqb_spec j i); [subst j; exact H'|apply A]. }
  destruct Q as (w' & [F T] & H'). exists WoNone, w'. split.
  - exists F. intros f L. cbn [wop_run]. rewrite T by exact L. reflexivity.
  - split; [|exact H']. destruct (ys_yield F w a q v w' Y (T F ltac:(lia))) as [[_ ->]|[[_ ->]|(i & st & q' & -> & Y' & _)]]; eauto.
Qed.

Lemma fl_stop : forall i mid w, flotilla 0 w -> goes (WStop i mid) w.
Proof.
  intros i mid w ((a & q & v & Y) & A).
  assert (F1 : flotilla 1 (on_sys (on_sys w disableResponse) (clearEvent i))).
  { split; [|exact A]. exists a, (q_remove q i), v. apply ys_clear. change 1 with (0 + 1). apply ys_disable; [exact Y|lia]. }
  destruct (fl_updates 1 mid _ F1) as (acts & w2 & T & ((a2 & q2 & v2 & Y2) & A2)).
  exists (WoActs acts). eexists. split.
  - cbn [wop_run]. unfold w_stop. eapply total_bind; [eapply total_bind; [exact T|]|]; apply total_ok.
  - split.
    + exists a2, q2, v2. apply (ys_enable _ _ _ 0); [|lia]. eapply ys_rd; [exact Y2|reflexivity].
    + intros j. rewrite rd_sys, rd_set. destruct (Nat.eqb_spec j i); [subst j; now apply k_stop|apply A2].
Qed.

Lemma fl_call : forall i c w, mild_any kinds slow (WCall i c) -> flotilla 0 w -> goes (WCall i c) w.
Proof.
  intros i c w M F. destruct (k_call i c (w_rd w i) M (proj2 F i)) as (r' & T & H'). exists WoNone, (set_rd w i r'). split.
  - cbn [wop_run]. eapply total_bind; [exact T|]. apply total_ok.
  - now apply fl_rd.
Qed.

Lemma fl_play : forall i fo b n st g w, mild_any kinds slow (WPlayFile i fo b n st g) -> flotilla 0 w -> goes (WPlayFile i fo b n st g) w.
Proof.
  intros i fo isW n st g w (K & BS & NR & FO) ((a & q & v & Y) & A).
  pose proof (k_stop i _ (A i)) as HS. rewrite kinv_file in HS by exact K.
  destruct (m_play (kinds i) (r_stop (w_rd w i)) fo isW n st g K HS BS NR FO) as (b & r' & E & H').
  pose proof (ys_disable _ _ _ _ _ Y ltac:(lia)) as Y1. pose proof (ys_stop _ _ _ _ _ i Y1 ltac:(lia)) as Y2.
  destruct (proj2 Y2) as (FC & _).
  assert (PF : exists w', p_play_file i fo isW n st g w = Ok (b, w')).
  { unfold p_play_file. cbv zeta. rewrite FC. cbn [bind].
    match goal with |- context [r_play_file (w_rd ?x i)] => assert (R0 : w_rd x i = r_stop (w_rd w i)) end.
    { rewrite rd_sys. change (w_rd (p_stop i (on_sys w disableResponse)) i = r_stop (w_rd w i)). rewrite p_stop_rd, Nat.eqb_refl. reflexivity. }
    rewrite R0, E. cbn [bind]. eauto. }
  destruct PF as (w' & PF). exists (WoPlay i b), w'. split; [exists O; intros f _; cbn [wop_run]; rewrite PF; reflexivity|].
  apply p_play_file_inv in PF. destruct PF as (r2 & E2 & R & s2 & AT & SS). rewrite E in E2. apply Ok_inj, pair_equal_spec in E2. destruct E2 as [_ <-].
  cbv zeta in AT. rewrite FC in AT. apply Ok_inj in AT. subst s2.
  pose proof (ys_attach _ _ _ _ _ i Y2 ltac:(lia)) as Y3. pose proof (ys_enable _ _ _ 0 _ Y3 ltac:(lia)) as Y4.
  split; [exists (att_set a i true), (q_remove (q_remove q i) i), (Z.lor v EVR); eapply ys_rd; [exact Y4|exact SS]|].
  intros j. rewrite R. destruct (Nat.eqb_spec j i); [subst j; rewrite kinv_file by exact K; exact H'|apply A].
Qed.

Lemma fl_array : forall i play w, kinds i = KArray -> flotilla 0 w -> (forall r, ainv (slow i) r -> exists b r', play r = Ok (b, r') /\ ainv (slow i) r') ->
  exists b w', p_play_array i play w = Ok (b, w') /\ flotilla 0 w'.
Proof.
  intros i play w K ((a & q & v & Y) & A) P. pose proof (k_stop i _ (A i)) as HS. rewrite kinv_arr in HS by exact K.
  destruct (P _ HS) as (b & r' & E & H'). exists b, (set_rd (p_stop i w) i r'). split.
  - unfold p_play_array. cbv zeta. rewrite p_stop_rd, Nat.eqb_refl, E. reflexivity.
  - split; [exists a, (q_remove q i), v; eapply ys_rd; [apply (ys_stop w a q 0 v i Y); lia|reflexivity]|].
    intros j. rewrite rd_set. destruct (Nat.eqb_spec j i) as [->|N]; [rewrite kinv_arr by exact K; exact H'|].
    rewrite p_stop_rd. destruct (Nat.eqb_spec j i); [contradiction|apply A].
Qed.
Lemma goes_play : forall i play o w, kinds i = KArray -> flotilla 0 w ->
  (forall f, wop_run f o w = ('(b, w') <- p_play_array i play w ;; Ok (WoPlay i b, w'))) ->
  (forall r, ainv (slow i) r -> exists b r', play r = Ok (b, r') /\ ainv (slow i) r') -> goes o w.
Proof.
  intros i play o w K F E P. destruct (fl_array i play w K F P) as (b & w' & Q & F'). exists (WoPlay i b), w'. split; [|exact F'].
  exists O. intros f _. rewrite E, Q. reflexivity.
Qed.

Lemma fl_op : forall o w, mild_any kinds slow o -> flotilla 0 w -> goes o w.
Proof.
  intros o w M F. destruct o; try contradiction.
  - now apply fl_play.
  - destruct M as (K & n & -> & N8 & HA). eapply goes_play; [exact K|exact F|reflexivity|]. intros r I.
    destruct (arr_raw _ _ _ _ _ _ HA N8 I) as (r' & E & I'). exists true, r'. cbv beta. rewrite E. auto.
  - destruct M as (K & B). eapply goes_play; [exact K|exact F|reflexivity|]. intros r I.
    assert (HA : array_holds m off 0 1) by (repeat split; cbn; lia).
    destruct (arr_raw _ _ _ _ _ _ HA ltac:(lia) I) as (r' & E & I'). exists true, r'. cbv beta. rewrite wav_len_raw. change 1 with (Z.of_nat 1). rewrite E. auto.
  - destruct M as (K & MW). eapply goes_play; [exact K|exact F|reflexivity|]. intros r I. apply arr_wav; auto.
  - now apply fl_stop.
  - now apply fl_call.
  - destruct (fl_update 0 i alloc w F) as (acts & w' & T & F'). exists (WoActs [(i, acts)]), w'. split; [|exact F'].
    cbn [wop_run]. eapply total_bind; [exact T|]. apply total_ok.
  - now apply fl_yield.
Qed.

Lemma fl_ops : forall l w, Forall (mild_any kinds slow) l -> flotilla 0 w -> exists xs w', total (fun f => wops f l w) (xs, w') /\ flotilla 0 w'.
Proof.
  induction l as [|o l IH]; intros w A H; [exists [], w; split; [apply total_ok|exact H]|].
  inversion A as [|? ? M AA]; subst. destruct (fl_op o w M H) as (x & w1 & T1 & H1). destruct (IH w1 AA H1) as (xs & w2 & T2 & H2).
  exists (x :: xs), w2. split; [|exact H2]. cbn [wops]. eapply total_bind; [exact T1|]. cbv beta. eapply total_bind; [exact T2|]. apply total_ok.
Qed.

Theorem all_kinds_defined : forall flags l, 0 <= flags < 256 -> Forall (mild_any kinds slow) l ->
  exists F xs w, forall fuel, (F <= fuel)%nat -> wops fuel l (world0 kinds flags) = Ok (xs, w).
Proof.
  intros flags l FL A. destruct (fl_ops l (world0 kinds flags) A) as (xs & w & [F T] & _); [|exists F, xs, w; exact T].
  split; [|intros i; apply k_new]. exists (fun _ => false), [], flags. split; [apply yinv0|repeat split; auto; try apply FL; cbn; intros; lia].
Qed.
End Fleet.
