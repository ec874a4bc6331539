(* C106, C107: playback at changing rates, from the file to the outputs. *)

From Coq Require Import ZArith Lia List Bool Reals Lra.
From RecordUpdate Require Import RecordUpdate.
From Flocq Require Import Core.Core IEEE754.BinarySingleNaN.
From Verif Require Import Machine Floats FloatFacts WavModel InterpModel CacheModel ReaderModel ReaderFacts ResponderModel ResponderSpec
  ResponderProofs QueueProofs PlayerModel CacheFacts CacheSpec CacheProofs CacheFinal ReaderSpec FileSpec LifeSpec UpdateProofs LifeProofs
  WorldProofs ScheduleProofs FileProofs WavSpec WavPlayProofs FilePlay FileForward StageSpec StageProofs TapeSpec TapeProofs BackSpec BackProofs BackOpen
  CallTweak CallAtomic ReelSpec.
From Verif Require DriftProofs.
Import ListNotations.
Local Open Scope Z_scope.

(* ---- rates and reloads ---- *)

(* a reload does not depend on the remembered direction or the size of the rate *)
Lemma step_prev : forall f x y v, i_loop f = LNone -> fle f0 x = fle f0 y ->
  reload_step (f <| i_prev := v |>) y = rmap (option_map (fun p => (fst p, snd p <| i_prev := v |>))) (reload_step f x).
Proof.
  intros f x y v L D. unfold reload_step. change (i_bufs (f <| i_prev := v |>)) with (i_bufs f). destruct (i_bufs f) as [|b0 rest] eqn:B; [reflexivity|].
  destruct (negb _); [reflexivity|]. unfold reload_decide. change (i_bufs (f <| i_prev := v |>)) with (i_bufs f). change (i_loop (f <| i_prev := v |>)) with (i_loop f).
  rewrite L, D. destruct (fle f0 y); cbn [bind].
  - cbv zeta. change (i_cfg (f <| i_prev := v |>)) with (i_cfg f). unfold loadBuffer. reflexivity.
  - cbv zeta. change (i_cfg (f <| i_prev := v |>)) with (i_cfg f). destruct (negb _); unfold loadBuffer; reflexivity.
Qed.
Lemma step_loop : forall f x b f', i_loop f = LNone -> reload_step f x = Ok (Some (b, f')) -> i_loop f' = LNone.
Proof.
  intros f x b f' L E. unfold reload_step in E. destruct (i_bufs f) as [|b0 rest]; [discriminate|]. destruct (negb _); [discriminate|].
  apply bind_ok in E. destruct E as ([[nx ld] act] & _ & E). cbv zeta in E. destruct ld.
  - destruct (loadBuffer _ _ _) as [[b' p] n]. destruct act; apply Ok_inj in E; injection E as _ <-; exact L.
  - destruct act; apply Ok_inj in E; injection E as _ <-; exact L.
Qed.
Lemma loop_prev : forall fuel f x y v, i_loop f = LNone -> fle f0 x = fle f0 y ->
  reload_loop fuel (f <| i_prev := v |>) y = rmap (fun g => g <| i_prev := v |>) (reload_loop fuel f x).
Proof.
  induction fuel as [|fuel IH]; intros f x y v L D; cbn [reload_loop]; [reflexivity|]. rewrite (step_prev f x) by assumption.
  destruct (reload_step f x) as [[[b f']|]|u|] eqn:E; cbn [rmap bind option_map fst snd]; try reflexivity.
  destruct b; [|reflexivity]. apply IH; [eapply step_loop; eauto|exact D].
Qed.
Lemma loop_loop : forall fuel f x f', i_loop f = LNone -> reload_loop fuel f x = Ok f' -> i_loop f' = LNone.
Proof.
  induction fuel as [|fuel IH]; intros f x f' L E; cbn [reload_loop] in E; [discriminate|].
  apply bind_ok in E. destruct E as ([[b f1]|] & E1 & E); [|apply Ok_inj in E; now subst].
  pose proof (step_loop _ _ _ _ L E1). destruct b; [eauto|apply Ok_inj in E; now subst].
Qed.
Lemma loop_more : forall fuel fuel' f x f', reload_loop fuel f x = Ok f' -> (fuel <= fuel')%nat -> reload_loop fuel' f x = Ok f'.
Proof.
  induction fuel as [|fuel IH]; intros fuel' f x f' E L; [discriminate|]. destruct fuel' as [|fuel']; [lia|]. cbn [reload_loop] in *.
  apply bind_ok in E. destruct E as (o & E1 & E). rewrite E1. cbn [bind]. destruct o as [[[] f1]|]; auto. apply IH; [auto|lia].
Qed.
Lemma rate_none : forall f x, i_loop f = LNone -> reload_rate f x = x.
Proof. intros f x L. unfold reload_rate. now rewrite L. Qed.
Lemma prev_prev : forall (f : ifile) u v, f <| i_prev := u |> <| i_prev := v |> = f <| i_prev := v |>.
Proof. reflexivity. Qed.
Lemma prev_same : forall f : ifile, f = f <| i_prev := i_prev f |>.
Proof. now intros []. Qed.
Lemma reload_prev : forall F1 F2 f x y v f1 f2, i_loop f = LNone -> fle f0 x = fle f0 y ->
  triggerReload F1 f x = Ok f1 -> triggerReload F2 (f <| i_prev := v |>) y = Ok f2 -> i_loop f1 = LNone /\ exists u, f2 = f1 <| i_prev := u |>.
Proof.
  intros F1 F2 f x y v f1 f2 L D E1 E2. unfold triggerReload in *. rewrite rate_none in E1, E2 by exact L.
  apply bind_ok in E1. destruct E1 as (g1 & E1 & H1). apply bind_ok in E2. destruct E2 as (g2 & E2 & H2). cbv zeta in *.
  apply (loop_more _ (F1 + F2)) in E1; [|lia]. apply (loop_more _ (F1 + F2)) in E2; [|lia].
  pose proof (loop_loop _ _ _ _ L E1) as L1. rewrite (loop_prev _ _ x), E1 in E2 by assumption. apply Ok_inj in E2. subst g2. apply Ok_inj in H1, H2. split.
  - rewrite <- H1. destruct (feq _ _); exact L1.
  - exists (i_prev f2). rewrite (prev_same f2) at 1. rewrite <- H1, <- H2.
    destruct (feq f0 (i_prev (if_resetStatus g1))), (feq f0 (i_prev (if_resetStatus (g1 <| i_prev := v |>)))); reflexivity.
Qed.

(* equal but for the direction remembered by the file object *)
Definition with_prev (v : b32) (r : reader) : reader := tw (fun f => f <| i_prev := v |>) same same same r.
Definition akin (r r' : reader) : Prop := exists f v, r_src r = SFile f /\ i_loop f = LNone /\ r' = with_prev v r.
Lemma prev_get : forall v f i, if_get (f <| i_prev := v |>) i = (fst (if_get f i), snd (if_get f i) <| i_prev := v |>).
Proof.
  intros v f i. unfold if_get. change (i_bufs (f <| i_prev := v |>)) with (i_bufs f). change (i_cfg (f <| i_prev := v |>)) with (i_cfg f).
  destruct (find_with_index _ _) as [[n|] bufs]; reflexivity.
Qed.
Lemma with_prev_src : forall v r f, r_src r = SFile f -> with_prev v r = r <| r_src := SFile (f <| i_prev := v |>) |>.
Proof. intros v r f S. unfold with_prev. rewrite tw_src, S. reflexivity. Qed.

(* reading keeps the loop type of the file object *)
Definition unlooped (r : reader) : Prop := exists f, r_src r = SFile f /\ i_loop f = LNone.
Lemma akin_read : forall F1 F2 r r' n b s b' s', akin r r' -> unlooped s -> r_read F1 r n = Ok (b, s) -> r_read F2 r' n = Ok (b', s') -> b' = b /\ akin s s'.
Proof.
  intros F1 F2 r r' n b s b' s' (f & v & S & L & ->) (g & SG & LG) E1 E2. apply (r_read_fuel F1 (F1 + F2)) in E1; [|lia]. apply (r_read_fuel F2 (F1 + F2)) in E2; [|lia].
  unfold with_prev in E2. rewrite tw_read, E1 in E2 by (apply prev_get || apply harmless_id). cbn [rsnd rmap fst snd] in E2. apply Ok_inj, pair_equal_spec in E2. destruct E2 as [-> <-].
  split; [reflexivity|]. exists g, v. auto.
Qed.

Lemma gets_loop : forall f g, ReaderFacts.gets f g -> i_loop g = i_loop f.
Proof.
  intros f g H. induction H as [|f i g H IH]; [reflexivity|]. rewrite IH. unfold if_get. destruct (find_with_index _ _) as [[n|] bufs]; reflexivity.
Qed.
Lemma statics_unlooped : forall r s, same_statics r s -> unlooped r -> unlooped s.
Proof.
  intros r s [_ G] (f & S & L). rewrite S in G. inversion G as [| |f' g G2 E1 E2]; subst. exists g. split; [congruence|]. now rewrite (gets_loop _ _ G2).
Qed.
Lemma akin_unlooped : forall r r', akin r r' -> unlooped r.
Proof. intros r r' (f & v & S & L & _). exists f. auto. Qed.

(* setPlaybackRate, several times *)
Fixpoint speeds (r : reader) (ys : list b64) : res reader :=
  match ys with [] => Ok r | y :: l => r1 <- setPlaybackRate r y ;; speeds r1 l end.
Lemma rate_src : forall r s x, setPlaybackRate (r <| r_src := s |>) x = rmap (fun q => q <| r_src := s |>) (setPlaybackRate r x).
Proof.
  intros r s x. unfold setPlaybackRate. cbv zeta.
  change (r_dual (r <| r_src := s |> <| r_rate := x |>)) with (r_dual r). change (r_dual (r <| r_rate := x |>)) with (r_dual r).
  change (r_pos1 (r <| r_src := s |> <| r_rate := x |>)) with (r_pos1 r). change (r_pos1 (r <| r_rate := x |>)) with (r_pos1 r).
  change (r_hdr (r <| r_src := s |> <| r_rate := x |>)) with (r_hdr r). change (r_hdr (r <| r_rate := x |>)) with (r_hdr r).
  change (r_pstart (r <| r_src := s |> <| r_rate := x |>)) with (r_pstart r). change (r_pstart (r <| r_rate := x |>)) with (r_pstart r).
  change (r_fsamples (r <| r_src := s |> <| r_rate := x |>)) with (r_fsamples r). change (r_fsamples (r <| r_rate := x |>)) with (r_fsamples r).
  change (r_lf (r <| r_src := s |> <| r_rate := x |>)) with (r_lf r). change (r_lf (r <| r_rate := x |>)) with (r_lf r).
  change (r_cf (r <| r_src := s |> <| r_rate := x |>)) with (r_cf r). change (r_cf (r <| r_rate := x |>)) with (r_cf r).
  destruct (negb (r_dual r)); [|destruct (deq (r_cf r) d0); [|reflexivity]]; (destruct (dlt x d0);
    [destruct (r_pos1 r <=? r_hdr r); [|reflexivity]; destruct (chk32 _); reflexivity|destruct (_ && _); reflexivity]).
Qed.
Lemma rate_keeps : forall r x r', setPlaybackRate r x = Ok r' -> r_src r' = r_src r /\ r_playing r' = r_playing r /\ r_nch r' = r_nch r /\ r_rate r' = x.
Proof.
  intros r x r' E. unfold setPlaybackRate in E. cbv zeta in E.
  destruct (negb _); [|destruct (deq _ _); [|apply Ok_inj in E; subst; auto]]; (destruct (dlt x d0);
    [destruct (_ <=? _); [apply bind_ok in E; destruct E as (n & _ & E)|]; apply Ok_inj in E; subst; auto|destruct (_ && _); apply Ok_inj in E; subst; auto]).
Qed.
Lemma speeds_src : forall ys r s, speeds (r <| r_src := s |>) ys = rmap (fun q => q <| r_src := s |>) (speeds r ys).
Proof.
  induction ys as [|y ys IH]; intros r s; cbn [speeds]; [reflexivity|]. rewrite rate_src, bind_rmap, rmap_bind. apply bind_ext. intros a _. apply IH.
Qed.
Lemma speeds_keeps : forall ys r r', speeds r ys = Ok r' -> r_src r' = r_src r /\ r_playing r' = r_playing r /\ r_nch r' = r_nch r.
Proof.
  induction ys as [|y ys IH]; intros r r' E; cbn [speeds] in E; [apply Ok_inj in E; subst; auto|].
  apply bind_ok in E. destruct E as (r1 & E1 & E). destruct (rate_keeps _ _ _ E1) as (A & B & C & _). destruct (IH _ _ E) as (A2 & B2 & C2). repeat split; congruence.
Qed.
Lemma speeds_dir : forall (P : b64 -> Prop) ys r r', speeds r ys = Ok r' -> P (r_rate r) -> Forall P ys -> P (r_rate r').
Proof.
  intros P. induction ys as [|y ys IH]; intros r r' E R F; cbn [speeds] in E; [apply Ok_inj in E; now subst|].
  apply bind_ok in E. destruct E as (r1 & E1 & E). inversion F; subst. eapply IH; eauto. destruct (rate_keeps _ _ _ E1) as (_ & _ & _ & ->). auto.
Qed.
Lemma speeds_app : forall a b r r', speeds r (a ++ b) = Ok r' -> exists r1, speeds r a = Ok r1 /\ speeds r1 b = Ok r'.
Proof.
  induction a as [|y a IH]; intros b r r' E; [exists r; auto|]. cbn [app speeds] in *. apply bind_ok in E. destruct E as (r1 & E1 & E). rewrite E1. cbn [bind]. auto.
Qed.
Lemma spun_speeds : forall ys F r l x, spun F r (map Speed ys ++ l) = Ok x -> exists r1, speeds r ys = Ok r1 /\ spun F r1 l = Ok x.
Proof.
  induction ys as [|y ys IH]; intros F r l x E; [exists r; auto|]. cbn [map app spun speeds] in *. apply bind_ok in E. destruct E as (r1 & E1 & E). rewrite E1. cbn [bind]. eauto.
Qed.

Lemma akin_speeds : forall ys r r' s s', akin r r' -> speeds r ys = Ok s -> speeds r' ys = Ok s' -> akin s s'.
Proof.
  intros ys r r' s s' (f & v & S & L & ->) E1 E2. rewrite (with_prev_src _ _ _ S), speeds_src, E1 in E2. apply Ok_inj in E2.
  destruct (speeds_keeps _ _ _ E1) as (A & _). exists f, v. split; [congruence|]. split; [exact L|]. rewrite (with_prev_src _ _ f) by congruence. now symmetry.
Qed.
Lemma reload_src : forall fuel r f r', r_src r = SFile f -> r_triggerReload fuel r = Ok r' ->
  exists f', triggerReload fuel f (f_of_d (r_rate r)) = Ok f' /\ r' = r <| r_src := SFile f' |>.
Proof. intros fuel r f r' S E. unfold r_triggerReload in E. rewrite S in E. apply bind_ok in E. destruct E as (f' & E1 & E). apply Ok_inj in E. eauto. Qed.

(* rates set before the reload could as well be set after it *)
Lemma akin_reload : forall F fuel ra raw ys u1 rb u2, akin ra raw -> r_triggerReload F ra = Ok rb -> speeds raw ys = Ok u1 -> r_triggerReload fuel u1 = Ok u2 ->
  fle f0 (f_of_d (r_rate u1)) = fle f0 (f_of_d (r_rate ra)) -> exists s, speeds rb ys = Ok s /\ akin s u2.
Proof.
  intros F fuel ra raw ys u1 rb u2 (f & v & S & L & ->) RB E U D. rewrite (with_prev_src _ _ _ S), speeds_src in E.
  destruct (speeds ra ys) as [a1|u|] eqn:A; try discriminate. apply Ok_inj in E. subst u1.
  destruct (reload_src _ _ _ _ S RB) as (f1 & T1 & ->).
  assert (SU : r_src (a1 <| r_src := SFile (f <| i_prev := v |>) |>) = SFile (f <| i_prev := v |>)) by reflexivity.
  destruct (reload_src fuel _ _ u2 SU U) as (f2 & T2 & ->).
  change (r_rate (a1 <| r_src := SFile (f <| i_prev := v |>) |>)) with (r_rate a1) in *.
  destruct (reload_prev _ _ _ _ _ _ _ _ L (eq_sym D) T1 T2) as (L1 & u & ->).
  exists (a1 <| r_src := SFile f1 |>). rewrite speeds_src, A. split; [reflexivity|]. exists f1, u. split; [reflexivity|]. split; [exact L1|].
  now rewrite (with_prev_src _ _ f1).
Qed.

(* ---- the players' side ---- *)

Lemma tuned_cases : forall N i o, tuned N i o -> quiet N i o /\ rate_of i o = [] \/ exists x, o = WCall i (CRate x).
Proof.
  intros N i o H. destruct o; cbn [tuned rate_of] in *; auto. destruct c; auto. destruct (Nat.eqb_spec i0 i) as [->|]; [eauto|]. left. split; [exact n|reflexivity].
Qed.
Lemma rate_step : forall kinds N i fuel x w a q v o w', ymode kinds (fun j => (j < N)%nat) w a q v -> wop_ok kinds (WCall i (CRate x)) ->
  wop_run fuel (WCall i (CRate x)) w = Ok (o, w') ->
  ymode kinds (fun j => (j < N)%nat) w' a q v /\ setPlaybackRate (w_rd w i) x = Ok (w_rd w' i) /\ heard1 i o = [].
Proof.
  intros kinds N i fuel x w a q v o w' YM K E. pose proof YM as [HA HS HT HP]. pose proof (wop_alive _ _ _ _ _ _ HA K E) as HA'. unfold wop_run in E.
  apply bind_ok in E. destruct E as (r & E & E2). apply Ok_inj in E2. apply pair_equal_spec in E2. destruct E2 as [<- <-].
  cbn [call_run] in E. split; [|split; [now rewrite rd_set, Nat.eqb_refl|reflexivity]].
  constructor; [exact HA'|eapply ys_rd; [exact HS|reflexivity]|exact HT|].
  intros k KJ PJ. rewrite rd_set in PJ. destruct (Nat.eqb_spec k i) as [->|]; [|auto]. apply HP; [exact KJ|]. destruct (rate_keeps _ _ _ E) as (_ & P & _). congruence.
Qed.

Lemma idle_tuned : forall kinds N i fuel l r w xs w', idle kinds N i r w -> Forall (wop_ok kinds) l -> Forall (tuned N i) l ->
  wops fuel l w = Ok (xs, w') -> exists r', speeds r (flat_map (rate_of i) l) = Ok r' /\ idle kinds N i r' w' /\ heard i xs = [].
Proof.
  intros kinds N i fuel. induction l as [|o l IH]; intros r w xs w' H K Q E; cbn [wops] in E.
  - apply Ok_inj in E. apply pair_equal_spec in E. destruct E as [<- <-]. exists r. auto.
  - apply bind_ok in E. destruct E as ([x w1] & E1 & E). apply bind_ok in E. destruct E as ([ys w2] & E2 & E).
    apply Ok_inj in E. apply pair_equal_spec in E. destruct E as [<- <-].
    apply Forall_cons_iff in K, Q. destruct K as [K1 K2], Q as [Q1 Q2]. unfold heard in *. cbn [flat_map].
    destruct (tuned_cases _ _ _ Q1) as [[Q NR]|(y & ->)].
    + destruct (idle_step _ _ _ _ _ _ _ _ _ H K1 Q E1) as [H1 S1]. destruct (IH _ _ _ _ H1 K2 Q2 E2) as (r' & SP & H2 & S2).
      exists r'. rewrite NR, S1, S2. auto.
    + destruct H as (a & q & v & YM & AI & R & NP). destruct (rate_step _ _ _ _ _ _ _ _ _ _ _ YM K1 E1) as (YM1 & RT & S1).
      assert (H1 : idle kinds N i (w_rd w1 i) w1) by (exists a, q, v; auto). destruct (IH _ _ _ _ H1 K2 Q2 E2) as (r' & SP & H2 & S2).
      exists r'. cbn [rate_of]. rewrite Nat.eqb_refl, S1, S2. cbn [app speeds]. rewrite R in RT. rewrite RT. cbn [bind]. auto.
Qed.

Lemma due_tuned : forall kinds N i fuel st l k r w xs w', due kinds N i st k r w -> Forall (wop_ok kinds) l -> Forall (tuned N i) l ->
  wops fuel l w = Ok (xs, w') -> (k <= yields l)%nat ->
  exists y1 y2 r1 r2 r', flat_map (rate_of i) l = y1 ++ y2 /\ speeds r y1 = Ok r1 /\ response fuel st r1 = Ok r2 /\ speeds r2 y2 = Ok r' /\
    idle kinds N i r' w' /\ heard i xs = [].
Proof.
  intros kinds N i fuel st. induction l as [|o l IH]; intros k r w xs w' (a & q & v & YM & AI & R & p & t & -> & L) K Q E Y; cbn [wops] in E.
  - cbn in Y. lia.
  - apply bind_ok in E. destruct E as ([x w1] & E1 & E). apply bind_ok in E. destruct E as ([ys w2] & E2 & E).
    apply Ok_inj in E. apply pair_equal_spec in E. destruct E as [<- <-].
    apply Forall_cons_iff in K, Q. destruct K as [K1 K2], Q as [Q1 Q2].
    unfold yields in Y. cbn [filter] in Y. fold (yields l) in Y. unfold heard. cbn [flat_map]. fold (heard i ys).
    destruct (tuned_cases _ _ _ Q1) as [[Q NR]|(y & ->)].
    2: { destruct (rate_step _ _ _ _ _ _ _ _ _ _ _ YM K1 E1) as (YM1 & RT & S1). cbn [is_yield] in Y.
      destruct (IH k (w_rd w1 i) w1 ys w2) as (y1 & y2 & r1 & r2 & r' & A & B & C & D & E & F); auto.
      - exists a, (p ++ (i, st) :: t), v. split; [exact YM1|]. split; [exact AI|]. split; [reflexivity|]. exists p, t. auto.
      - exists (y :: y1), y2, r1, r2, r'. cbn [rate_of]. rewrite Nat.eqb_refl, A, S1, F. rewrite R in RT. cbn [app speeds]. rewrite RT. cbn [bind]. repeat split; auto. }
    destruct (quiet_step _ _ _ _ _ _ _ _ _ _ _ YM K1 Q AI E1) as (a' & q' & v' & YM' & AI' & H & C). rewrite NR, H. cbn [app].
    destruct C as [[R' [[C NY]|[(e & EQ & NE) IY]]]|(IY & st' & EQ & RS)].
    + assert (IY : is_yield o = false) by (destruct (is_yield o); [specialize (NY eq_refl); destruct p; discriminate|reflexivity]).
      rewrite IY in Y. apply (IH k r w1 ys w2); auto.
      exists a', q', v'. split; [exact YM'|]. split; [exact AI'|]. split; [congruence|].
      eapply waits_other; [exact C|]. exists p, t. auto.
    + rewrite IY in Y. cbn [length] in Y. fold (yields l) in Y.
      destruct p as [|e' p]; [injection EQ as <- _; cbn in NE; congruence|]. injection EQ as _ <-. cbn [length] in L.
      apply (IH (Nat.pred k) r w1 ys w2); auto; [|lia].
      exists a', (p ++ (i, st) :: t), v'. split; [exact YM'|]. split; [exact AI'|]. split; [congruence|]. exists p, t. split; [reflexivity|lia].
    + pose proof (served _ _ _ _ _ _ (proj1 (ym_state _ _ _ _ _ _ YM)) EQ) as NP.
      assert (ST : st' = st).
      { destruct p as [|e' p]; [now injection EQ as <- _|]. injection EQ as _ EQ. rewrite <- EQ in NP.
        apply pending_out in NP. exfalso. apply NP. rewrite map_app. apply in_or_app. right. now left. }
      subst st'. rewrite R in RS.
      assert (ID : idle kinds N i (w_rd w1 i) w1) by (exists a', q', v'; auto).
      destruct (idle_tuned _ _ _ _ _ _ _ _ _ ID K2 Q2 E2) as (r' & SP & ID2 & H2).
      exists [], (flat_map (rate_of i) l), r, (w_rd w1 i), r'. cbn [app speeds]. repeat split; auto.
Qed.

(* Once stopped *)
Lemma stopped_reel : forall kinds N i fuel l r w xs w', (i < N)%nat -> idle kinds N i r w -> r_playing r = false ->
  Forall (reel_ok kinds N i) l -> wops fuel (rounds_ops i l) w = Ok (xs, w') ->
  heard i xs = map (fun _ => []) l /\ exists r', idle kinds N i r' w' /\ r_playing r' = false /\ r_nch r' = r_nch r.
Proof.
  intros kinds N i fuel. induction l as [|[alloc ops] l IH]; intros r w xs w' IN ID P RO E.
  - cbn in E. apply Ok_inj in E. apply pair_equal_spec in E. destruct E as [<- <-]. split; [reflexivity|]. exists r. auto.
  - apply Forall_cons_iff in RO. destruct RO as [(K & Q & _) RO]. cbn [snd] in *.
    unfold rounds_ops in E. cbn [flat_map fst snd] in E. cbn [app wops] in E.
    apply bind_ok in E. destruct E as ([x w1] & E1 & E). apply bind_ok in E. destruct E as ([ys w2] & E2 & E).
    apply Ok_inj in E. apply pair_equal_spec in E. destruct E as [<- <-].
    apply wops_app in E2. destruct E2 as (y1 & w3 & y2 & E2 & E3 & ->).
    cbn [wop_run] in E1. apply bind_ok in E1. destruct E1 as ([acts w1'] & U & E1). apply Ok_inj in E1. apply pair_equal_spec in E1.
    destruct E1 as [<- ->]. destruct (idle_update _ _ _ _ _ _ _ _ _ IN ID U) as (ev & r' & PU & D).
    apply stopped_update in PU; [|exact P]. destruct PU as (-> & -> & ->).
    destruct (idle_tuned _ _ _ _ _ _ _ _ _ D K Q E2) as (r3 & SP & ID3 & H3). destruct (speeds_keeps _ _ _ SP) as (_ & P3 & N3).
    destruct (IH _ _ _ _ IN ID3 ltac:(congruence) RO E3) as (H4 & r4 & ID4 & P4 & N4). split; [|exists r4; repeat split; congruence || auto].
    unfold heard in *. cbn [flat_map heard1 fst snd map sent]. rewrite flat_map_app, H3, H4, Nat.eqb_refl. reflexivity.
Qed.

(* without loop and crossfade, reading keeps the rate *)
Definition onward (r : reader) : Prop := r_loop r = LNone /\ r_dual r = false.
Lemma frame_rate : forall fuel r o r', onward r -> read_frame fuel r = Ok (o, r') -> r_rate r' = r_rate r.
Proof.
  intros fuel r o r' (L & D) E. unfold read_frame in E. rewrite D in E. cbn [bind] in E. apply bind_ok in E. destruct E as ([x r2] & E1 & E).
  destruct (DriftProofs.channels_head _ _ _ _ _ _ L E1) as (_ & _ & _ & _ & RT & _). destruct x; [|apply Ok_inj, pair_equal_spec in E; destruct E as [_ <-]; exact RT].
  apply bind_ok in E. destruct E as (r3 & A & E). apply Ok_inj, pair_equal_spec in E. destruct E as [_ <-]. rewrite <- RT. clear E1 RT.
  unfold advance in A. cbv zeta in A. repeat first [apply bind_ok in A; destruct A as (? & _ & A) | match type of A with (if ?c then _ else _) = _ => destruct c end | apply Ok_inj in A; subst r3; reflexivity | discriminate].
Qed.
Lemma statics_onward : forall r s, same_statics r s -> onward r -> onward s.
Proof. intros r s H [L D]. split; [now rewrite <- (statics_loop _ _ H)|now rewrite <- (statics_dual _ _ H)]. Qed.
Lemma loop_rate : forall f g r n l r', onward r -> read_loop f g r n = Ok (l, r') -> r_rate r' = r_rate r.
Proof.
  intros f. induction g as [|g IH]; intros r n l r' W H; cbn [read_loop] in H; destruct (n <=? 0).
  1, 3: apply Ok_inj, pair_equal_spec in H; destruct H as [_ <-]; reflexivity.
  - discriminate.
  - apply bind_ok in H. destruct H as ([o r1] & E & H). pose proof (frame_rate _ _ _ _ W E) as R1. pose proof (statics_onward _ _ (read_frame_statics _ _ _ _ E) W) as W1.
    destruct o; [|apply Ok_inj, pair_equal_spec in H; destruct H as [_ <-]; exact R1].
    destruct (_ =? 0); [rewrite <- R1; eauto|]. apply bind_ok in H. destruct H as ([l2 r2] & E2 & H). apply Ok_inj, pair_equal_spec in H. destruct H as [_ <-]. rewrite <- R1. eauto.
Qed.
Lemma read_rate : forall fuel r n l r', onward r -> r_read fuel r n = Ok (l, r') -> r_rate r' = r_rate r.
Proof.
  intros fuel r n l r' W H. unfold r_read in H. destruct (negb _); [apply Ok_inj, pair_equal_spec in H; destruct H as [_ <-]; reflexivity|].
  destruct (_ <? 0); [discriminate|]. eapply loop_rate; eauto.
Qed.
Lemma speeds_onward : forall ys r r', speeds r ys = Ok r' -> onward r -> onward r'.
Proof.
  induction ys as [|y ys IH]; intros r r' E W; cbn [speeds] in E; [apply Ok_inj in E; now subst|]. apply bind_ok in E. destruct E as (r1 & E1 & E).
  apply (IH _ _ E). destruct (DriftProofs.rate_moves _ _ _ E1) as (A & B & _). unfold onward. now rewrite A, B.
Qed.
Lemma reload_onward : forall fuel r r', r_triggerReload fuel r = Ok r' -> onward r -> onward r' /\ r_rate r' = r_rate r.
Proof.
  intros fuel r r' E W. unfold r_triggerReload in E. destruct (r_src r); try (apply Ok_inj in E; subst; auto; fail); try discriminate.
  apply bind_ok in E. destruct E as (g & _ & E). apply Ok_inj in E. subst. auto.
Qed.

Definition heads (d : bool) (o : tape_op) : Prop := match o with Speed x => fle f0 (f_of_d x) = d | Block _ => True end.
Lemma heads_speeds : forall d ys, Forall (heads d) (map Speed ys) -> Forall (fun x => fle f0 (f_of_d x) = d) ys.
Proof. intros d ys H. rewrite Forall_map in H. exact H. Qed.

Lemma akin_same : forall r r', akin r r' -> r_playing r' = r_playing r /\ r_nch r' = r_nch r /\ r_rate r' = r_rate r.
Proof. intros r r' (f & v & S & L & ->). repeat split. Qed.
Lemma akin_reads : forall F r r' n x, akin r r' -> r_read F r n = Ok x -> exists y, r_read F r' n = Ok y.
Proof.
  intros F r r' n x (f & v & S & L & ->) E. unfold with_prev. rewrite tw_read, E by (apply prev_get || apply harmless_id). cbn [rsnd rmap]. eauto.
Qed.

Theorem reel_play : forall kinds N i fuel nch d l F r rw w xs w' bs r1, (i < N)%nat -> idle kinds N i rw w -> akin r rw -> r_playing r = true ->
  r_nch r = Z.of_nat nch -> (1 <= nch)%nat -> onward r -> fle f0 (f_of_d (r_rate r)) = d -> Forall (heads d) (reel i nch l) ->
  spun F r (reel i nch l) = Ok (bs, r1) -> (exists f x, r_read f r1 128 = Ok x) -> Forall (reel_ok kinds N i) l ->
  wops fuel (rounds_ops i l) w = Ok (xs, w') ->
  heard i xs = shown nch (map (gets nch) l) bs /\
  exists r', sound kinds N i r' w' /\ r_playing r' = still_on (map (gets nch) l) bs.
Proof.
  intros kinds N i fuel nch d. induction l as [|[alloc ops] l IH]; intros F r rw w xs w' bs r1 IN ID AK P NC N1 OW DR HD SP NX RO E.
  - cbn in E, SP. apply Ok_inj, pair_equal_spec in E, SP. destruct E as [<- <-], SP as [<- <-]. split; [reflexivity|].
    destruct (akin_same _ _ AK) as (P' & NC' & _). exists rw. split; [|cbn; congruence]. split; [exact ID|]. right. split; [congruence|]. split; [lia|].
    destruct NX as (f & x & NX). destruct (akin_reads _ _ _ _ _ AK NX) as (y & Y). eauto.
  - apply Forall_cons_iff in RO. destruct RO as [(K & Q & Y) RO]. cbn [snd] in *.
    unfold rounds_ops in E. cbn [flat_map fst snd] in E. cbn [app wops] in E.
    apply bind_ok in E. destruct E as ([x w1] & E1 & E). apply bind_ok in E. destruct E as ([ys w2] & E2 & E).
    apply Ok_inj in E. apply pair_equal_spec in E. destruct E as [<- <-].
    apply wops_app in E2. destruct E2 as (y1 & w3 & y2 & E2 & E3 & ->).
    cbn [wop_run] in E1. apply bind_ok in E1. destruct E1 as ([acts w1'] & U & E1). apply Ok_inj in E1. apply pair_equal_spec in E1.
    destruct E1 as [<- ->]. destruct (idle_update _ _ _ _ _ _ _ _ _ IN ID U) as (ev & r' & PU & D).
    destruct (akin_same _ _ AK) as (PW & NCW & RW).
    pose proof (player_update _ _ _ _ _ _ nch PU ltac:(congruence) ltac:(congruence) N1) as PL.
    unfold reel in SP, HD. cbn [flat_map] in SP, HD. fold (reel i nch l) in SP, HD. unfold reel1 in SP, HD. cbn [snd] in SP, HD. rewrite (gets_round nch (alloc, ops)) in SP, HD. cbn [fst] in SP, HD.
    set (rs := flat_map (rate_of i) ops) in *.
    cbn [map shown still_on]. rewrite (gets_round nch (alloc, ops)). cbn [fst].
    unfold heard. cbn [flat_map heard1 fst snd]. rewrite flat_map_app, Nat.eqb_refl. fold (heard i y1). fold (heard i y2).
    apply Forall_app in HD. destruct HD as [HD1 HD2]. apply Forall_app in HD1. destruct HD1 as [_ HD1]. apply heads_speeds in HD1. rewrite <- app_assoc in SP.
    destruct (gets nch (alloc, [])).
    + cbn [app] in SP. cbn [spun] in SP. apply bind_ok in SP. destruct SP as ([b ra] & RD1 & SP). apply bind_ok in SP. destruct SP as (rb & RL & SP).
      apply bind_ok in SP. destruct SP as ([bs' r1'] & SP & EQ). apply Ok_inj, pair_equal_spec in EQ. destruct EQ as [<- <-].
      apply spun_speeds in SP. destruct SP as (s' & SS & SP).
      destruct PL as (frames & RD & LE & SD & ->). pose proof (r_read_statics _ _ _ _ _ RD1) as ST1.
      destruct (akin_read _ _ _ _ _ _ _ _ _ AK (statics_unlooped _ _ ST1 (akin_unlooped _ _ AK)) RD1 RD) as [-> AK1].
      destruct (due_tuned _ _ _ _ _ _ _ _ _ _ _ D K Q E2 Y) as (z1 & z2 & u1 & u2 & u3 & ZE & S1 & RS & S2 & ID3 & H3). fold rs in ZE. rewrite H3, SD. cbn [app].
      destruct (akin_same _ _ AK1) as (PA & NCA & RA). pose proof (read_rate _ _ _ _ _ OW RD1) as RR.
      destruct (Nat.eqb_spec (length b) 128) as [L|L].
      * unfold response in RS. cbn [Z.eqb evReload] in RS. rewrite ZE in SS, HD1. apply Forall_app in HD1. destruct HD1 as [HZ1 HZ2].
        assert (DU : fle f0 (f_of_d (r_rate u1)) = d) by (apply (speeds_dir (fun x => fle f0 (f_of_d x) = d) _ _ _ S1); [congruence|exact HZ1]).
        destruct (akin_reload _ _ _ _ _ _ _ _ AK1 RL S1 RS ltac:(congruence)) as (s1 & S1' & AK2).
        destruct (speeds_app _ _ _ _ SS) as (s1' & A1 & A2). rewrite S1' in A1. apply Ok_inj in A1. subst s1'.
        pose proof (akin_speeds _ _ _ _ _ AK2 A2 S2) as AK3.
        destruct (reload_onward _ _ _ RL (statics_onward _ _ ST1 OW)) as [OB RB]. pose proof (speeds_onward _ _ _ SS OB) as OS.
        destruct (reload_nch _ _ _ RL) as [NB PB]. destruct (speeds_keeps _ _ _ SS) as (_ & PS & NS).
        pose proof (statics_playing _ _ ST1) as PST. pose proof (statics_nch _ _ ST1) as NST.
        assert (DS : fle f0 (f_of_d (r_rate s')) = d) by (apply (speeds_dir (fun x => fle f0 (f_of_d x) = d) _ _ _ SS); [congruence|now apply Forall_app]).
        destruct (IH _ _ _ _ _ _ _ _ IN ID3 AK3 ltac:(congruence) ltac:(congruence) N1 OS DS HD2 SP NX RO E3) as [H4 P4]. rewrite H4. auto.
      * unfold response in RS. cbn [Z.eqb evClose evReload] in RS. apply Ok_inj in RS. subst u2. destruct (speeds_keeps _ _ _ S2) as (_ & PS & NS).
        pose proof (close_stops u1) as CS. pose proof (close_nch u1) as CN. destruct (speeds_keeps _ _ _ S1) as (_ & _ & N2). pose proof (statics_nch _ _ ST1) as NST.
        destruct (stopped_reel _ _ _ _ _ _ _ _ _ IN ID3 ltac:(congruence) RO E3) as (H4 & r4 & ID4 & P4 & N4). rewrite H4. split; [now rewrite map_map|].
        exists r4. split; [|exact P4]. split; [exact ID4|]. left. split; [exact P4|]. right. rewrite N4, NS, CN, N2, NCA, <- NST. lia.
    + cbn [app] in SP. destruct PL as (SD & -> & ->). rewrite SD. cbn [map app].
      destruct (idle_tuned _ _ _ _ _ _ _ _ _ D K Q E2) as (u3 & S1 & ID3 & H3). fold rs in S1.
      apply spun_speeds in SP. destruct SP as (s' & SS & SP). pose proof (akin_speeds _ _ _ _ _ AK SS S1) as AK3. destruct (speeds_keeps _ _ _ SS) as (_ & PS & NS).
      assert (DS : fle f0 (f_of_d (r_rate s')) = d) by (apply (speeds_dir (fun x => fle f0 (f_of_d x) = d) _ _ _ SS); [congruence|exact HD1]).
      destruct (IH _ _ _ _ _ _ _ _ IN ID3 AK3 ltac:(congruence) ltac:(congruence) N1 (speeds_onward _ _ _ SS OW) DS HD2 SP NX RO E3) as [H4 P4]. rewrite H3, H4. auto.
Qed.
