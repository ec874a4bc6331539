(* C108: array players are independent of everything else. *)

From Coq Require Import ZArith Lia List Bool.
From RecordUpdate Require Import RecordUpdate.
From Flocq Require Import IEEE754.BinarySingleNaN.
From Verif Require Import Machine Floats WavModel InterpModel CacheModel ReaderModel ReaderFacts ResponderModel ResponderSpec
  ResponderProofs QueueProofs PlayerModel CacheFacts CacheSpec LifeSpec UpdateProofs LifeProofs WorldProofs StageSpec SoloSpec.
Import ListNotations.
Local Open Scope Z_scope.

(* ---- a responder that was never attached ---- *)

(* nothing points to it, and it is not triggered *)
Definition away (i : nat) (p : option nat) : Prop := p <> Some i.
Definition free (i : nat) (v : resp) : Prop := away i (v_next v) /\ away i (v_prev v) /\ away i (v_anext v) /\ away i (v_aprev v).
Record isolated (i : nat) (s : rsys) : Prop := mkIso {
  io_type : v_type (s_resp s i) = TDetached;
  io_polled : v_polled (s_resp s i) = false;
  io_trig : v_trig (s_resp s i) = false;
  io_free : forall j, free i (s_resp s j);
  io_yf : away i (s_yfirst s); io_yl : away i (s_ylast s); io_pf : away i (s_pfirst s); io_pl : away i (s_plast s) }.

Lemma iso_upd : forall i s j g, isolated i s -> j <> i -> free i (g (s_resp s j)) -> isolated i (upd_resp s j g).
Proof.
  intros i s j g [A B C D E F G H] N L. assert (R : forall k, s_resp (upd_resp s j g) k = if Nat.eqb k j then g (s_resp s j) else s_resp s k) by reflexivity.
  assert (I : s_resp (upd_resp s j g) i = s_resp s i) by (rewrite R; destruct (Nat.eqb_spec i j); [congruence|reflexivity]).
  constructor; rewrite ?I; auto. intro k. rewrite R. destruct (Nat.eqb k j); auto.
Qed.
Lemma iso_ext : forall i s s', isolated i s -> s_resp s' = s_resp s -> away i (s_yfirst s') -> away i (s_ylast s') -> away i (s_pfirst s') -> away i (s_plast s') ->
  isolated i s'.
Proof. intros i s s' [A B C D E F G H] R. constructor; rewrite ?R; auto. Qed.
Lemma iso_sys : forall i s s', isolated i s -> s_resp s' = s_resp s -> s_yfirst s' = s_yfirst s -> s_ylast s' = s_ylast s ->
  s_pfirst s' = s_pfirst s -> s_plast s' = s_plast s -> isolated i s'.
Proof. intros i s s' I R A B C D. destruct I as [? ? ? ? ? ? ? ?] eqn:X. apply (iso_ext i s); auto; congruence. Qed.

Lemma away_some : forall i j, j <> i -> away i (Some j). Proof. intros i j N E. congruence. Qed.
Lemma away_none : forall i, away i None. Proof. discriminate. Qed.
Lemma away_inv : forall i j, away i (Some j) -> j <> i. Proof. intros i j A E. now subst. Qed.

Lemma iso_unlink : forall i j s, isolated i s -> j <> i -> isolated i (y_unlink j s).
Proof.
  intros i j s I N. pose proof (io_free _ _ I j) as (FN & FP & FA & FB). unfold y_unlink. cbv zeta.
  assert (I1 : isolated i (match v_prev (s_resp s j) with Some p => upd_resp s p (fun q => q <| v_next := v_next (s_resp s j) |>) | None => s <| s_yfirst := v_next (s_resp s j) |> end)).
  { destruct (v_prev (s_resp s j)) as [p|] eqn:P.
    - apply iso_upd; [exact I|now apply away_inv|]. destruct (io_free _ _ I p) as (F1 & F2 & F3 & F4). split; [exact FN|]. auto.
    - destruct I. eapply iso_ext; [constructor; eauto|reflexivity|exact FN|auto..]. }
  destruct (v_next (s_resp s j)) as [n|] eqn:NX.
  - apply iso_upd; [exact I1|now apply away_inv|]. set (s1 := match v_prev (s_resp s j) with Some _ => _ | None => _ end) in *. destruct (io_free _ _ I1 n) as (F1 & F2 & F3 & F4).
    split; [exact F1|]. split; [exact FP|]. auto.
  - set (s1 := match v_prev (s_resp s j) with Some _ => _ | None => _ end) in *. destruct I1. eapply iso_ext; [constructor; eauto|reflexivity|auto|exact FP|auto..].
Qed.
Lemma iso_plain : forall i j s g, isolated i s -> j <> i -> (forall v, free i v -> free i (g v)) -> isolated i (upd_resp s j g).
Proof. intros i j s g I N H. apply iso_upd; auto. apply H, I. Qed.
Ltac plain := apply iso_plain; [|assumption|intros ? F; exact F].

Lemma iso_clear : forall i j s, isolated i s -> isolated i (clearEvent j s).
Proof.
  intros i j s I. unfold clearEvent. destruct (Nat.eq_dec j i) as [->|N]; [now rewrite (io_trig _ _ I)|]. destruct (v_trig _); [|exact I].
  plain. destruct (v_type _); auto. now apply iso_unlink.
Qed.
Lemma iso_bdetach : forall i j s, isolated i s -> j <> i -> isolated i (base_detach j s).
Proof. intros i j s I N. unfold base_detach. destruct (v_type _); auto. plain. destruct (v_trig _); auto. plain. now apply iso_unlink. Qed.
Lemma iso_attach : forall i j s, isolated i s -> j <> i -> isolated i (attach j s).
Proof. intros i j s I N. unfold attach. cbv zeta. apply (iso_sys i (upd_resp (base_detach j s) j (fun q => q <| v_fun := true |> <| v_type := TYield |>))); try reflexivity.
  plain. now apply iso_bdetach. Qed.
Lemma iso_remove : forall i j s s', isolated i s -> j <> i -> removeFromList j s = Ok s' -> isolated i s'.
Proof.
  intros i j s s' I N E. unfold removeFromList in E. cbv zeta in E.
  set (s1 := if ptr_is (s_pfirst s) j then _ else _) in E.
  assert (I1 : isolated i s1).
  { unfold s1. destruct (ptr_is _ _); [|exact I]. destruct (io_free _ _ I j) as (_ & _ & A & _). destruct I. eapply iso_ext; [constructor; eauto|reflexivity|auto|auto|exact A|auto]. }
  clearbody s1. set (s2 := if ptr_is (s_plast s1) j then _ else _) in E.
  assert (I2 : isolated i s2).
  { unfold s2. destruct (ptr_is _ _); [|exact I1]. destruct (io_free _ _ I1 j) as (_ & _ & _ & A). destruct I1. eapply iso_ext; [constructor; eauto|reflexivity|auto|auto|auto|exact A]. }
  clearbody s2. set (s3 := match v_anext (s_resp s2 j) with Some _ => _ | None => _ end) in E.
  assert (I3 : isolated i s3).
  { unfold s3. destruct (io_free _ _ I2 j) as (_ & _ & A & B). destruct (v_anext (s_resp s2 j)) as [n|]; [|exact I2]. apply iso_upd; [exact I2|now apply away_inv|].
    destruct (io_free _ _ I2 n) as (F1 & F2 & F3 & F4). split; [exact F1|]. split; [exact F2|]. split; [exact F3|exact B]. }
  clearbody s3. destruct (v_prev _); [|apply Ok_inj in E; now subst]. destruct (io_free _ _ I3 j) as (_ & _ & A & B).
  destruct (v_aprev (s_resp s3 j)) as [p|]; [|discriminate]. apply Ok_inj in E. subst. apply iso_upd; [exact I3|now apply away_inv|].
  destruct (io_free _ _ I3 p) as (F1 & F2 & F3 & F4). split; [exact F1|]. split; [exact F2|]. split; [exact A|exact F4].
Qed.
Lemma iso_detach : forall i j s s', isolated i s -> j <> i -> detach j s = Ok s' -> isolated i s'.
Proof.
  intros i j s s' I N E. unfold detach in E. destruct (v_polled _); [|apply Ok_inj in E; subst; now apply iso_bdetach]. cbv zeta in E.
  assert (I1 : isolated i (upd_resp s j (fun q => q <| v_polled := false |> <| v_type := TDetached |>))) by (plain; exact I).
  destruct (v_trig _); [|apply Ok_inj in E; now subst]. eapply iso_remove; eauto.
Qed.
Lemma iso_attachp : forall i j s s', isolated i s -> j <> i -> attachPolled j s = Ok s' -> isolated i s'.
Proof.
  intros i j s s' I N E. unfold attachPolled in E. apply bind_ok in E. destruct E as (s1 & E1 & E). apply Ok_inj in E. subst. plain. eapply iso_detach; eauto.
Qed.
Lemma iso_add : forall i j s s', isolated i s -> j <> i -> addToList j s = Ok s' -> isolated i s'.
Proof.
  intros i j s s' I N E. unfold addToList in E. apply bind_ok in E. destruct E as (s1 & E1 & E). apply Ok_inj in E. subst s'.
  assert (I1 : isolated i s1).
  { destruct (s_pfirst s) as [f|] eqn:PF.
    - pose proof (io_pl _ _ I) as PL. destruct (s_plast s) as [l|]; [|discriminate]. apply Ok_inj in E1. subst s1. apply iso_upd.
      + apply iso_upd; [exact I|exact N|]. destruct (io_free _ _ I j) as (F1 & F2 & F3 & F4). split; [exact F1|]. split; [exact F2|]. split; [exact F3|exact PL].
      + now apply away_inv.
      + match goal with |- context [s_resp ?s' l] => assert (F : free i (s_resp s' l)) end.
        { rewrite upd_get. destruct (Nat.eqb_spec l j); [|apply I]. destruct (io_free _ _ I j) as (F1 & F2 & F3 & F4). split; [exact F1|]. split; [exact F2|]. split; [exact F3|exact PL]. }
        destruct F as (F1 & F2 & F3 & F4). split; [exact F1|]. split; [exact F2|]. split; [now apply away_some|exact F4].
    - apply Ok_inj in E1. subst s1. apply iso_upd; [|exact N|].
      + destruct I. eapply iso_ext; [constructor; eauto|reflexivity|auto|auto|now apply away_some|auto].
      + destruct (io_free _ _ I j) as (F1 & F2 & F3 & F4). split; [exact F1|]. split; [exact F2|]. split; [exact F3|apply away_none]. }
  apply iso_upd; [|exact N|].
  - destruct I1. eapply iso_ext; [constructor; eauto|reflexivity|auto|auto|auto|now apply away_some].
  - destruct (io_free _ _ I1 j) as (F1 & F2 & F3 & F4). split; [exact F1|]. split; [exact F2|]. split; [apply away_none|exact F4].
Qed.
Lemma iso_ylink : forall i j s s', isolated i s -> j <> i -> y_link j s = Ok s' -> isolated i s'.
Proof.
  intros i j s s' I N E. unfold y_link in E. pose proof (io_yl _ _ I) as YL. destruct (s_yfirst s) as [f|] eqn:YF.
  - destruct (s_ylast s) as [l|]; [|discriminate]. cbv zeta in E. apply Ok_inj in E. subst s'.
    set (s1 := upd_resp s j _). assert (I1 : isolated i s1).
    { apply iso_upd; [exact I|exact N|]. destruct (io_free _ _ I j) as (F1 & F2 & F3 & F4). split; [apply away_none|]. split; [exact YL|]. split; [exact F3|exact F4]. }
    clearbody s1. set (s2 := upd_resp s1 l _). assert (I2 : isolated i s2).
    { apply iso_upd; [exact I1|now apply away_inv|]. destruct (io_free _ _ I1 l) as (F1 & F2 & F3 & F4). split; [now apply away_some|]. auto. }
    clearbody s2. destruct I2. eapply iso_ext; [constructor; eauto|reflexivity|auto|now apply away_some|auto|auto].
  - apply Ok_inj in E. subst s'. apply iso_upd; [|exact N|].
    + destruct I. eapply iso_ext; [constructor; eauto|reflexivity|now apply away_some|now apply away_some|auto|auto].
    + destruct (io_free _ _ I j) as (F1 & F2 & F3 & F4). split; [apply away_none|]. split; [apply away_none|]. auto.
Qed.

(* its own requests are dropped *)
Lemma iso_trigger_self : forall i st s, isolated i s -> exists s', triggerEvent i st s = Ok s' /\ isolated i s'.
Proof.
  intros i st s I. unfold triggerEvent. rewrite (io_polled _ _ I). unfold base_trigger. cbv zeta. set (s1 := upd_resp s i _).
  assert (R1 : s_resp s1 i = (s_resp s i) <| v_status := st |>) by (unfold s1; now rewrite upd_same).
  assert (T1 : v_type (s_resp s1 i) = TDetached) by (rewrite R1; exact (io_type _ _ I)).
  assert (G1 : v_trig (s_resp s1 i) = false) by (rewrite R1; exact (io_trig _ _ I)). rewrite T1, G1. cbn [bind].
  set (s2 := upd_resp s1 i _). assert (R2 : s_resp s2 i = (s_resp s1 i) <| v_trig := true |>) by (unfold s2; now rewrite upd_same).
  assert (T2 : v_type (s_resp s2 i) = TDetached) by (rewrite R2; exact T1). rewrite T2. cbn [is_detached]. eexists. split; [reflexivity|].
  set (s3 := upd_resp s2 i _). assert (R3 : s_resp s3 i = (s_resp s2 i) <| v_trig := false |>) by (unfold s3; now rewrite upd_same).
  assert (O : forall j, j <> i -> s_resp s3 j = s_resp s j) by (intros j N; unfold s3, s2, s1; now rewrite !upd_other).
  assert (F : free i (s_resp s3 i)) by (rewrite R3, R2, R1; exact (io_free _ _ I i)).
  constructor; try (rewrite R3); try reflexivity; try exact T2.
  - rewrite R2, R1. exact (io_polled _ _ I).
  - intro j. destruct (Nat.eq_dec j i) as [->|N]; [exact F|]. rewrite O by exact N. apply I.
  - exact (io_yf _ _ I).
  - exact (io_yl _ _ I).
  - exact (io_pf _ _ I).
  - exact (io_pl _ _ I).
Qed.
Lemma iso_trigger : forall i j st s s', isolated i s -> triggerEvent j st s = Ok s' -> isolated i s'.
Proof.
  intros i j st s s' I E. destruct (Nat.eq_dec j i) as [->|N].
  { destruct (iso_trigger_self i st s I) as (s2 & E2 & I2). rewrite E2 in E. apply Ok_inj in E. now subst. }
  unfold triggerEvent in E. apply bind_ok in E. destruct E as (s1 & E1 & E). apply Ok_inj in E. subst s'.
  assert (I1 : isolated i s1); [|destruct (is_detached _); [plain|]; exact I1].
  destruct (v_polled _).
  - cbv zeta in E1. set (s2 := upd_resp s j _) in E1. assert (I2 : isolated i s2) by (unfold s2; plain; exact I). clearbody s2.
    destruct (v_trig _); [apply Ok_inj in E1; now subst|]. apply bind_ok in E1. destruct E1 as (s3 & E3 & E1). apply Ok_inj in E1. subst s1. plain. eapply iso_add; eauto.
  - unfold base_trigger in E1. cbv zeta in E1. set (s2 := upd_resp s j _) in E1. assert (I2 : isolated i s2) by (unfold s2; plain; exact I). clearbody s2.
    destruct (v_type _); [| |apply Ok_inj in E1; now subst]; (destruct (v_trig _); [apply Ok_inj in E1; now subst|]); apply bind_ok in E1; destruct E1 as (s3 & E3 & E1);
      apply Ok_inj in E1; subst s1; plain.
    + apply Ok_inj in E3. now subst.
    + eapply iso_ylink; eauto.
Qed.
Lemma iso_pop : forall i s e s', isolated i s -> y_pop s = (e, s') -> isolated i s' /\ match e with Some (j, _) => j <> i | None => True end.
Proof.
  intros i s e s' I E. unfold y_pop in E. pose proof (io_yf _ _ I) as YF. destruct (s_yfirst s) as [j|]; [|injection E as <- <-; auto].
  cbv zeta in E. apply pair_equal_spec in E. destruct E as [<- <-]. pose proof (away_inv _ _ YF) as N. split; [|exact N]. plain.
  destruct (io_free _ _ I j) as (FN & _). destruct (v_next (s_resp s j)) as [n|].
  - apply iso_upd; [|now apply away_inv|].
    + destruct I. eapply iso_ext; [constructor; eauto|reflexivity|exact FN|auto..].
    + destruct (io_free _ _ I n) as (F1 & F2 & F3 & F4). split; [exact F1|]. split; [apply away_none|]. auto.
  - destruct I. eapply iso_ext; [constructor; eauto|reflexivity|exact FN|apply away_none|auto..].
Qed.
Lemma iso_run : forall i s v e s', isolated i s -> runPolled s = Ok (v, e, s') -> isolated i s' /\ match e with Some (j, _) => j <> i | None => True end.
Proof.
  intros i s v e s' I E. unfold runPolled in E. pose proof (io_pf _ _ I) as PF. destruct (s_pfirst s) as [j|].
  - pose proof (away_inv _ _ PF) as N. apply bind_ok in E. destruct E as (s1 & E1 & E). cbv zeta in E. pose proof (iso_remove _ _ _ _ I N E1) as I1. clear E1.
    assert (I2 : isolated i (upd_resp s1 j (fun q => q <| v_trig := false |>))) by (plain; exact I1).
    set (s2 := upd_resp s1 j _) in *. clearbody s2. apply Ok_inj in E. apply pair_equal_spec in E. destruct E as [E <-]. apply pair_equal_spec in E. destruct E as [_ <-].
    split; [exact I2|]. destruct (v_fun _); [exact N|exact Logic.I].
  - apply Ok_inj in E. apply pair_equal_spec in E. destruct E as [E <-]. apply pair_equal_spec in E. destruct E as [_ <-]. auto.
Qed.
Lemma iso_disable : forall i s, isolated i s -> isolated i (disableResponse s).
Proof. intros i s I. unfold disableResponse. cbv zeta. destruct (s_count s =? 0); [destruct (s_force s)|]; (eapply iso_sys; [exact I|reflexivity..]). Qed.
Lemma iso_enable : forall i s, isolated i s -> isolated i (enableResponse s).
Proof. intros i s I. unfold enableResponse. cbv zeta. destruct (_ <=? 0); [destruct (s_force _)|]; (eapply iso_sys; [exact I|reflexivity..]). Qed.
Lemma iso_updresp : forall i s, isolated i s -> isolated i (updateResponse s).
Proof. intros i s I. unfold updateResponse. cbv zeta. destruct (_ && _); (eapply iso_sys; [exact I|reflexivity..]). Qed.
Lemma iso0 : forall i f, isolated i (sys0 f).
Proof. intros i f. constructor; try reflexivity; try apply away_none. intro j. repeat split; apply away_none. Qed.
Lemma iso_pstop : forall i j w, isolated i (w_sys w) -> isolated i (w_sys (p_stop j w)).
Proof. intros i j w I. unfold p_stop. cbv zeta. apply iso_enable, iso_clear, iso_disable, I. Qed.
Lemma iso_event : forall i fuel j st w w', isolated i (w_sys w) -> j <> i -> event_response fuel j st w = Ok w' -> isolated i (w_sys w') /\ w_rd w' i = w_rd w i.
Proof.
  intros i fuel j st w w' I N E. apply event_response_inv in E. destruct E as (r & _ & R & ->). split; [now apply iso_enable, iso_disable|].
  rewrite R. destruct (Nat.eqb_spec i j); [congruence|reflexivity].
Qed.

(* ---- what the operations on player i do to its reader ---- *)

Definition alone1 (fuel : nat) (alloc : nat -> option nat) (r : reader) : res (list (bool + list bact) * reader) :=
  '(acts, _, r') <- p_update fuel alloc r ;; Ok ([inr acts], r').
Fixpoint alone_mid (fuel : nat) (l : list (nat * (nat -> option nat))) (r : reader) : res (list (bool + list bact) * reader) :=
  match l with
  | [] => Ok ([], r)
  | (_, alloc) :: l' => '(a, r1) <- alone1 fuel alloc r ;; '(b, r2) <- alone_mid fuel l' r1 ;; Ok (a ++ b, r2)
  end.
Definition started_with (play : reader -> res (bool * reader)) (r : reader) : res (list (bool + list bact) * reader) :=
  '(b, r') <- play (r_stop r) ;; Ok ([inl b], r').
Definition alone (fuel : nat) (o : wop) (r : reader) : res (list (bool + list bact) * reader) :=
  match o with
  | WPlayRaw _ m off len nch => started_with (fun r => always (playRaw_array r m off len nch)) r
  | WPlayWavLen _ m off len => started_with (fun r => always (playWav_array_len r m off len)) r
  | WPlayWav _ m => started_with (fun r => playWav_array r m) r
  | WStop _ mid => '(a, r1) <- alone_mid fuel mid r ;; Ok (a, r_stop r1)
  | WCall _ c => r' <- call_run fuel c r ;; Ok ([], r')
  | WUpdate _ alloc => alone1 fuel alloc r
  | _ => Ok ([], r)
  end.
Fixpoint alones (fuel : nat) (l : list wop) (r : reader) : res (list (bool + list bact) * reader) :=
  match l with
  | [] => Ok ([], r)
  | o :: l' => '(a, r1) <- alone fuel o r ;; '(b, r2) <- alones fuel l' r1 ;; Ok (a ++ b, r2)
  end.
Lemma alones_app : forall fuel a b r, alones fuel (a ++ b) r = ('(x, r1) <- alones fuel a r ;; '(y, r2) <- alones fuel b r1 ;; Ok (x ++ y, r2)).
Proof.
  intros fuel. induction a as [|o a IH]; intros b r; cbn [app alones bind].
  - destruct (alones fuel b r) as [[y r2]| |]; reflexivity.
  - destruct (alone fuel o r) as [[x r1]| |]; cbn [bind]; [|reflexivity..]. rewrite IH.
    destruct (alones fuel a r1) as [[y r2]| |]; cbn [bind]; [|reflexivity..]. destruct (alones fuel b r2) as [[z r3]| |]; cbn [bind]; [|reflexivity..]. now rewrite app_assoc.
Qed.

Lemma update_alone : forall i fuel j alloc w acts w', isolated i (w_sys w) -> w_update fuel j alloc w = Ok (acts, w') ->
  isolated i (w_sys w') /\ alones fuel (own i (WUpdate j alloc)) (w_rd w i) = Ok (seen1 i (WoActs [(j, acts)]), w_rd w' i).
Proof.
  intros i fuel j alloc w acts w' I E. apply w_update_inv in E. destruct E as (ev & r' & E & R & S). split.
  { destruct ev; [eapply iso_trigger; eauto|now rewrite S]. }
  cbn [own seen1 flat_map fst snd]. rewrite R, (Nat.eqb_sym i j). destruct (Nat.eqb_spec j i) as [->|]; [|reflexivity].
  cbn [alones alone]. unfold alone1. rewrite E. reflexivity.
Qed.
Lemma updates_alone : forall i fuel l w acts w', isolated i (w_sys w) -> w_updates fuel l w = Ok (acts, w') ->
  isolated i (w_sys w') /\ alone_mid fuel (filter (fun e => Nat.eqb (fst e) i) l) (w_rd w i) = Ok (seen1 i (WoActs acts), w_rd w' i).
Proof.
  intros i fuel. induction l as [|[j alloc] l IH]; intros w acts w' I E; cbn [w_updates] in E.
  - apply Ok_inj, pair_equal_spec in E. destruct E as [<- <-]. auto.
  - apply bind_ok in E. destruct E as ([a w1] & E1 & E). apply bind_ok in E. destruct E as ([m w2] & E2 & E). apply Ok_inj, pair_equal_spec in E. destruct E as [<- <-].
    destruct (update_alone _ _ _ _ _ _ _ I E1) as [I1 A1]. destruct (IH _ _ _ I1 E2) as [I2 A2]. split; [exact I2|].
    cbn [filter fst seen1 flat_map snd]. cbn [own seen1 flat_map fst snd] in A1. cbn [seen1] in A2. destruct (Nat.eqb j i); cbn [alone_mid alones alone app] in *.
    + destruct (alone1 fuel alloc (w_rd w i)) as [[x r1]| |]; try discriminate. cbn [bind] in *. apply Ok_inj, pair_equal_spec in A1. destruct A1 as [A1 ->].
      rewrite A2. cbn [bind]. rewrite <- (app_nil_r x), A1. reflexivity.
    + apply Ok_inj, pair_equal_spec in A1. destruct A1 as [_ ->]. exact A2.
Qed.
Lemma mid_alones : forall fuel i l r, alones fuel (map (fun e => WUpdate i (snd e)) l) r = alone_mid fuel l r.
Proof.
  intros fuel i. induction l as [|[j alloc] l IH]; intro r; cbn [map alones alone alone_mid snd]; [reflexivity|].
  destruct (alone1 fuel alloc r) as [[x r1]| |]; cbn [bind]; [|reflexivity..]. now rewrite IH.
Qed.

(* Every operation, whoever it is for *)
Lemma alone_step : forall i fuel o w x w', isolated i (w_sys w) -> ~ plays_file o i -> wop_run fuel o w = Ok (x, w') ->
  isolated i (w_sys w') /\ alones fuel (own i o) (w_rd w i) = Ok (seen1 i x, w_rd w' i).
Proof.
  intros i fuel o w x w' I NF E. unfold wop_run in E.
  assert (PA : forall j play, (('(b, w') <- p_play_array j play w ;; Ok (WoPlay j b, w')) = Ok (x, w')) ->
    isolated i (w_sys w') /\ (if Nat.eqb j i then started_with play (w_rd w i) else Ok ([], w_rd w i)) = Ok (seen1 i x, w_rd w' i)).
  { intros j play H. apply bind_ok in H. destruct H as ([b w1] & H & H2). apply Ok_inj, pair_equal_spec in H2. destruct H2 as [<- <-].
    apply p_play_array_inv in H. destruct H as (r & H & R & S). rewrite S. split; [now apply iso_pstop|]. rewrite R, (Nat.eqb_sym i j). cbn [seen1].
    destruct (Nat.eqb_spec j i) as [->|]; [|reflexivity]. unfold started_with. rewrite H. reflexivity. }
  destruct o as [j fo wv n st g|j m off len nch|j m off len|j m|j mid|j c|j alloc| | |b]; cbv beta iota in E.
  - cbn [plays_file] in NF. apply bind_ok in E. destruct E as ([b w1] & E & E2). apply Ok_inj, pair_equal_spec in E2. destruct E2 as [<- <-].
    apply p_play_file_inv in E. destruct E as (r & _ & R & s2 & A & S). cbv zeta in A. split.
    + rewrite S. apply iso_enable, iso_updresp. pose proof (iso_pstop i j _ (iso_disable i _ I : isolated i (w_sys (on_sys w disableResponse)))) as I1.
      destruct (s_force _); [eapply iso_attachp; eauto|]. apply Ok_inj in A. subst s2. now apply iso_attach.
    + cbn [own seen1]. rewrite R. destruct (Nat.eqb_spec j i); [congruence|]. destruct (Nat.eqb_spec i j); [congruence|reflexivity].
  - destruct (PA _ _ E) as [I1 A]. split; [exact I1|]. cbn [own]. destruct (Nat.eqb j i); [|exact A]. cbn [alones alone]. rewrite A. cbn [bind]. now rewrite app_nil_r.
  - destruct (PA _ _ E) as [I1 A]. split; [exact I1|]. cbn [own]. destruct (Nat.eqb j i); [|exact A]. cbn [alones alone]. rewrite A. cbn [bind]. now rewrite app_nil_r.
  - destruct (PA _ _ E) as [I1 A]. split; [exact I1|]. cbn [own]. destruct (Nat.eqb j i); [|exact A]. cbn [alones alone]. rewrite A. cbn [bind]. now rewrite app_nil_r.
  - apply bind_ok in E. destruct E as ([a w1] & E & E2). apply Ok_inj, pair_equal_spec in E2. destruct E2 as [<- <-].
    apply w_stop_inv in E. destruct E as (w2 & E & ->). assert (I1 : isolated i (w_sys (on_sys (on_sys w disableResponse) (clearEvent j)))) by now apply iso_clear, iso_disable.
    destruct (updates_alone _ _ _ _ _ _ I1 E) as [I2 A]. split; [now apply iso_enable|]. rewrite rd_sys, rd_set. rewrite !rd_sys in A. cbn [own].
    rewrite (Nat.eqb_sym i j). destruct (Nat.eqb_spec j i) as [->|N].
    + cbn [alones alone]. rewrite A. cbn [bind]. now rewrite app_nil_r.
    + rewrite mid_alones. exact A.
  - apply bind_ok in E. destruct E as (r & E & E2). apply Ok_inj, pair_equal_spec in E2. destruct E2 as [<- <-]. split; [exact I|].
    cbn [own seen1]. rewrite rd_set, (Nat.eqb_sym i j). destruct (Nat.eqb_spec j i) as [->|]; [|reflexivity]. cbn [alones alone]. rewrite E. reflexivity.
  - apply bind_ok in E. destruct E as ([a w1] & E & E2). apply Ok_inj, pair_equal_spec in E2. destruct E2 as [<- <-]. now apply update_alone.
  - apply bind_ok in E. destruct E as (w1 & E & E2). apply Ok_inj, pair_equal_spec in E2. destruct E2 as [<- <-]. cbn [own seen1 alones].
    unfold w_yield in E. destruct (Z.testbit _ _); [|apply Ok_inj in E; subst; auto]. destruct (y_pop (w_sys w)) as [e s] eqn:P. destruct (iso_pop _ _ _ _ I P) as [I1 N].
    destruct e as [[j st]|]; [|apply Ok_inj in E; subst; auto]. assert (I1' : isolated i (w_sys (w <| w_sys := s |>))) by exact I1. destruct (iso_event _ _ _ _ _ _ I1' N E) as [I2 R]. split; [exact I2|]. now rewrite R.
  - apply bind_ok in E. destruct E as ([v w1] & E & E2). apply Ok_inj, pair_equal_spec in E2. destruct E2 as [<- <-]. cbn [own seen1 alones].
    unfold w_poll in E. apply bind_ok in E. destruct E as ([[v' e] s] & P & E). destruct (iso_run _ _ _ _ _ I P) as [I1 N].
    destruct e as [[j st]|]; [|apply Ok_inj, pair_equal_spec in E; destruct E as [_ <-]; auto]. apply bind_ok in E. destruct E as (w2 & E & E2). apply Ok_inj, pair_equal_spec in E2.
    destruct E2 as [_ <-]. assert (I1' : isolated i (w_sys (w <| w_sys := s |>))) by exact I1. destruct (iso_event _ _ _ _ _ _ I1' N E) as [I2 R]. split; [exact I2|]. now rewrite R.
  - apply Ok_inj, pair_equal_spec in E. destruct E as [<- <-]. split; [|reflexivity]. eapply iso_sys; [exact I|reflexivity..].
Qed.
Lemma alone_wops : forall i fuel l w xs w', isolated i (w_sys w) -> (forall o, In o l -> ~ plays_file o i) -> wops fuel l w = Ok (xs, w') ->
  isolated i (w_sys w') /\ alones fuel (flat_map (own i) l) (w_rd w i) = Ok (seen i xs, w_rd w' i).
Proof.
  intros i fuel. induction l as [|o l IH]; intros w xs w' I NF E; cbn [wops] in E.
  - apply Ok_inj, pair_equal_spec in E. destruct E as [<- <-]. auto.
  - apply bind_ok in E. destruct E as ([x w1] & E1 & E). apply bind_ok in E. destruct E as ([ys w2] & E2 & E). apply Ok_inj, pair_equal_spec in E. destruct E as [<- <-].
    destruct (alone_step _ _ _ _ _ _ I (NF o (or_introl eq_refl)) E1) as [I1 A1]. destruct (IH _ _ _ I1 (fun o' H => NF o' (or_intror H)) E2) as [I2 A2]. split; [exact I2|].
    cbn [flat_map]. rewrite alones_app, A1. cbn [bind]. rewrite A2. reflexivity.
Qed.

(* ---- the other way round: the player alone ---- *)

Lemma alone_update : forall i fuel alloc w a r', isolated i (w_sys w) -> alone1 fuel alloc (w_rd w i) = Ok (a, r') ->
  exists acts w', w_update fuel i alloc w = Ok (acts, w') /\ a = [inr acts] /\ isolated i (w_sys w') /\ w_rd w' i = r'.
Proof.
  intros i fuel alloc w a r' I E. unfold alone1 in E. apply bind_ok in E. destruct E as ([[acts ev] r1] & E & E2). apply Ok_inj, pair_equal_spec in E2. destruct E2 as [<- <-].
  unfold w_update. rewrite E. cbn [bind]. destruct ev as [st|].
  - destruct (iso_trigger_self i st (w_sys (set_rd w i r1)) I) as (s' & T & I'). rewrite T. cbn [bind]. eexists _, _. split; [reflexivity|]. split; [reflexivity|]. split; [exact I'|].
    change (w_rd (set_rd w i r1 <| w_sys := s' |>) i) with (w_rd (set_rd w i r1) i). now rewrite rd_set, Nat.eqb_refl.
  - eexists _, _. split; [reflexivity|]. split; [reflexivity|]. split; [exact I|]. now rewrite rd_set, Nat.eqb_refl.
Qed.
Lemma alone_updates : forall i fuel l w a r', Forall (fun e => fst e = i) l -> isolated i (w_sys w) -> alone_mid fuel l (w_rd w i) = Ok (a, r') ->
  exists acts w', w_updates fuel l w = Ok (acts, w') /\ a = seen1 i (WoActs acts) /\ isolated i (w_sys w') /\ w_rd w' i = r'.
Proof.
  intros i fuel. induction l as [|[j alloc] l IH]; intros w a r' F I E; cbn [alone_mid] in E.
  - apply Ok_inj, pair_equal_spec in E. destruct E as [<- <-]. exists [], w. auto.
  - apply Forall_cons_iff in F. destruct F as [J F]. cbn [fst] in J. subst j. apply bind_ok in E. destruct E as ([a1 r1] & E1 & E). apply bind_ok in E. destruct E as ([a2 r2] & E2 & E).
    apply Ok_inj, pair_equal_spec in E. destruct E as [<- <-]. destruct (alone_update _ _ _ _ _ _ I E1) as (acts & w1 & U & -> & I1 & <-).
    destruct (IH _ _ _ F I1 E2) as (acts2 & w2 & U2 & -> & I2 & R2). cbn [w_updates]. rewrite U. cbn [bind]. rewrite U2. cbn [bind]. eexists _, _. split; [reflexivity|].
    split; [|auto]. cbn [seen1 flat_map fst snd app]. now rewrite Nat.eqb_refl.
Qed.
Lemma alone_play : forall i play w a r', isolated i (w_sys w) -> started_with play (w_rd w i) = Ok (a, r') ->
  exists b w', p_play_array i play w = Ok (b, w') /\ a = [inl b] /\ isolated i (w_sys w') /\ w_rd w' i = r'.
Proof.
  intros i play w a r' I H. unfold started_with in H. apply bind_ok in H. destruct H as ([b r1] & H & H2). apply Ok_inj, pair_equal_spec in H2. destruct H2 as [<- <-].
  unfold p_play_array. cbv zeta. rewrite p_stop_rd, Nat.eqb_refl, H. cbn [bind]. exists b, (set_rd (p_stop i w) i r1). split; [reflexivity|]. split; [reflexivity|].
  split; [exact (iso_pstop i i w I)|apply rd_same].
Qed.
Lemma alone_stop : forall i fuel mid w a r', isolated i (w_sys w) -> Forall (fun e => fst e = i) mid -> alone_mid fuel mid (w_rd w i) = Ok (a, r') ->
  exists acts w', w_stop fuel i mid w = Ok (acts, w') /\ a = seen1 i (WoActs acts) /\ isolated i (w_sys w') /\ w_rd w' i = r_stop r'.
Proof.
  intros i fuel mid w a r' I F E.
  destruct (alone_updates i fuel mid (on_sys (on_sys w disableResponse) (clearEvent i)) a r' F) as (acts & w2 & U & -> & I2 & R2); [now apply iso_clear, iso_disable|exact E|].
  unfold w_stop. rewrite U. cbn [bind]. exists acts, (on_sys (set_rd w2 i (r_stop (w_rd w2 i))) enableResponse). split; [reflexivity|]. split; [reflexivity|].
  split; [exact (iso_enable i _ I2)|]. rewrite rd_sys, rd_same. now rewrite R2.
Qed.
Lemma alone_call : forall i fuel c w a r', isolated i (w_sys w) -> alone fuel (WCall i c) (w_rd w i) = Ok (a, r') ->
  exists x w', wop_run fuel (WCall i c) w = Ok (x, w') /\ seen1 i x = a /\ isolated i (w_sys w') /\ w_rd w' i = r'.
Proof.
  intros i fuel c w a r' I E. cbn [alone] in E. apply bind_ok in E. destruct E as (r1 & E1 & E). apply Ok_inj, pair_equal_spec in E. destruct E as [<- <-].
  cbn [wop_run]. rewrite E1. cbn [bind]. exists WoNone, (set_rd w i r1). split; [reflexivity|]. split; [reflexivity|]. split; [exact I|apply rd_same].
Qed.
Lemma own_index : forall i o, own i o = [o] -> match o with
  | WPlayFile j _ _ _ _ _ | WPlayRaw j _ _ _ _ | WPlayWavLen j _ _ _ | WPlayWav j _ | WCall j _ | WUpdate j _ => j = i
  | WStop j mid => j = i /\ Forall (fun e => fst e = i) mid
  | _ => False end.
Proof.
  intros i o OW. destruct o as [j fo wv n st g|j m off len nch|j m off len|j m|j mid|j c|j alloc| | |b]; cbn [own] in OW; try discriminate;
    try (destruct (Nat.eqb_spec j i) as [J|]; [exact J|discriminate]).
  destruct (Nat.eqb_spec j i) as [->|]; [|destruct (filter _ mid); discriminate]. split; [reflexivity|]. rewrite Forall_forall. intros e H. injection OW as OW.
  rewrite <- OW in H. apply filter_In in H. destruct H as [_ H]. now apply Nat.eqb_eq in H.
Qed.
Lemma play_run : forall i play w a r' b w', p_play_array i play w = Ok (b, w') -> a = [inl b] -> isolated i (w_sys w') -> w_rd w' i = r' ->
  exists x w1, ('(b, w') <- p_play_array i play w ;; Ok (WoPlay i b, w')) = Ok (x, w1) /\ seen1 i x = a /\ isolated i (w_sys w1) /\ w_rd w1 i = r'.
Proof. intros i play w a r' b w' E -> I R. rewrite E. exists (WoPlay i b), w'. cbn [bind seen1]. rewrite Nat.eqb_refl. auto. Qed.
Definition runs_as (i fuel : nat) (o : wop) (w : world) : Prop := forall a r', alone fuel o (w_rd w i) = Ok (a, r') ->
  exists x w', wop_run fuel o w = Ok (x, w') /\ seen1 i x = a /\ isolated i (w_sys w') /\ w_rd w' i = r'.
Lemma raw_eqs : forall i fuel m off len nch w r, let play := fun r => always (playRaw_array r m off len nch) in
  wop_run fuel (WPlayRaw i m off len nch) w = ('(b, w') <- p_play_array i play w ;; Ok (WoPlay i b, w')) /\ alone fuel (WPlayRaw i m off len nch) r = started_with play r.
Proof. intros. unfold wop_run, alone. split; reflexivity. Qed.
Lemma wavlen_eqs : forall i fuel m off len w r, let play := fun r => always (playWav_array_len r m off len) in
  wop_run fuel (WPlayWavLen i m off len) w = ('(b, w') <- p_play_array i play w ;; Ok (WoPlay i b, w')) /\ alone fuel (WPlayWavLen i m off len) r = started_with play r.
Proof. intros. unfold wop_run, alone. split; reflexivity. Qed.
Lemma wav_eqs : forall i fuel m w r, let play := fun r => playWav_array r m in
  wop_run fuel (WPlayWav i m) w = ('(b, w') <- p_play_array i play w ;; Ok (WoPlay i b, w')) /\ alone fuel (WPlayWav i m) r = started_with play r.
Proof. intros. unfold wop_run, alone. split; reflexivity. Qed.
Lemma run_play : forall i fuel o play w, isolated i (w_sys w) ->
  wop_run fuel o w = ('(b, w') <- p_play_array i play w ;; Ok (WoPlay i b, w')) /\ alone fuel o (w_rd w i) = started_with play (w_rd w i) -> runs_as i fuel o w.
Proof.
  intros i fuel o play w I [W A] a r' E. rewrite A in E. rewrite W. destruct (alone_play _ _ _ _ _ I E) as (b & w' & P & A' & I' & R).
  exact (play_run _ _ _ _ _ _ _ P A' I' R).
Qed.
Lemma run_stop : forall i fuel mid w, isolated i (w_sys w) -> Forall (fun e => fst e = i) mid -> runs_as i fuel (WStop i mid) w.
Proof.
  intros i fuel mid w I F a r' E. cbn [alone] in E. apply bind_ok in E. destruct E as ([a1 r1] & E1 & E). apply Ok_inj, pair_equal_spec in E. destruct E as [<- <-].
  destruct (alone_stop _ _ _ _ _ _ I F E1) as (acts & w' & S & A & I' & R). cbn [wop_run]. rewrite S. cbn [bind]. exists (WoActs acts), w'. auto.
Qed.
Lemma run_update : forall i fuel alloc w, isolated i (w_sys w) -> runs_as i fuel (WUpdate i alloc) w.
Proof.
  intros i fuel alloc w I a r' E. change (alone1 fuel alloc (w_rd w i) = Ok (a, r')) in E.
  destruct (alone_update _ _ _ _ _ _ I E) as (acts & w' & U & -> & I' & R). cbn [wop_run]. rewrite U. cbn [bind]. exists (WoActs [(i, acts)]), w'.
  cbn [seen1 flat_map fst snd]. rewrite Nat.eqb_refl. auto.
Qed.
Lemma alone_run : forall i fuel o w, isolated i (w_sys w) -> own i o = [o] -> ~ plays_file o i -> runs_as i fuel o w.
Proof.
  intros i fuel o w I OW NF. apply own_index in OW.
  destruct o as [j fo wv n st g|j m off len nch|j m off len|j m|j mid|j c|j alloc| | |b]; try contradiction; try (subst j).
  - exact (run_play _ _ _ _ _ I (raw_eqs _ _ _ _ _ _ _ _)).
  - exact (run_play _ _ _ _ _ I (wavlen_eqs _ _ _ _ _ _ _)).
  - exact (run_play _ _ _ _ _ I (wav_eqs _ _ _ _ _)).
  - destruct OW as [-> F]. now apply run_stop.
  - intros a r' E. exact (alone_call _ _ _ _ _ _ I E).
  - now apply run_update.
Qed.
Lemma alone_runs : forall i fuel l w a r', isolated i (w_sys w) -> Forall (fun o => own i o = [o]) l -> (forall o, In o l -> ~ plays_file o i) ->
  alones fuel l (w_rd w i) = Ok (a, r') -> exists xs w', wops fuel l w = Ok (xs, w') /\ seen i xs = a /\ w_rd w' i = r'.
Proof.
  intros i fuel. induction l as [|o l IH]; intros w a r' I OW NF E; cbn [alones] in E.
  - apply Ok_inj, pair_equal_spec in E. destruct E as [<- <-]. exists [], w. auto.
  - apply Forall_cons_iff in OW. destruct OW as [OW1 OW]. apply bind_ok in E. destruct E as ([a1 r1] & E1 & E). apply bind_ok in E. destruct E as ([a2 r2] & E2 & E).
    apply Ok_inj, pair_equal_spec in E. destruct E as [<- <-]. destruct (alone_run _ fuel _ _ I OW1 (NF o (or_introl eq_refl)) _ _ E1) as (x & w1 & U & <- & I1 & <-).
    destruct (IH _ _ _ I1 OW (fun o' H => NF o' (or_intror H)) E2) as (xs & w2 & U2 & <- & R2). exists (x :: xs), w2. cbn [wops]. rewrite U. cbn [bind]. rewrite U2. auto.
Qed.

Lemma own_own : forall i o, Forall (fun o' => own i o' = [o']) (own i o).
Proof.
  intros i o. assert (M : forall mid, filter (fun e : nat * (nat -> option nat) => Nat.eqb (fst e) i) (filter (fun e => Nat.eqb (fst e) i) mid) = filter (fun e => Nat.eqb (fst e) i) mid).
  { intro mid. induction mid as [|e mid IH]; cbn [filter]; [reflexivity|]. destruct (Nat.eqb (fst e) i) eqn:J; [|exact IH]. cbn [filter]. now rewrite J, IH. }
  destruct o; cbn [own]; try (destruct (Nat.eqb _ i) eqn:J; [constructor; [cbn [own]; now rewrite ?J, ?M|constructor]|constructor]); try (constructor; fail).
  destruct (Nat.eqb _ i) eqn:J; [constructor; [cbn [own]; now rewrite J, M|constructor]|].
  rewrite Forall_map. apply Forall_forall. intros e _. cbn [own]. now rewrite Nat.eqb_refl.
Qed.
Lemma own_file : forall i o o', ~ plays_file o i -> In o' (own i o) -> ~ plays_file o' i.
Proof.
  intros i o o' NF H. destruct o; cbn [own] in H; try (destruct (Nat.eqb _ i); [|solve [destruct H]]); try (destruct H as [<-|[]]; exact NF); try solve [destruct H].
  destruct (Nat.eqb _ i); [destruct H as [<-|[]]; exact (fun x => x)|]. apply in_map_iff in H. destruct H as (e & <- & _). exact (fun x => x).
Qed.

Theorem independent : forall kinds flags fuel l xs w i, (forall o, In o l -> ~ plays_file o i) -> wops fuel l (world0 kinds flags) = Ok (xs, w) ->
  forall kinds2 flags2, kinds2 i = kinds i ->
  exists ys w', wops fuel (flat_map (own i) l) (world0 kinds2 flags2) = Ok (ys, w') /\ seen i ys = seen i xs /\ w_rd w' i = w_rd w i.
Proof.
  intros kinds flags fuel l xs w i NF E kinds2 flags2 K. destruct (alone_wops _ _ _ _ _ _ (iso0 i flags : isolated i (w_sys (world0 kinds flags))) NF E) as [_ A].
  assert (R : w_rd (world0 kinds flags) i = w_rd (world0 kinds2 flags2) i) by exact (f_equal new_reader (eq_sym K)). rewrite R in A.
  apply alone_runs in A; [exact A|exact (iso0 i flags2)| |].
  - apply Forall_flat_map, Forall_forall. intros o _. apply own_own.
  - intros o H. apply in_flat_map in H. destruct H as (o1 & H1 & H2). eapply own_file; eauto.
Qed.
