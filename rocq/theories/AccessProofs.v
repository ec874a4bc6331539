(* The example FileAccess.ino (C127-C130). *)

From Coq Require Import ZArith Lia List Bool.
From RecordUpdate Require Import RecordUpdate.
From Verif Require Import Machine Floats WavModel CacheModel CacheFacts CacheSpec CacheProofs CacheFinal ReaderModel ReaderFacts ResponderModel ResponderSpec ResponderProofs QueueProofs PlayerModel LifeSpec LifeProofs WorldProofs UpdateProofs
  ScheduleProofs SketchModel PianoModel AccessModel AccessSpec.
Import ListNotations.
Local Open Scope Z_scope.

Local Opaque wop_run.
Lemma bg_yield : forall l, Forall (fun o => match o with WUpdate _ _ | WYield => True | _ => False end) (bg_ops l).
Proof. intros l. apply Forall_forall. intros o IN. apply in_map_iff in IN. destruct IN as ([[j g]|] & <- & _); exact I. Qed.

(* ---- the copy ---- *)

Lemma bytes_len : forall fl n p, length (file_bytes fl p n) = n.
Proof. intros fl n. induction n; intros p; cbn; auto. Qed.
Lemma bytes_nth : forall fl n p i, (i < n)%nat -> nth i (file_bytes fl p n) 0 = fbyte fl (p + Z.of_nat i).
Proof.
  intros fl n. induction n; intros p i L; [lia|]. cbn [file_bytes]. destruct i; cbn [nth]; [f_equal; lia|]. rewrite IHn by lia. f_equal. lia.
Qed.
Lemma bytes_app : forall fl a p b, file_bytes fl p (a + b) = file_bytes fl p a ++ file_bytes fl (p + Z.of_nat a) b.
Proof.
  intros fl a. induction a as [|a IH]; intros p b; cbn [file_bytes Nat.add app]; [f_equal; lia|]. rewrite IH. do 2 f_equal. f_equal. lia.
Qed.

(* The copy so far *)
Definition cinv (src : option file) (c : copier) : Prop :=
  match cp_state c with
  | CCopying => exists fl, src = Some fl /\ 0 <= cp_pos c <= fsize fl /\ cp_dst c = file_bytes fl 0 (Z.to_nat (cp_pos c)) /\ cp_count c = cp_pos c
  | CComplete => exists fl, src = Some fl /\ cp_dst c = file_bytes fl 0 (Z.to_nat (fsize fl)) /\ cp_count c = fsize fl
  | _ => True
  end.
Definition size_ok (src : option file) : Prop := match src with Some fl => 0 <= fsize fl < 2 ^ 31 | None => True end.

Lemma content_bytes : forall fl, 0 <= fsize fl -> is_content fl (file_bytes fl 0 (Z.to_nat (fsize fl))).
Proof.
  intros fl B. split; [rewrite bytes_len; lia|]. intros i I. rewrite bytes_nth by lia. f_equal. lia.
Qed.

Lemma copy_inv : forall src o rnd c, size_ok src -> 0 <= rnd < 1100 -> cinv src c ->
  exists d c', copy_step src o rnd c = Ok (d, c') /\ cinv src c' /\ Forall (true_copy src) (map (fun x => FCopied (fst x) (snd x)) d).
Proof.
  intros src o rnd c S R H. unfold copy_step, cinv in *. destruct (cp_state c) eqn:Q.
  - destruct src as [fl|]; [|exists []; eexists; repeat split; constructor]. destruct o; exists []; eexists; (split; [reflexivity|]); (split; [|constructor]).
    + cbn. exists fl. repeat split; cbn in S; lia.
    + exact I.
  - destruct H as (fl & -> & P & D & K). cbn [size_ok] in S.
    set (n := rnd + 100). set (got := Z.max 0 (Z.min n (fsize fl - cp_pos c))).
    assert (G : 0 <= got <= 1199 /\ cp_pos c + got <= fsize fl /\ (got = n \/ cp_pos c + got = fsize fl)) by (unfold got, n; lia).
    assert (E1 : at_index 1201 got = Ok tt). { unfold at_index. assert (E : (0 <=? got) && (got <? 1201) = true) by (apply andb_true_intro; split; lia). now rewrite E. }
    rewrite E1. cbn [bind]. rewrite chk32_ok by (split; lia). cbn [bind].
    assert (A : file_bytes fl 0 (Z.to_nat (cp_pos c + got)) = cp_dst c ++ file_bytes fl (cp_pos c) (Z.to_nat got)).
    { rewrite D, Z2Nat.inj_add, bytes_app by lia. do 2 f_equal. lia. }
    exists []. eexists. split; [reflexivity|]. split; [|constructor]. destruct (Z.eqb_spec got n) as [E|E]; cbn.
    + rewrite Q. exists fl. rewrite A. repeat split; lia.
    + assert (F : cp_pos c + got = fsize fl) by lia. exists fl. rewrite <- F, A. repeat split; lia.
  - destruct H as (fl & -> & D & K). exists [(cp_dst c, cp_count c)]. eexists. split; [reflexivity|]. split; [exact I|].
    constructor; [|constructor]. exists fl. rewrite D, K. repeat split; auto; apply content_bytes; cbn in S; lia.
  - exists []. eexists. split; [reflexivity|]. split; [exact I|constructor].
Qed.

(* The passes until the copy is complete and reported *)
Definition copy_left (src : option file) (c : copier) : Z :=
  match src, cp_state c with
  | Some fl, CIdle => fsize fl / 100 + 3
  | Some fl, CCopying => (fsize fl - cp_pos c) / 100 + 2
  | _, _ => 1
  end.
Lemma copy_progress : forall fl rnd c d c', 0 <= fsize fl < 2 ^ 31 -> 0 <= rnd < 1100 -> cinv (Some fl) c -> cp_state c <> CError -> copy_step (Some fl) true rnd c = Ok (d, c') ->
  d <> [] \/ (cp_state c' <> CError /\ copy_left (Some fl) c' <= copy_left (Some fl) c - 1).
Proof.
  intros fl rnd c d c' S R H NE E. unfold copy_step, cinv, copy_left in *. destruct (cp_state c) eqn:Q; try congruence.
  - apply Ok_inj, pair_equal_spec in E. destruct E as [_ <-]. right. cbn. split; [discriminate|]. rewrite Z.sub_0_r. lia.
  - destruct H as (fl' & F & P & D & K). injection F as <-.
    set (n := rnd + 100) in *. set (got := Z.max 0 (Z.min n (fsize fl - cp_pos c))) in *.
    apply bind_ok in E. destruct E as (u & E1 & E). apply bind_ok in E. destruct E as (k & E2 & E). apply Ok_inj, pair_equal_spec in E. destruct E as [_ <-]. right.
    assert (Z0 : 0 <= (fsize fl - cp_pos c) / 100) by (apply Z.div_pos; lia).
    destruct (Z.eqb_spec got n) as [G|G]; cbn; rewrite ?Q; (split; [discriminate|]); [|lia].
    assert (n <= fsize fl - cp_pos c) by (unfold got, n in *; lia).
    assert ((fsize fl - (cp_pos c + got)) / 100 <= (fsize fl - cp_pos c - 100) / 100) by (apply Z.div_le_mono; unfold n in *; lia).
    replace (fsize fl - cp_pos c - 100) with (fsize fl - cp_pos c + (-1) * 100) in * by lia. rewrite Z.div_add in * by lia. lia.
  - apply Ok_inj, pair_equal_spec in E. destruct E as [<- _]. left. discriminate.
Qed.

(* ---- the world between the passes ---- *)

Definition kinds_sd (i : nat) : rkind := KSd.
Definition ready (w : world) : Prop := exists a q v, ymode kinds_sd (fun _ => True) w a q v.

Lemma ready_wops : forall fuel l w xs w', ready w -> Forall yield_mode l -> Forall (wop_ok kinds_sd) l -> wops fuel l w = Ok (xs, w') -> ready w'.
Proof.
  intros fuel l w xs w' (a & q & v & Y) M K E. eapply ymode_wops; [exact Y|exact K|exact M| |exact E].
  apply Forall_forall. intros o _. destruct o; exact I.
Qed.
Lemma bg_ok : forall l, Forall yield_mode (bg_ops l) /\ Forall (wop_ok kinds_sd) (bg_ops l).
Proof. intros l. split; eapply Forall_impl; try apply bg_yield; intros o H; destruct o; try contradiction; exact I. Qed.
Lemma ready_bg : forall fuel l w xs w', ready w -> wops fuel (bg_ops l) w = Ok (xs, w') -> ready w'.
Proof. intros fuel l w xs w' R. apply ready_wops; [exact R|apply bg_ok..]. Qed.

Lemma same_refl : forall r, untouched r r.
Proof. intros r. unfold untouched. destruct (r_src r); auto. exists f. split; [reflexivity|apply same_store_refl]. Qed.
Lemma same_trans : forall a b c, untouched a b -> untouched b c -> untouched a c.
Proof.
  intros a b c. unfold untouched. destruct (r_src a) as [|m o|f].
  - intros ->; auto.
  - intros ->; auto.
  - intros (g & -> & S) (h & -> & S2). exists h. split; [reflexivity|]. eapply same_store_trans; eauto.
Qed.
Lemma update_same : forall fuel g r acts ev r', p_update fuel g r = Ok (acts, ev, r') -> untouched r r'.
Proof.
  intros fuel g r acts ev r' E. apply update_cases in E. cbv zeta in E.
  destruct E as [(_ & _ & _ & ->)|(_ & _ & _ & _ & [(_ & _ & _ & ->)|(_ & frames & E & _)])]; try apply same_refl.
  unfold untouched. destruct (r_src r) as [|m o|f] eqn:S; [| |exact (read_store _ _ _ _ _ _ S E)].
  all: destruct (r_read_statics _ _ _ _ _ E) as [_ G]; rewrite S in G; inversion G; auto.
Qed.

Lemma no_yield : forall fuel w a q d v, ystate w a q d v -> 0 < d -> w_yield fuel w = Ok w.
Proof.
  intros fuel w a q d v [_ (_ & _ & B & _ & M)] D. unfold w_yield. rewrite (proj1 (M D)), mask_bits by lia. now rewrite andb_false_r.
Qed.

Local Transparent wop_run.
(* With responses disabled *)
Lemma quiet_wops : forall fuel l w a q v xs w', ystate w a q 1 v -> alive kinds_sd w -> wops fuel (bg_ops l) w = Ok (xs, w') ->
  (exists q', ystate w' a q' 1 v) /\ alive kinds_sd w' /\ forall i, r_playing (w_rd w' i) = r_playing (w_rd w i) /\ untouched (w_rd w i) (w_rd w' i).
Proof.
  intros fuel l. induction l as [|[[j g]|] l IH]; intros w a q v xs w' Y A E; cbn [bg_ops map wops] in E.
  - apply Ok_inj, pair_equal_spec in E. destruct E as [_ <-]. split; [eauto|]. split; [exact A|]. intros i. split; [reflexivity|apply same_refl].
  - apply bind_ok in E. destruct E as ([x w1] & E1 & E). apply bind_ok in E. destruct E as ([ys w2] & E2 & E). apply Ok_inj, pair_equal_spec in E. destruct E as [_ <-].
    pose proof (wop_alive kinds_sd fuel (WUpdate j g) _ _ _ A I E1) as A1. cbn [wop_run] in E1. apply bind_ok in E1. destruct E1 as ([acts w3] & E1 & E3).
    apply Ok_inj, pair_equal_spec in E3. destruct E3 as [_ ->]. destruct (ys_update _ _ _ _ _ _ _ _ _ _ Y E1) as (ev & r' & U & R & Y1).
    destruct (IH _ _ _ _ _ _ Y1 A1 E2) as (Y2 & A2 & S). split; [exact Y2|]. split; [exact A2|]. intros i. destruct (S i) as [S1 S2]. rewrite R in S1, S2.
    destruct (Nat.eqb_spec i j) as [Q|N]; [subst i|split; [exact S1|exact S2]].
    split; [rewrite S1; eapply update_no_new; exact U|eapply same_trans; [eapply update_same; exact U|exact S2]].
  - apply bind_ok in E. destruct E as ([x w1] & E1 & E). apply bind_ok in E. destruct E as ([ys w2] & E2 & E). apply Ok_inj, pair_equal_spec in E. destruct E as [_ <-].
    cbn [wop_run] in E1. rewrite (no_yield fuel w _ _ _ _ Y ltac:(lia)) in E1. cbn [bind] in E1. apply Ok_inj, pair_equal_spec in E1. destruct E1 as [_ <-]. eapply IH; eauto.
Qed.
Lemma bg_no_new : forall fuel l w xs w', wops fuel (bg_ops l) w = Ok (xs, w') -> no_new w w'.
Proof.
  intros fuel l. induction l as [|[[j g]|] l IH]; intros w xs w' E; cbn [bg_ops map wops] in E.
  - apply Ok_inj, pair_equal_spec in E. destruct E as [_ <-]. apply no_new_refl.
  - apply bind_ok in E. destruct E as ([x w1] & E1 & E). apply bind_ok in E. destruct E as ([ys w2] & E2 & E). apply Ok_inj, pair_equal_spec in E. destruct E as [_ <-].
    cbn [wop_run] in E1. apply bind_ok in E1. destruct E1 as ([acts w3] & E1 & E3). apply Ok_inj, pair_equal_spec in E3. destruct E3 as [_ ->].
    apply w_update_inv in E1. destruct E1 as (ev & r' & U & R & _). eapply no_new_trans; [|eapply IH; exact E2].
    intros i. rewrite R. destruct (Nat.eqb_spec i j) as [Q|N]; [subst i|auto]. now rewrite (update_no_new _ _ _ _ _ _ U).
  - apply bind_ok in E. destruct E as ([x w1] & E1 & E). apply bind_ok in E. destruct E as ([ys w2] & E2 & E). apply Ok_inj, pair_equal_spec in E. destruct E as [_ <-].
    cbn [wop_run] in E1. apply bind_ok in E1. destruct E1 as (w3 & E1 & E3). apply Ok_inj, pair_equal_spec in E3. destruct E3 as [_ ->].
    eapply no_new_trans; [|eapply IH; exact E2]. unfold w_yield in E1. destruct (Z.testbit _ 2); [|apply Ok_inj in E1; subst w1; apply no_new_refl].
    destruct (y_pop (w_sys w)) as [[[i st]|] sy]; [|apply Ok_inj in E1; subst w1; apply no_new_refl]. exact (event_no_new _ _ _ _ _ E1).
Qed.
Lemma stop_run : forall fuel i mid w, wop_run fuel (WStop i mid) w = ('(a, w') <- w_stop fuel i mid w ;; Ok (WoActs a, w')).
Proof. reflexivity. Qed.
Lemma stop_then : forall fuel mid l w xs w', wops fuel (WStop 0 mid :: bg_ops l) w = Ok (xs, w') -> r_playing (w_rd w' 0) = false.
Proof.
  intros fuel mid l w xs w' E. cbn [wops] in E. apply bind_ok in E. destruct E as ([x w1] & E1 & E). apply bind_ok in E. destruct E as ([ys w2] & E2 & E).
  apply Ok_inj, pair_equal_spec in E. destruct E as [_ <-]. rewrite stop_run in E1. apply bind_ok in E1. destruct E1 as ([acts w3] & E1 & E3). apply Ok_inj, pair_equal_spec in E3. destruct E3 as [_ ->].
  apply w_stop_inv in E1. destruct E1 as (w3 & _ & ->). destruct (r_playing (w_rd w2 0)) eqn:Q; [|reflexivity].
  apply (bg_no_new _ _ _ _ _ E2) in Q. rewrite rd_sys, rd_set in Q. cbn in Q. discriminate.
Qed.
Local Opaque wop_run.

Section Access.
Variable src : option file.

Lemma quiet_copy : forall fuel t s b s', ready (fa_world s) -> copy_update src fuel t s = Ok (b, s') ->
  ready (fa_world s') /\ (forall i, r_playing (w_rd (fa_world s') i) = r_playing (w_rd (fa_world s) i) /\ untouched (w_rd (fa_world s) i) (w_rd (fa_world s') i)) /\
  fa_rate s' = fa_rate s /\ fa_last s' = fa_last s /\
  exists d, copy_step src (fp_opens t) (fp_rnd t) (fa_copy s) = Ok (d, fa_copy s') /\ b = map (fun x => FCopied (fst x) (snd x)) d.
Proof.
  intros fuel t s b s' (a & q & v & [A Y T P]) E. unfold copy_update in E. cbv zeta in E.
  apply bind_ok in E. destruct E as ([d c] & EC & E). apply bind_ok in E. destruct E as ([xs w] & EW & E). apply Ok_inj, pair_equal_spec in E. destruct E as [<- <-].
  pose proof (ys_disable _ _ _ _ _ Y ltac:(lia)) as Y1.
  destruct (quiet_wops _ _ _ _ _ _ _ _ Y1 A EW) as ((q' & Y2) & A2 & S).
  split; [|split; [intros i; exact (S i)|repeat split; eauto]].
  exists a, q', v. constructor; [exact A2|apply (ys_enable _ _ _ 0 _ Y2); lia|exact T|].
  intros j K J. apply P; [exact K|]. exact (eq_trans (eq_sym (proj1 (S j))) J).
Qed.

Lemma ready_start : forall fuel t s a s', ready (fa_world s) -> access_start src fuel t s = Ok (a, s') -> ready (fa_world s') /\ fa_copy s' = fa_copy s /\
  ((a = [] /\ fa_rate s' = fa_rate s /\ fa_last s' = fa_last s) \/ exists xs, a = [FStart (fa_rate s') xs] /\ fa_rate s' = (if 3 <? fa_rate s + 1 then 0 else fa_rate s + 1)).
Proof.
  intros fuel t s a s' R E. unfold access_start in E. destruct (r_playing _).
  - apply Ok_inj, pair_equal_spec in E. destruct E as [<- <-]. auto 6.
  - cbv zeta in E. apply bind_ok in E. destruct E as (u & _ & E). apply bind_ok in E. destruct E as ([xs w] & EW & E). apply Ok_inj, pair_equal_spec in E. destruct E as [<- <-].
    split; [|split; [reflexivity|right; exists xs; split; reflexivity]]. cbn.
    eapply ready_wops; [exact R| | |exact EW];
      repeat (apply Forall_app; split); try apply bg_ok; (constructor; [exact I|constructor]).
Qed.
Lemma front_inv : forall fuel t s a s', ready (fa_world s) -> access_front src fuel t s = Ok (a, s') -> ready (fa_world s') /\ fa_copy s' = fa_copy s /\
  ((a = [] /\ fa_rate s' = fa_rate s /\ fa_last s' = fa_last s) \/ exists xs, a = [FStart (fa_rate s') xs] /\ fa_rate s' = (if 3 <? fa_rate s + 1 then 0 else fa_rate s + 1)).
Proof.
  intros fuel t s a s' R E. unfold access_front in E. apply bind_ok in E. destruct E as ([x0 w0] & E0 & E). cbv zeta in E.
  pose proof (ready_bg _ _ _ _ _ R E0) as R0. apply bind_ok in E. destruct E as ([x1 s1] & E1 & E).
  assert (H : ready (fa_world s1) /\ fa_copy s1 = fa_copy s /\
    ((x1 = [] /\ fa_rate s1 = fa_rate s /\ fa_last s1 = fa_last s) \/ exists xs, x1 = [FStart (fa_rate s1) xs] /\ fa_rate s1 = (if 3 <? fa_rate s + 1 then 0 else fa_rate s + 1))).
  { destruct (_ <? _) in E1; [exact (ready_start fuel t (s <| fa_world := w0 |>) x1 s1 R0 E1)|]. apply Ok_inj, pair_equal_spec in E1. destruct E1 as [<- <-]. auto 6. }
  destruct H as (R1 & C1 & H1). apply bind_ok in E. destruct E as ([x2 w2] & E2 & E). apply Ok_inj, pair_equal_spec in E. destruct E as [<- <-].
  split; [exact (ready_bg _ _ _ _ _ R1 E2)|]. split; [exact C1|exact H1].
Qed.

Lemma pass_inv : forall fuel t s a s', ready (fa_world s) -> access_pass src fuel t s = Ok (a, s') -> ready (fa_world s') /\
  (exists d, copy_step src (fp_opens t) (fp_rnd t) (fa_copy s) = Ok (d, fa_copy s') /\
    (exists x, a = x ++ map (fun x => FCopied (fst x) (snd x)) d /\
      ((x = [] /\ fa_rate s' = fa_rate s) \/ exists xs, x = [FStart (fa_rate s') xs] /\ fa_rate s' = (if 3 <? fa_rate s + 1 then 0 else fa_rate s + 1)))) /\
  (u32 (fa_last s' + 1900) < fp_now t -> r_playing (w_rd (fa_world s') 0) = false).
Proof.
  intros fuel t s a s' R E. unfold access_pass in E. apply bind_ok in E. destruct E as ([x1 s1] & E1 & E). apply bind_ok in E. destruct E as ([x2 s2] & E2 & E).
  apply bind_ok in E. destruct E as ([x3 w3] & E3 & E). apply Ok_inj, pair_equal_spec in E. destruct E as [<- <-].
  destruct (front_inv _ _ _ _ _ R E1) as (R1 & C1 & H1). destruct (quiet_copy _ _ _ _ _ R1 E2) as (R2 & _ & FR & FL & d & CS & ->).
  split; [|split].
  - cbn. eapply ready_wops; [exact R2| | |exact E3]; repeat (apply Forall_app; split); try apply bg_ok;
      try (constructor; [exact I|constructor]); (destruct (_ <? _); constructor; [exact I|constructor]).
  - exists d. rewrite <- C1. split; [exact CS|]. exists x1. split; [reflexivity|]. cbn. rewrite FR. destruct H1 as [(-> & Q & _)|H1]; auto.
  - intros L. cbn in L |- *. assert (B : (u32 (fa_last s2 + 1900) <? fp_now t) = true) by (apply Z.ltb_lt; exact L). rewrite B in E3.
    change [WYield] with (bg_ops [None]) in E3. unfold bg_ops in E3. rewrite <- map_app in E3. exact (stop_then _ _ _ _ _ _ E3).
Qed.

Lemma setup_inv : forall fuel flags s, 0 <= flags < 256 -> access_setup fuel flags = Ok s -> ready (fa_world s) /\ fa_rate s = 0 /\ fa_copy s = mkCopier CIdle 0 [] 0.
Proof.
  intros fuel flags s F E. unfold access_setup in E. apply bind_ok in E. destruct E as ([xs w] & E1 & E). apply Ok_inj in E. subst s. split; [|split; reflexivity]. cbn.
  eapply ready_wops; [| | |exact E1]; [eexists _, _, _; apply ymode0; exact F|repeat constructor..].
Qed.
Lemma ready_passes : forall fuel l s log s', ready (fa_world s) -> access_passes src fuel l s = Ok (log, s') -> ready (fa_world s').
Proof.
  intros fuel l. induction l as [|t l IH]; intros s log s' R E; cbn [access_passes] in E.
  - apply Ok_inj, pair_equal_spec in E. destruct E as [_ <-]. exact R.
  - apply bind_ok in E. destruct E as ([a s1] & E1 & E). apply bind_ok in E. destruct E as ([b s2] & E2 & E). apply Ok_inj, pair_equal_spec in E. destruct E as [_ <-].
    eapply IH; [|exact E2]. eapply pass_inv; eauto.
Qed.

(* C128 *)
Theorem no_reload_copying : forall fuel flags l log s t a s1 b s2, 0 <= flags < 256 -> file_access src fuel flags l = Ok (log, s) ->
  access_front src fuel t s = Ok (a, s1) -> copy_update src fuel t s1 = Ok (b, s2) -> forall i, untouched (w_rd (fa_world s1) i) (w_rd (fa_world s2) i).
Proof.
  intros fuel flags l log s t a s1 b s2 F E E1 E2 i. unfold file_access in E. apply bind_ok in E. destruct E as (s0 & E0 & E).
  destruct (setup_inv _ _ _ F E0) as (R0 & _). pose proof (ready_passes _ _ _ _ _ R0 E) as R. destruct (front_inv _ _ _ _ _ R E1) as (R1 & _).
  apply (quiet_copy _ _ _ _ _ R1 E2).
Qed.

(* C129 *)
Lemma copies_true : forall fuel l s log s', size_ok src -> Forall rnd_ok l -> ready (fa_world s) -> cinv src (fa_copy s) -> access_passes src fuel l s = Ok (log, s') ->
  Forall (true_copy src) log.
Proof.
  intros fuel l. induction l as [|t l IH]; intros s log s' S RO R C E; cbn [access_passes] in E.
  - apply Ok_inj, pair_equal_spec in E. destruct E as [<- _]. constructor.
  - apply bind_ok in E. destruct E as ([a s1] & E1 & E). apply bind_ok in E. destruct E as ([b s2] & E2 & E). apply Ok_inj, pair_equal_spec in E. destruct E as [<- _].
    apply Forall_cons_iff in RO. destruct RO as [RT RL]. destruct (pass_inv _ _ _ _ _ R E1) as (R1 & (d & CS & x & -> & X) & _).
    destruct (copy_inv src (fp_opens t) (fp_rnd t) _ S RT C) as (d2 & c2 & CS2 & C2 & T). rewrite CS in CS2. apply Ok_inj, pair_equal_spec in CS2. destruct CS2 as [<- <-].
    apply Forall_app. split; [apply Forall_app; split; [|exact T]|eapply IH; eauto].
    destruct X as [(-> & _)|(xs & -> & _)]; repeat constructor.
Qed.
Theorem copies_faithful : forall fuel flags l log s, 0 <= flags < 256 -> size_ok src -> Forall rnd_ok l -> file_access src fuel flags l = Ok (log, s) -> Forall (true_copy src) log.
Proof.
  intros fuel flags l log s F S RO E. unfold file_access in E. apply bind_ok in E. destruct E as (s0 & E0 & E).
  destruct (setup_inv _ _ _ F E0) as (R0 & _ & C0). eapply copies_true; [exact S|exact RO|exact R0| |exact E]. rewrite C0. exact I.
Qed.

(* C130 *)
Fixpoint turns (k : Z) (n : nat) : list Z := match n with O => [] | S m => (k + 1) mod 4 :: turns (k + 1) m end.
Lemma rate_next : forall k, (if 3 <? k mod 4 + 1 then 0 else k mod 4 + 1) = (k + 1) mod 4.
Proof.
  intros k. pose proof (Z.mod_pos_bound k 4 ltac:(lia)) as B. rewrite <- (Z.add_mod_idemp_l k 1 4) by lia. generalize dependent (k mod 4). intros m B.
  destruct (Z.ltb_spec 3 (m + 1)) as [L|L]; [|rewrite Z.mod_small; lia]. replace (m + 1) with 4 by lia. reflexivity.
Qed.
Lemma starts_app : forall a b, start_rates (a ++ b) = start_rates a ++ start_rates b.
Proof. intros a b. unfold start_rates. apply flat_map_app. Qed.
Lemma starts_copies : forall d, start_rates (map (fun x : list Z * Z => FCopied (fst x) (snd x)) d) = [].
Proof. induction d; cbn; auto. Qed.
Lemma turns_passes : forall fuel l k s log s', ready (fa_world s) -> fa_rate s = k mod 4 -> access_passes src fuel l s = Ok (log, s') ->
  exists n, start_rates log = turns k n.
Proof.
  intros fuel l. induction l as [|t l IH]; intros k s log s' R K E; cbn [access_passes] in E.
  - apply Ok_inj, pair_equal_spec in E. destruct E as [<- _]. exists O. reflexivity.
  - apply bind_ok in E. destruct E as ([a s1] & E1 & E). apply bind_ok in E. destruct E as ([b s2] & E2 & E). apply Ok_inj, pair_equal_spec in E. destruct E as [<- _].
    destruct (pass_inv _ _ _ _ _ R E1) as (R1 & (d & CS & x & -> & X) & _). rewrite !starts_app, starts_copies, app_nil_r.
    destruct X as [(-> & Q)|(xs & -> & Q)].
    + destruct (IH k _ _ _ R1 ltac:(congruence) E2) as (n & N). exists n. exact N.
    + rewrite K, rate_next in Q. destruct (IH (k + 1) _ _ _ R1 Q E2) as (n & N). exists (S n). cbn [start_rates flat_map app turns]. now rewrite Q, N.
Qed.
Lemma turns_nth : forall n k i, (i < n)%nat -> nth_error (turns k n) i = Some ((k + Z.of_nat i + 1) mod 4).
Proof.
  induction n as [|n IH]; intros k i L; [lia|]. destruct i as [|i]; cbn [turns nth_error].
  - replace (k + Z.of_nat 0 + 1) with (k + 1) by lia. reflexivity.
  - rewrite IH by lia. replace (k + 1 + Z.of_nat i + 1) with (k + Z.of_nat (S i) + 1) by lia. reflexivity.
Qed.
Lemma turns_len : forall n k, length (turns k n) = n.
Proof. induction n; intros k; cbn; auto. Qed.
Theorem rates_in_turn : forall fuel flags l log s i k, 0 <= flags < 256 -> file_access src fuel flags l = Ok (log, s) ->
  nth_error (start_rates log) i = Some k -> k = (Z.of_nat i + 1) mod 4.
Proof.
  intros fuel flags l log s i k F E N. unfold file_access in E. apply bind_ok in E. destruct E as (s0 & E0 & E).
  destruct (setup_inv _ _ _ F E0) as (R0 & K0 & _). destruct (turns_passes _ _ 0 _ _ _ R0 K0 E) as (n & T). rewrite T in N.
  assert (L : (i < n)%nat). { pose proof (proj1 (nth_error_Some (turns 0 n) i) ltac:(congruence)) as L. now rewrite turns_len in L. }
  rewrite turns_nth in N by exact L. injection N as <-. reflexivity.
Qed.
Theorem stops_late : forall fuel flags l log s t a s', 0 <= flags < 256 -> file_access src fuel flags l = Ok (log, s) -> access_pass src fuel t s = Ok (a, s') ->
  u32 (fa_last s' + 1900) < fp_now t -> r_playing (w_rd (fa_world s') 0) = false.
Proof.
  intros fuel flags l log s t a s' F E E1. unfold file_access in E. apply bind_ok in E. destruct E as (s0 & E0 & E).
  destruct (setup_inv _ _ _ F E0) as (R0 & _). pose proof (ready_passes _ _ _ _ _ R0 E) as R. apply (pass_inv _ _ _ _ _ R E1).
Qed.
End Access.

(* The copies keep coming *)
Lemma copies_come : forall fl fuel l s log s', 0 <= fsize fl < 2 ^ 31 -> Forall rnd_ok l -> Forall (fun t => fp_opens t = true) l -> ready (fa_world s) -> cinv (Some fl) (fa_copy s) ->
  cp_state (fa_copy s) <> CError -> access_passes (Some fl) fuel l s = Ok (log, s') -> copy_left (Some fl) (fa_copy s) <= Z.of_nat (length l) -> exists dst n, In (FCopied dst n) log.
Proof.
  intros fl fuel l. induction l as [|t l IH]; intros s log s' S RO OP R C NE E L; cbn [access_passes] in E.
  - assert (0 < copy_left (Some fl) (fa_copy s)); [|cbn [length] in L; lia]. unfold copy_left. unfold cinv in C. destruct (cp_state (fa_copy s)); try lia.
    + assert (0 <= fsize fl / 100) by (apply Z.div_pos; lia). lia.
    + destruct C as (fl' & Q & P & _). injection Q as <-. assert (0 <= (fsize fl - cp_pos (fa_copy s)) / 100) by (apply Z.div_pos; lia). lia.
  - apply bind_ok in E. destruct E as ([a s1] & E1 & E). apply bind_ok in E. destruct E as ([b s2] & E2 & E). apply Ok_inj, pair_equal_spec in E. destruct E as [<- _].
    apply Forall_cons_iff in RO, OP. destruct RO as [RT RL], OP as [OT OL]. destruct (pass_inv _ _ _ _ _ _ R E1) as (R1 & (d & CS & x & -> & X) & _). rewrite OT in CS.
    destruct (copy_inv (Some fl) true (fp_rnd t) _ S RT C) as (d2 & c2 & CS2 & C2 & T). rewrite CS in CS2. apply Ok_inj, pair_equal_spec in CS2. destruct CS2 as [<- <-].
    destruct (copy_progress _ _ _ _ _ S RT C NE CS) as [D|[NE2 LE]].
    + destruct d as [|[dst n] d]; [congruence|]. exists dst, n. apply in_or_app. left. apply in_or_app. right. left. reflexivity.
    + destruct (IH _ _ _ S RL OL R1 C2 NE2 E2) as (dst & n & IN); [cbn [length] in L; lia|]. exists dst, n. apply in_or_app. right. exact IN.
Qed.
Theorem copies_finish : forall fl fuel flags l log s, 0 <= flags < 256 -> 0 <= fsize fl < 2 ^ 31 -> Forall rnd_ok l -> Forall (fun t => fp_opens t = true) l ->
  fsize fl / 100 + 3 <= Z.of_nat (length l) -> file_access (Some fl) fuel flags l = Ok (log, s) -> exists dst n, In (FCopied dst n) log.
Proof.
  intros fl fuel flags l log s F S RO OP L E. unfold file_access in E. apply bind_ok in E. destruct E as (s0 & E0 & E).
  destruct (setup_inv _ _ _ F E0) as (R0 & _ & C0). eapply copies_come; [exact S|exact RO|exact OP|exact R0| | |exact E|]; rewrite C0; [exact I|discriminate|exact L].
Qed.
