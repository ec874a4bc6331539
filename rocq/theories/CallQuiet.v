(* Calls that begin with stop(): the updates that interrupt them after that do nothing. *)

From Coq Require Import ZArith Lia List Bool.
From RecordUpdate Require Import RecordUpdate.
From Flocq Require Import IEEE754.BinarySingleNaN.
From Verif Require Import Machine Floats WavModel InterpModel CacheModel CacheFacts ReaderModel ReaderFacts PlayerModel CallModel CallSpec CallProofs CallTweak CallAtomic.
Import ListNotations.
Local Open Scope Z_scope.

(* every step of the call is related by P *)
Fixpoint all_steps (P : reader -> reader -> Prop) (p : prog) : Prop :=
  match p with Done _ => True | Step g k => forall r r', g r = Ok r' -> P r r' /\ all_steps P (k r') end.
(* nothing plays before the last step *)
Fixpoint hushed (p : prog) : Prop :=
  match p with Done _ => True | Step g k => forall r r', g r = Ok r' ->
    (r_playing r = false -> r_playing r' = false \/ exists b, k r' = Done b) /\ hushed (k r') end.
Definition still (r r' : reader) : Prop := r_playing r = false -> r_playing r' = false.
Definition steady (r r' : reader) : Prop := r_nch r' = r_nch r.
(* the number of channels changes at most once *)
Fixpoint once (p : prog) : Prop :=
  match p with Done _ => True | Step g k => forall r r', g r = Ok r' -> (r_nch r' = r_nch r /\ once (k r')) \/ all_steps steady (k r') end.

Lemma steady_run : forall p r b r', all_steps steady p -> prog_run p r = Ok (b, r') -> r_nch r' = r_nch r.
Proof.
  induction p as [b0|g k IH]; intros r b r' S H; cbn [prog_run] in H.
  - apply Ok_inj, pair_equal_spec in H. now destruct H as [_ <-].
  - apply bind_ok in H. destruct H as (r1 & E & H). destruct (S _ _ E) as [S1 S2]. rewrite (IH _ _ _ _ S2 H). exact S1.
Qed.
Lemma still_updates : forall fuel l r, r_playing r = false -> -1 <= r_nch r -> updates fuel l r = Ok (map (fun _ => nothing) l, r).
Proof.
  intros fuel. induction l as [|a l IH]; intros r P N; [reflexivity|]. cbn [updates map]. unfold p_update. rewrite P. cbn [negb].
  destruct (Z.eqb_spec (r_nch r) (-1)); cbn [bind]; [now rewrite IH|]. destruct (Z.ltb_spec (r_nch r) 0); [lia|]. cbn [bind]. now rewrite IH.
Qed.

Lemma hushed_mid : forall p r b r2, hushed p -> once p -> r_playing r = false -> prog_run p r = Ok (b, r2) -> -1 <= r_nch r -> -1 <= r_nch r2 ->
  forall fuel mids, exists l2 l3, concat mids = l2 ++ l3 /\
    interrupted fuel p mids r = '(o3, r3) <- updates fuel l3 r2 ;; Ok (map (fun _ => nothing) l2 ++ o3, b, r3).
Proof.
  assert (G : forall p r b r2, hushed p -> (once p \/ all_steps steady p) -> r_playing r = false -> prog_run p r = Ok (b, r2) -> -1 <= r_nch r -> -1 <= r_nch r2 ->
    forall fuel mids, exists l2 l3, concat mids = l2 ++ l3 /\
      interrupted fuel p mids r = '(o3, r3) <- updates fuel l3 r2 ;; Ok (map (fun _ => nothing) l2 ++ o3, b, r3)).
  2: { intros p r b r2 H O P R N N2. apply G; auto. }
  induction p as [b0|g k IH]; intros r b r2 H O P R N N2 fuel mids; cbn [prog_run] in R.
  - apply Ok_inj, pair_equal_spec in R. destruct R as [-> ->]. exists [], (concat mids). split; reflexivity.
  - apply bind_ok in R. destruct R as (r1 & E & R). destruct (H _ _ E) as [H1 H2]. cbn [interrupted]. rewrite still_updates by assumption. cbn [bind]. rewrite E. cbn [bind].
    assert (O' : (once (k r1) \/ all_steps steady (k r1)) /\ -1 <= r_nch r1).
    { destruct O as [O|O].
      - destruct (O _ _ E) as [[O1 O2]|O2]; [split; [now left|lia]|]. split; [now right|]. rewrite <- (steady_run _ _ _ _ O2 R). exact N2.
      - destruct (O _ _ E) as [O1 O2]. split; [now right|]. unfold steady in O1. lia. }
    destruct O' as [O1 N1]. destruct (H1 P) as [P1|[b1 D]].
    + destruct (IH r1 r1 b r2 H2 O1 P1 R N1 N2 fuel (tl mids)) as (l2 & l3 & C & I). exists (hd [] mids ++ l2), l3.
      split; [now rewrite concat_hd, C, app_assoc|]. rewrite I. destruct (updates _ _ _) as [[o3 r3]|u|]; cbn [bind]; try reflexivity. now rewrite map_app, app_assoc.
    + rewrite D in R |- *. cbn [prog_run] in R. apply Ok_inj, pair_equal_spec in R. destruct R as [-> ->]. exists (hd [] mids), (concat (tl mids)).
      split; [apply concat_hd|]. rewrite done_mid. destruct (updates _ _ _) as [[o3 r3]|u|]; reflexivity.
Qed.

(* with stop() before it *)
Definition halts (p q : prog) (r : reader) : Prop := forall fuel mids, exists l1 mids', concat mids = l1 ++ concat mids' /\
  interrupted fuel p mids r =
  '(o1, r1) <- updates fuel l1 r ;; '(o', b, r3) <- interrupted fuel q mids' (r_stop r1) ;; Ok (o1 ++ o', b, r3).
Lemma stop_mid : forall q r, halts (pseq stop_steps q) q r.
Proof.
  intros q r fuel mids. cbn [pseq stop_steps look interrupted]. destruct (r_playing r) eqn:P.
  - exists (hd [] mids ++ hd [] (tl mids)), (tl (tl mids)). split; [rewrite <- app_assoc, <- concat_hd; apply concat_hd|]. rewrite updates_app.
    destruct (updates fuel (hd [] mids) r) as [[o r1]|u|] eqn:U; cbn [bind]; try reflexivity. apply updates_statics in U. apply statics_playing in U. rewrite <- U, P.
    cbn [pseq write interrupted bind]. destruct (updates fuel (hd [] (tl mids)) r1) as [[o2 r2]|u|]; cbn [bind]; try reflexivity.
    destruct (interrupted _ _ _ _) as [[[o' b] r3]|u|]; cbn [bind]; try reflexivity. now rewrite app_assoc.
  - exists (hd [] mids), (tl mids). split; [apply concat_hd|]. destruct (updates fuel (hd [] mids) r) as [[o r1]|u|] eqn:U; cbn [bind]; try reflexivity.
    apply updates_statics in U. apply statics_playing in U. rewrite <- U, P. cbn [pseq].
    replace (r_stop r1) with r1; [reflexivity|]. rewrite P in U. unfold r_stop. destruct r1; cbn in *. now rewrite <- U.
Qed.
Lemma stop_only : forall r, halts stop_steps (Done true) r.
Proof.
  intros r fuel mids. cbn [stop_steps look interrupted]. destruct (r_playing r) eqn:P.
  - exists (hd [] mids ++ hd [] (tl mids)), (tl (tl mids)). split; [rewrite <- app_assoc, <- concat_hd; apply concat_hd|]. rewrite updates_app.
    destruct (updates fuel (hd [] mids) r) as [[o r1]|u|] eqn:U; cbn [bind]; try reflexivity. apply updates_statics in U. apply statics_playing in U. rewrite <- U, P.
    cbn [write interrupted bind]. destruct (updates fuel (hd [] (tl mids)) r1) as [[o2 r2]|u|]; cbn [bind]; try reflexivity.
    destruct (updates _ (concat _) _) as [[o3 r3]|u|]; cbn [bind]; try reflexivity. now rewrite app_assoc.
  - exists (hd [] mids), (tl mids). split; [apply concat_hd|]. destruct (updates fuel (hd [] mids) r) as [[o r1]|u|] eqn:U; cbn [bind]; try reflexivity.
    apply updates_statics in U. apply statics_playing in U. rewrite <- U, P.
    replace (r_stop r1) with r1; [reflexivity|]. rewrite P in U. unfold r_stop. destruct r1; cbn in *. now rewrite <- U.
Qed.
Lemma write_stop : forall q r, halts (write r_stop q) q r.
Proof. intros q r fuel mids. exists (hd [] mids), (tl mids). split; [apply concat_hd|apply write_mid]. Qed.
Lemma stops_first_gen : forall p q call r, halts p q r -> hushed q -> once q -> (forall r1, same_statics r r1 -> call r1 = prog_run q (r_stop r1)) ->
  stops_first p call r.
Proof.
  intros p q call r HH H O C fuel mids. destruct (HH fuel mids) as (l1 & mids' & E & I).
  destruct (updates fuel l1 r) as [[o1 r1]|u|] eqn:U; cbn [bind] in I.
  2,3: exists l1, [], (concat mids'); split; [exact E|]; intros ? ? ? ? U'; rewrite U in U'; discriminate.
  pose proof (updates_statics _ _ _ _ _ U) as S. pose proof (C r1 S) as Q. pose proof (statics_nch _ _ S) as N.
  destruct (prog_run q (r_stop r1)) as [[b r2]|u|] eqn:R.
  2,3: exists l1, [], (concat mids'); split; [exact E|]; intros o1' r1' b' r2' U' R'; rewrite U in U'; apply Ok_inj, pair_equal_spec in U'; destruct U' as [_ <-]; rewrite Q in R'; discriminate.
  destruct (Z_le_gt_dec (-1) (r_nch r)) as [N1|N1].
  2: { exists l1, [], (concat mids'); split; [exact E|]. intros. lia. }
  destruct (Z_le_gt_dec (-1) (r_nch r2)) as [N2|N2].
  2: { exists l1, [], (concat mids'); split; [exact E|]. intros o1' r1' b' r2' U' R'. rewrite U in U'. apply Ok_inj, pair_equal_spec in U'. destruct U' as [_ <-]. rewrite Q in R'.
       apply Ok_inj, pair_equal_spec in R'. destruct R' as [_ <-]. lia. }
  assert (N1' : -1 <= r_nch (r_stop r1)) by (change (r_nch (r_stop r1)) with (r_nch r1); lia).
  destruct (hushed_mid q (r_stop r1) b r2 H O eq_refl R N1' N2 fuel mids') as (l2 & l3 & E2 & I2). exists l1, l2, l3. split; [now rewrite E, E2|].
  intros o1' r1' b' r2' U' R' _ _. rewrite U in U'. apply Ok_inj, pair_equal_spec in U'. destruct U' as [<- <-]. rewrite Q in R'.
  apply Ok_inj, pair_equal_spec in R'. destruct R' as [<- <-]. rewrite I, I2. destruct (updates fuel l3 r2) as [[o3 r3]|u|]; reflexivity.
Qed.

(* ------------------------------------------------------------------ *)
(* The programs                                                        *)

Lemma all_pseq : forall P p q, all_steps P p -> all_steps P q -> all_steps P (pseq p q).
Proof. induction p as [b|g k IH]; intros q A B; [exact B|]. intros r r' E. destruct (A _ _ E). split; auto. Qed.
Lemma all_write : forall (P : reader -> reader -> Prop) g k, (forall r, P r (g r)) -> all_steps P k -> all_steps P (write g k).
Proof. intros P g k A B r r' E. apply Ok_inj in E. subst. split; auto. Qed.
Lemma all_look : forall (P : reader -> reader -> Prop) k, (forall r, P r r) -> (forall r, all_steps P (k r)) -> all_steps P (look k).
Proof. intros P k A B r r' E. apply Ok_inj in E. subst. split; auto. Qed.
Lemma all_local : forall P A (x : res A) k, (forall a, all_steps P (k a)) -> all_steps P (local x k).
Proof. intros P A [a|u|] k H; cbn [local]; auto; intros r r' E; discriminate. Qed.
Lemma hushed_all : forall p, all_steps still p -> hushed p.
Proof. induction p as [b|g k IH]; intros A; [exact I|]. intros r r' E. destruct (A _ _ E) as [A1 A2]. split; [intros P; left; now apply A1|auto]. Qed.
Lemma hushed_pseq : forall p q, all_steps still p -> hushed q -> hushed (pseq p q).
Proof. induction p as [b|g k IH]; intros q A B; [exact B|]. intros r r' E. destruct (A _ _ E) as [A1 A2]. split; [intros P; left; now apply A1|auto]. Qed.
Lemma hushed_step : forall g k, (forall r r', g r = Ok r' -> still r r') -> (forall r, hushed (k r)) -> hushed (Step g k).
Proof. intros g k A B r r' E. split; [intros P; left; now apply (A _ _ E)|auto]. Qed.
Lemma hushed_write : forall g k, (forall r, still r (g r)) -> hushed k -> hushed (write g k).
Proof. intros g k A B. apply hushed_step; auto. intros r r' E. apply Ok_inj in E. subst. apply A. Qed.
Lemma hushed_look : forall k, (forall r, hushed (k r)) -> hushed (look k).
Proof. intros k B. apply hushed_step; auto. intros r r' E. apply Ok_inj in E. subst. now intros P. Qed.
Lemma hushed_local : forall A (x : res A) k, (forall a, hushed (k a)) -> hushed (local x k).
Proof. intros A [a|u|] k H; cbn [local]; auto; intros r r' E; discriminate. Qed.
Lemma hushed_go : hushed go.
Proof. intros r r' E. split; [intros _; right; now exists true|exact I]. Qed.
Lemma once_steady : forall p, all_steps steady p -> once p.
Proof. destruct p as [b|g k]; intros A; [exact I|]. intros r r' E. right. now destruct (A _ _ E). Qed.
Lemma once_pseq : forall p q, all_steps steady p -> once q -> once (pseq p q).
Proof. induction p as [b|g k IH]; intros q A B; [exact B|]. intros r r' E. destruct (A _ _ E) as [A1 A2]. left. split; auto. Qed.
Lemma once_write : forall g k, (forall r, steady r (g r)) -> once k -> once (write g k).
Proof. intros g k A B r r' E. apply Ok_inj in E. subst. left. split; [apply A|exact B]. Qed.
Lemma once_change : forall g k, all_steps steady k -> once (write g k).
Proof. intros g k A r r' E. now right. Qed.
Lemma once_local : forall A (x : res A) k, (forall a, once (k a)) -> once (local x k).
Proof. intros A [a|u|] k H; cbn [local]; auto; intros r r' E; discriminate. Qed.

Lemma still_stop : all_steps still stop_steps.
Proof. apply all_look; [now intros r P|]. intros r. destruct (r_playing r); [|exact I]. apply all_write; [now intros x P|exact I]. Qed.
Lemma steady_stop : all_steps steady stop_steps.
Proof. apply all_look; [intros ?; exact eq_refl|]. intros r. destruct (r_playing r); [|exact I]. apply all_write; [intros ?; exact eq_refl|exact I]. Qed.
Lemma still_drops : all_steps still (write drop_src (write drop_fname (Done true))).
Proof.
  apply all_write; [|apply all_write; [|exact I]]; intros r P; unfold drop_src, drop_fname; destruct (r_kind r); exact P.
Qed.
Lemma steady_drops : all_steps steady (write drop_src (write drop_fname (Done true))).
Proof.
  apply all_write; [|apply all_write; [|exact I]]; intros r; unfold drop_src, drop_fname, steady; destruct (r_kind r); reflexivity.
Qed.

Lemma reset_pos_inv : forall r r', reset_pos r = Ok r' -> still r r' /\ steady r r'.
Proof.
  intros r r' E. unfold reset_pos in E. apply bind_ok in E. destruct E as (p & _ & E). apply Ok_inj in E. subst. split; [now intros P|exact eq_refl].
Qed.
Lemma hushed_reset : forall k, hushed k -> hushed (reset_steps k).
Proof.
  intros k H. unfold reset_steps. apply hushed_write; [now intros r P|]. apply hushed_step; [intros r r' E; now apply reset_pos_inv in E|]. intros _.
  apply hushed_write; [now intros r P|]. apply hushed_write; [now intros r P|exact H].
Qed.
Lemma steady_reset : forall k, all_steps steady k -> all_steps steady (reset_steps k).
Proof.
  intros k H. unfold reset_steps. apply all_write; [intros ?; exact eq_refl|]. intros r r' E. split; [now apply reset_pos_inv in E|].
  apply all_write; [intros ?; exact eq_refl|]. apply all_write; [intros ?; exact eq_refl|exact H].
Qed.
Lemma steady_go : all_steps steady go.
Proof. apply all_write; [intros ?; exact eq_refl|exact I]. Qed.

Lemma hushed_raw : forall m off len nch, hushed (raw_steps m off len nch).
Proof.
  intros. unfold raw_steps. apply hushed_write; [now intros r P|]. apply hushed_pseq; [apply still_stop|].
  do 6 (apply hushed_write; [now intros r P|]). apply hushed_reset, hushed_go.
Qed.
Lemma once_raw : forall m off len nch, once (raw_steps m off len nch).
Proof.
  intros. unfold raw_steps. apply once_write; [intros ?; exact eq_refl|]. apply once_pseq; [apply steady_stop|].
  do 5 (apply once_write; [intros ?; exact eq_refl|]). apply once_change, steady_reset, steady_go.
Qed.
Lemma hushed_wav : forall m, hushed (wav_steps m).
Proof.
  intros m. unfold wav_steps. cbv zeta. apply hushed_local. intros [ok h]. destruct (negb ok); [exact I|]. apply hushed_local. intros [n|]; [|exact I].
  apply hushed_local. intros [db|]; [|exact I]. destruct (_ =? 0); [apply (hushed_local unit); intros; exact I|apply hushed_raw].
Qed.
Lemma once_wav : forall m, once (wav_steps m).
Proof.
  intros m. unfold wav_steps. cbv zeta. apply once_local. intros [ok h]. destruct (negb ok); [exact I|]. apply once_local. intros [n|]; [|exact I].
  apply once_local. intros [db|]; [|exact I]. destruct (_ =? 0); [apply (once_local unit); intros; exact I|apply once_raw].
Qed.
Lemma copy_loop_still : forall r, still r (copy_loop r) /\ steady r (copy_loop r).
Proof.
  intros r. assert (E : r_playing (copy_loop r) = r_playing r /\ r_nch (copy_loop r) = r_nch r).
  { unfold copy_loop, setLoopFinish, setLoopStart, setLoopType. cbv zeta.
    destruct r as [? ? ? ? ? ? ? ? ? ? ? ? ? ? ? ? ? ? ? ? ? sr ? ? ? ?]. destruct sr; cbn; split; reflexivity. }
  split; [intros P; now rewrite (proj1 E)|exact (proj2 E)].
Qed.
Lemma preload_inv : forall r r', CallModel.preload_step r = Ok r' -> still r r' /\ steady r r'.
Proof.
  intros r r' E. unfold CallModel.preload_step in E. destruct (r_src r); try discriminate. apply bind_ok in E. destruct E as ([x g] & _ & E). apply Ok_inj in E. subst. split; [now intros P|exact eq_refl].
Qed.
Lemma hushed_open : forall f p g, hushed (open_steps f p g).
Proof.
  intros. unfold open_steps. apply hushed_look. intros r. destruct (_ <=? _).
  - apply hushed_write; [now intros x P|]. apply hushed_write; [now intros x P|exact I].
  - apply hushed_step. { intros x x' E. apply bind_ok in E. destruct E as (y & _ & E). apply Ok_inj in E. subst. now intros P. }
    intros _. apply hushed_write; [intros x P; destruct (r_loop x); exact P|]. apply hushed_write; [intros x P; destruct (r_loop x); exact P|].
    apply hushed_write; [now intros x P|]. apply hushed_write; [intros x; apply copy_loop_still|]. apply hushed_reset, hushed_step; [intros x x' E; now apply preload_inv in E|intros; apply hushed_go].
Qed.
Lemma steady_open : forall f p g, all_steps steady (open_steps f p g).
Proof.
  intros. unfold open_steps. apply all_look; [intros ?; exact eq_refl|]. intros r. destruct (_ <=? _).
  - apply all_write; [intros ?; exact eq_refl|]. apply all_write; [intros ?; exact eq_refl|exact I].
  - intros x x' E. split. { apply bind_ok in E. destruct E as (y & _ & E). apply Ok_inj in E. subst. exact eq_refl. }
    apply all_write; [intros y; unfold steady; destruct (r_loop y); exact eq_refl|]. apply all_write; [intros y; unfold steady; destruct (r_loop y); exact eq_refl|].
    apply all_write; [intros ?; exact eq_refl|]. apply all_write; [intros y; apply copy_loop_still|]. apply steady_reset. intros y y' E2. split; [now apply preload_inv in E2|apply steady_go].
Qed.
Lemma hushed_header : forall keep f st k, (forall p, hushed (k p)) -> hushed (header_steps keep f st k).
Proof.
  intros keep f st k H. unfold header_steps. cbv zeta. apply hushed_local. intros [ok h]. destruct (negb _); [exact I|]. apply hushed_write; [now intros r P|].
  apply hushed_local. intros [n|]; [|exact I]. apply hushed_local. intros [db|]; [|exact I]. apply hushed_write; [now intros r P|]. apply hushed_write; [now intros r P|apply H].
Qed.
Lemma once_header : forall keep f st k, (forall p, all_steps steady (k p)) -> once (header_steps keep f st k).
Proof.
  intros keep f st k H. unfold header_steps. cbv zeta. apply once_local. intros [ok h]. destruct (negb _); [exact I|]. apply once_change.
  apply all_local. intros [n|]; [|exact I]. apply all_local. intros [db|]; [|exact I]. apply all_write; [intros ?; exact eq_refl|]. apply all_write; [intros ?; exact eq_refl|apply H].
Qed.
Lemma still_close : all_steps still close_steps.
Proof. apply all_pseq; [apply still_stop|apply still_drops]. Qed.
Lemma steady_close : all_steps steady close_steps.
Proof. apply all_pseq; [apply steady_stop|apply steady_drops]. Qed.
Lemma hushed_file : forall k c fo w n st g, hushed (file_steps k c fo w n st g).
Proof.
  intros. unfold file_steps. apply hushed_pseq; [apply still_close|].
  assert (T : hushed (write (fun r => r <| r_fname := true |> <| r_live := r_live r + 1 |>)
    match (match k with KArray => None | _ => fo end) with
    | None => write drop_name (Done false)
    | Some f => write (fun r => r <| r_fsize := s32 (fsize f) |>)
        (if w then header_steps (c_keep c) f st (fun p => open_steps f p g)
         else write (fun r => r <| r_fsamples := Z.quot (r_fsize r) 2 |>) (open_steps f 0 g))
    end)).
  { apply hushed_write; [now intros r P|]. destruct (match k with KArray => None | _ => fo end) as [f|]; [|apply hushed_write; [now intros r P|exact I]].
    apply hushed_write; [now intros r P|]. destruct w; [apply hushed_header; intros; apply hushed_open|]. apply hushed_write; [now intros r P|apply hushed_open]. }
  destruct w; [exact T|]. apply hushed_write; [now intros r P|exact T].
Qed.
Lemma once_file : forall k c fo w n st g, once (file_steps k c fo w n st g).
Proof.
  intros. unfold file_steps. apply once_pseq; [apply steady_close|]. destruct w.
  - apply once_write; [intros ?; exact eq_refl|]. destruct (match k with KArray => None | _ => fo end) as [f|]; [|apply once_write; [intros ?; exact eq_refl|exact I]].
    apply once_write; [intros ?; exact eq_refl|]. apply once_header. intros. apply steady_open.
  - apply once_change. apply all_write; [intros ?; exact eq_refl|]. destruct (match k with KArray => None | _ => fo end) as [f|]; [|apply all_write; [intros ?; exact eq_refl|exact I]].
    apply all_write; [intros ?; exact eq_refl|]. apply all_write; [intros ?; exact eq_refl|apply steady_open].
Qed.

Lemma starter_stops_first : forall k c s r, r_kind r = k -> r_cfg r = c -> stops_first (starter_steps k c s) (starter_run s) r.
Proof.
  intros k c s r K C.
  assert (RUN : forall r1, same_statics r r1 -> starter_run s r1 = prog_run (starter_steps k c s) r1).
  { intros r1 S. symmetry. apply starter_steps_run; [rewrite <- K; symmetry; now apply statics_kind|]. rewrite <- C. destruct S as [S _]. now apply (f_equal r_cfg) in S. }
  assert (R2 : forall q, starter_steps k c s = pseq stop_steps q -> forall r1, same_statics r r1 -> starter_run s r1 = prog_run q (r_stop r1)).
  { intros q E r1 S. rewrite RUN, E, pseq_run, stop_steps_run by assumption. reflexivity. }
  destruct s; cbn [starter_steps] in *.
  - eapply stops_first_gen; [apply stop_mid|apply hushed_file|apply once_file|now apply R2].
  - eapply stops_first_gen; [apply stop_mid|apply hushed_raw|apply once_raw|now apply R2].
  - eapply stops_first_gen; [apply stop_mid|apply hushed_raw|apply once_raw|now apply R2].
  - eapply stops_first_gen; [apply stop_mid|apply hushed_wav|apply once_wav|now apply R2].
  - eapply stops_first_gen; [apply stop_mid|apply hushed_reset, hushed_go|apply once_steady, steady_reset, steady_go|now apply R2].
  - eapply stops_first_gen; [apply write_stop| | |].
    + apply hushed_write; [now intros x P|]. apply hushed_write; [now intros x P|]. apply hushed_write; [now intros x P|exact I].
    + apply once_steady. apply all_write; [intros ?; exact eq_refl|]. apply all_write; [intros ?; exact eq_refl|]. apply all_write; [intros ?; exact eq_refl|exact I].
    + intros r1 S. reflexivity.
  - eapply stops_first_gen; [apply stop_only|exact I|exact I|]. intros r1 S. reflexivity.
  - eapply stops_first_gen; [apply stop_mid|apply hushed_all, still_drops|apply once_steady, steady_drops|now apply R2].
Qed.
