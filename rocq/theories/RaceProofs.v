(* Fetches during an interrupted reload (RaceModel.v) *)

From Coq Require Import ZArith Lia List Bool.
From RecordUpdate Require Import RecordUpdate.
From Flocq Require Import IEEE754.BinarySingleNaN.
From Verif Require Import Machine Floats WavModel CacheModel CacheFacts CacheSpec CacheProofs CacheFinal RaceModel.
Import ListNotations.
Local Open Scope Z_scope.

(* ---- the uninterrupted machine is triggerReload ---------------------------- *)

Lemma irun_trans : forall x pbr t u s, irun x pbr t u -> irun x pbr s t -> irun x pbr s u.
Proof.
  intros x pbr t u s H. induction H as [a|a b d H IH ST|a pc f i H IH]; intros G.
  - exact G.
  - eapply ir_step; [exact (IH G)|exact ST].
  - apply ir_fetch. exact (IH G).
Qed.

Lemma sets_eq : forall f l1 l2 l3 l4 p,
  set_bufs (set_bufs (set_bufs (set_pos (set_bufs f l1) p) l2) l3) l4 = f <| i_bufs := l4 |> <| i_pos := p |>.
Proof. intros [] *. reflexivity. Qed.

Lemma loadBuffer_eq : forall f b i,
  loadBuffer f b i = (mkBuf (u32 (blk (i_cfg f) i)) (s16 (load_len f i)) StLoaded (load_bytes f i (b_data b)), load_pos f i, load_len f i).
Proof. reflexivity. Qed.

Lemma load_runs : forall x pbr f b0 rest i act, i_bufs f = b0 :: rest -> forall d n p ix,
  load_bytes f i (b_data b0) = d -> load_len f i = n -> load_pos f i = p -> u32 (blk (i_cfg f) i) = ix ->
  irun x pbr (AtRead i act (b_data b0), f)
    (AtShuffle act, f <| i_bufs := mkBuf ix (s16 n) StLoaded d :: rest |> <| i_pos := p |>).
Proof.
  intros x pbr f b0 rest i act B d n p ix Ed En Ep Ei.
  pose proof (rs_read x pbr f b0 rest i act (b_data b0) B) as R1. rewrite Ed, En, Ep in R1.
  pose proof (rs_index x pbr (set_pos (set_bufs f (mkBuf (b_index b0) (b_size b0) (b_status b0) d :: rest)) p) _ rest i n act eq_refl) as R2.
  cbn [b_size b_status b_data] in R2.
  change (i_cfg (set_pos (set_bufs f (mkBuf (b_index b0) (b_size b0) (b_status b0) d :: rest)) p)) with (i_cfg f) in R2. rewrite Ei in R2.
  set (g2 := set_bufs _ (mkBuf ix _ _ _ :: rest)) in R2.
  pose proof (rs_size x pbr g2 _ rest n act eq_refl) as R3. cbn [b_index b_size b_status b_data] in R3.
  set (g3 := set_bufs g2 _) in R3.
  pose proof (rs_status x pbr g3 _ rest act eq_refl) as R4. cbn [b_index b_size b_status b_data] in R4.
  unfold g3, g2 in R4. rewrite sets_eq in R4. fold g2 in R4. fold g3 in R4.
  eapply ir_step; [eapply ir_step; [eapply ir_step; [eapply ir_step; [apply ir_here|exact R1]|exact R2]|exact R3]|exact R4].
Qed.

Lemma after_load : forall x pbr f b0 rest i act b' p n, i_bufs f = b0 :: rest -> loadBuffer f b0 i = (b', p, n) ->
  irun x pbr (AtRead i act (b_data b0), f) (AtShuffle act, f <| i_bufs := b' :: rest |> <| i_pos := p |>).
Proof.
  intros x pbr f b0 rest i act b' p n B LD. rewrite loadBuffer_eq in LD.
  apply pair_equal_spec in LD. destruct LD as [LD _]. apply pair_equal_spec in LD. destruct LD as [<- EP].
  exact (load_runs x pbr f b0 rest i act B _ _ _ _ eq_refl eq_refl EP eq_refl).
Qed.

Lemma step_runs : forall x pbr f go f', reload_step f x = Ok (Some (go, f')) ->
  irun x pbr (AtTop, f) (if go then AtTop else AtReset, f').
Proof.
  intros x pbr f go f' E. unfold reload_step in E.
  destruct (i_bufs f) as [|b0 rest] eqn:B; [discriminate|].
  destruct (is_unused (b_status b0)) eqn:U; cbn [negb] in E; [|discriminate].
  apply bind_ok in E. destruct E as ([[nx ld] act] & D & E).
  assert (T : irun x pbr (AtTop, f) (AtDecide, f)) by (eapply ir_step; [apply ir_here|eapply rs_loop; eauto]).
  set (s := s32 (nx * BS (i_cfg f))) in E.
  assert (G : exists b0' p, (if ld then let '(b', p, _) := loadBuffer f b0 s in (b', p) else (b0, i_pos f)) = (b0', p) /\
    irun x pbr (AtTop, f) (AtShuffle act, f <| i_bufs := b0' :: rest |> <| i_pos := p |>)).
  { destruct ld.
    - destruct (loadBuffer f b0 s) as [[b' p] n] eqn:LD. pose proof (after_load x pbr f b0 rest s act b' p n B LD) as AL.
      exists b', p. split; [reflexivity|]. eapply irun_trans; [exact AL|].
      eapply ir_step; [exact T|]. eapply rs_load; eauto.
    - exists b0, (i_pos f). split; [reflexivity|].
      replace (f <| i_bufs := b0 :: rest |> <| i_pos := i_pos f |>) with f by (destruct f; cbn in *; subst; reflexivity).
      eapply ir_step; [exact T|]. eapply rs_skip; eauto. }
  destruct G as (b0' & p & G & R). rewrite G in E. clear G.
  set (f1 := f <| i_bufs := b0' :: rest |> <| i_pos := p |>) in *.
  assert (B1 : i_bufs f1 = b0' :: rest) by reflexivity. assert (P1 : i_prev f1 = i_prev f) by reflexivity.
  clearbody f1.
  destruct act; apply Ok_inj in E; injection E as <- <-; (eapply ir_step; [exact R|]).
  - exact (rs_shuffle x pbr f1 b0' rest NopBuffer B1).
  - exact (rs_shuffle x pbr f1 b0' rest MoveBuffer B1).
  - pose proof (rs_shuffle x pbr f1 b0' rest ReverseBuffer B1) as RS. rewrite P1 in RS. exact RS.
Qed.

Lemma loop_runs : forall fuel x pbr f f', reload_loop fuel f x = Ok f' -> irun x pbr (AtTop, f) (AtReset, f').
Proof.
  induction fuel as [|fuel IH]; intros x pbr f f' E; cbn [reload_loop] in E; [discriminate|].
  apply bind_ok in E. destruct E as ([[go f1]|] & S1 & E).
  - pose proof (step_runs x pbr f go f1 S1) as R. destruct go.
    + eapply irun_trans; [|exact R]. now apply IH.
    + apply Ok_inj in E. subst. exact R.
  - apply Ok_inj in E. subst f'. eapply ir_step; [apply ir_here|]. apply rs_exit.
    unfold reload_step in S1. destruct (i_bufs f) as [|b0 rest]; [exact I|].
    destruct (is_unused (b_status b0)); [|reflexivity]. cbn [negb] in S1.
    apply bind_ok in S1. destruct S1 as ([[nx ld] act] & _ & S1).
    destruct (if ld then _ else _) as [b0' p] in S1. destruct act; discriminate.
Qed.

Lemma reload_runs : forall fuel x f f', triggerReload fuel f x = Ok f' -> during x f (AtEnd, f').
Proof.
  intros fuel x f f' E. unfold triggerReload in E. apply bind_ok in E. destruct E as (f1 & L & E).
  apply Ok_inj in E. subst f'. unfold during.
  eapply ir_step; [eapply ir_step; [eapply loop_runs; exact L|apply rs_reset]|]. apply rs_prev.
Qed.

Lemma creach_ireach : forall c fl f, creach c fl f -> ireach c fl f.
Proof.
  intros c fl f H. induction H as [pos g|fuel o f f' H IH G E]; [constructor|].
  destruct o; cbn [cop_run] in E.
  - apply bind_ok in E. destruct E as ([t f1] & E1 & E2). apply Ok_inj in E2. subst. eapply ire_preload; eauto.
  - eapply ire_reload; [exact IH|]. eapply reload_runs; eauto.
  - apply Ok_inj in E. subst. now constructor.
  - apply Ok_inj in E. subst. now constructor.
  - apply Ok_inj in E. subst. now constructor.
  - apply Ok_inj in E. subst. now constructor.
Qed.

(* ---- what the buffers hold at each point ------------------------------------ *)

Section Race.
Variables (c : ccfg) (fl : file).
Hypothesis C : cfg_ok c.
Hypothesis FS : fsize fl <= 2 ^ 31.

Definition here (f : ifile) : Prop := i_cfg f = c /\ i_file f = fl.

(* The invariant of a state inside a reload *)
Definition mid (s : rstate) : Prop :=
  let '(pc, f) := s in here f /\
  match pc with
  | AtRead i _ old => in_s32 i /\ exists b0 rest, i_bufs f = b0 :: rest /\ Forall (holds c fl) rest
  | AtIndex i n _ => exists b0 rest, i_bufs f = b0 :: rest /\ Forall (holds c fl) rest /\
      holds c fl (mkBuf (u32 (blk c i)) 0 StLoaded (b_data b0))
  | _ => Forall (holds c fl) (i_bufs f)
  end.

Lemma holds_eq : forall b b', b_index b' = b_index b -> b_data b' = b_data b -> holds c fl b -> holds c fl b'.
Proof. intros b b' E1 E2 H. unfold holds. rewrite E1, E2. exact H. Qed.

Lemma step_mid : forall x pbr s t, rstep x pbr s t -> mid s -> mid t.
Proof.
  intros x pbr s t H M. destruct H; destruct M as [[HC HF] M]; (split; [split|]);
    try (destruct act; cbn; assumption); try assumption.
  - cbn. split; [apply s32_range|]. exists b0, rest. rewrite H in M. apply Forall_cons_iff in M. tauto.
  - destruct M as [Hi (b1 & r1 & B1 & M)]. split; [exact Hi|]. cbn. rewrite H in B1. injection B1 as <- <-. eauto.
  - destruct M as [Hi (b1 & r1 & B1 & M)]. cbn. rewrite H in B1. injection B1 as <- <-. eexists _, _. split; [reflexivity|].
    split; [exact M|]. cbn [b_data].
    pose proof (holds_load c fl f (mkBuf 0 0 StLoaded old) i C FS HC HF Hi) as HL.
    eapply holds_eq; [| |exact HL]; unfold loadBuffer; cbn; [now rewrite HC|reflexivity].
  - destruct M as (b1 & r1 & B1 & M1 & M2). rewrite H in B1. injection B1 as <- <-. cbn. constructor; [|exact M1].
    eapply holds_eq; [| |exact M2]; cbn; [now rewrite HC|reflexivity].
  - cbn. rewrite H in M. apply Forall_cons_iff in M. destruct M as [M1 M2]. constructor; [|exact M2].
    eapply holds_eq; [| |exact M1]; reflexivity.
  - cbn. rewrite H in M. apply Forall_cons_iff in M. destruct M as [M1 M2]. constructor; [|exact M2].
    eapply holds_eq; [| |exact M1]; reflexivity.
  - rewrite H in M. destruct act; cbn; [now rewrite H| |].
    + apply Forall_cons_iff in M. apply Forall_app. intuition.
    + change (rev rest ++ [b0]) with (rev (b0 :: rest)). apply Forall_rev. exact M.
  - eapply Forall_stored; [apply resetStatus_stored|exact M].
  - destruct (feq f0 (i_prev f)); cbn; assumption.
  - destruct (feq f0 (i_prev f)); cbn; assumption.
  - destruct (feq f0 (i_prev f)); cbn; assumption.
Qed.

Lemma stored_cons : forall l b0 rest, map stored l = map stored (b0 :: rest) ->
  exists b1 r1, l = b1 :: r1 /\ stored b1 = stored b0 /\ map stored r1 = map stored rest.
Proof. intros [|b1 r1] b0 rest E; cbn in E; [discriminate|]. injection E as E1 E2 E3 E4. exists b1, r1. unfold stored. rewrite E1, E2, E3. auto. Qed.

Lemma fetch_mid : forall pc f i, mid (pc, f) -> mid (pc, snd (if_get f i)).
Proof.
  intros pc f i [[HC HF] M]. pose proof (if_get_store f i) as (S1 & S2 & S3 & S4 & S5 & S6 & S7 & S8).
  split; [split; congruence|].
  destruct pc; try (eapply Forall_stored; eauto; fail).
  - destruct M as [Hi (b0 & rest & B & M)]. split; [exact Hi|]. rewrite B in S8.
    destruct (stored_cons _ _ _ S8) as (b1 & r1 & E & _ & E2). exists b1, r1. split; [exact E|]. eapply Forall_stored; eauto.
  - destruct M as (b0 & rest & B & M1 & M2). rewrite B in S8.
    destruct (stored_cons _ _ _ S8) as (b1 & r1 & E & E1 & E2). exists b1, r1. split; [exact E|].
    split; [eapply Forall_stored; eauto|]. unfold stored in E1. injection E1 as _ _ E1. rewrite E1. exact M2.
Qed.

Lemma irun_mid : forall x pbr s t, irun x pbr s t -> mid s -> mid t.
Proof. intros x pbr s t H. induction H; intros M; auto; [eapply step_mid; eauto|apply fetch_mid; auto]. Qed.

Lemma end_coherent : forall f f' x, coherent c fl f -> during x f (AtEnd, f') -> coherent c fl f'.
Proof.
  intros f f' x (HC & HF & HB) D. apply irun_mid in D; [|repeat split; auto].
  destruct D as [[? ?] ?]. repeat split; auto.
Qed.

Lemma ireach_coherent : forall f, ireach c fl f -> coherent c fl f.
Proof.
  intros f H. induction H.
  - repeat split. constructor.
  - unfold preLoadBuffers in H1. apply (preload_kept c fl (holds c fl)) in H1; auto; [|lia].
    intros. now apply holds_load.
  - eapply end_coherent; eauto.
  - destruct IHireach as (HC & HF & HB). pose proof (if_get_store f i) as (S1 & S2 & S3 & S4 & S5 & S6 & S7 & S8).
    repeat split; [congruence|congruence|]. eapply Forall_stored; eauto.
  - exact IHireach.
  - exact IHireach.
  - exact IHireach.
Qed.

(* A fetch whose block is not the first buffer's does not see the first buffer *)
Lemma find_tail : forall i b0 rest, b_index b0 <> i ->
  find_with_index i (b0 :: rest) =
  let '(r, l2) := find_with_index i rest in
  (option_map S r, (if is_read (b_status b0) then b0 else b0 <| b_status := StUnused |>) :: l2).
Proof. intros i b0 rest N. cbn [find_with_index]. destruct (Z.eqb_spec (b_index b0) i); [contradiction|]. reflexivity. Qed.

Lemma get_tail : forall f b0 rest i, here f -> i_bufs f = b0 :: rest -> Forall (holds c fl) rest -> in_file fl i ->
  u32 (blk c i) <> b_index b0 ->
  fst (if_get f i) = file_sample fl i \/ (fst (if_get f i) = 0 /\ i_fails (snd (if_get f i)) = i_fails f + 1).
Proof.
  intros f b0 rest i [HC HF] B M IN N. unfold if_get. rewrite B, HC, (find_tail _ b0 rest) by congruence.
  destruct (find_with_index (u32 (blk c i)) rest) as [[n|] l2] eqn:E; cbn [option_map fst snd]; [left|right; auto].
  cbn [nth_error]. destruct (find_some _ _ _ _ E) as (b & NB & IX & _). rewrite NB.
  assert (FB : Forall (holds c fl) l2) by (eapply Forall_stored; [eapply find_stored; eauto|auto]).
  rewrite Forall_forall in FB. apply (FB b); auto. now apply nth_error_In in NB.
Qed.

Lemma during_right : forall f x pc f' i, ireach c fl f -> during x f (pc, f') -> in_file fl i ->
  replacing (pc, f') <> Some (u32 (blk c i)) ->
  fst (if_get f' i) = file_sample fl i \/ (fst (if_get f' i) = 0 /\ i_fails (snd (if_get f' i)) = i_fails f' + 1).
Proof.
  intros f x pc f' i R D IN NR. apply ireach_coherent in R. destruct R as (HC & HF & HB).
  apply irun_mid in D; [|repeat split; auto]. destruct D as [HE M].
  assert (CO : Forall (holds c fl) (i_bufs f') ->
    fst (if_get f' i) = file_sample fl i \/ (fst (if_get f' i) = 0 /\ i_fails (snd (if_get f' i)) = i_fails f' + 1)).
  { intros FB. apply (coherent_get c fl); [|exact IN]. destruct HE. repeat split; auto. }
  destruct pc; auto.
  - destruct M as [_ (b0 & rest & B & M)]. eapply get_tail; eauto. cbn [replacing] in NR. rewrite B in NR. congruence.
  - destruct M as (b0 & rest & B & M & _). eapply get_tail; eauto. cbn [replacing] in NR. rewrite B in NR. congruence.
Qed.
End Race.

(* ---- cases -------------------------------------------------------------------- *)
(* Two buffers of 128 samples: blocks 0 and 1 are loaded, a sample of block 1 is
   fetched, and the buffer of block 0 is reloaded with block 2. *)
Local Notation fl1 := (ramp_file 4096).
Definition sample_of (f : ifile) (i : Z) : Z := fst (if_get f i).
Definition passed : res ifile :=
  '(_, f) <- preLoadBuffers (if_new cfg_flash fl1 0 dirty) 0 true ;; Ok (snd (if_get f 130)).

Definition decided (f : ifile) : option (ibuf * list ibuf * Z * baction) :=
  match i_bufs f with
  | b0 :: rest => if is_unused (b_status b0) then
      match reload_decide f (f_of_d d1) b0 with Ok (nx, true, act) => Some (b0, rest, nx, act) | _ => None end else None
  | [] => None
  end.

Lemma decided_during : forall f b0 rest nx act, i_loop f = LNone -> decided f = Some (b0, rest, nx, act) ->
  during (f_of_d d1) f (AtIndex (s32 (nx * BS (i_cfg f))) (load_len f (s32 (nx * BS (i_cfg f)))) act,
    set_pos (set_bufs f (mkBuf (b_index b0) (b_size b0) (b_status b0) (load_bytes f (s32 (nx * BS (i_cfg f))) (b_data b0)) :: rest))
      (load_pos f (s32 (nx * BS (i_cfg f))))).
Proof.
  intros f b0 rest nx act L H. unfold decided in H. destruct (i_bufs f) as [|b r] eqn:B; [discriminate|].
  destruct (is_unused (b_status b)) eqn:U; [|discriminate].
  destruct (reload_decide f (f_of_d d1) b) as [[[nx' [|]] act']| |] eqn:D; try discriminate. injection H as -> -> -> ->.
  unfold during, reload_rate. rewrite L. cbn [loop_eqb andb].
  eapply ir_step; [eapply ir_step; [eapply ir_step; [apply ir_here|eapply rs_loop; eauto]|eapply rs_load; eauto]|].
  now apply rs_read.
Qed.

Definition race_check (f : ifile) : bool :=
  match i_loop f with
  | LNone =>
    match decided f with
    | Some (b0, rest, nx, act) =>
        let s := s32 (nx * BS (i_cfg f)) in
        let g := set_pos (set_bufs f (mkBuf (b_index b0) (b_size b0) (b_status b0) (load_bytes f s (b_data b0)) :: rest)) (load_pos f s) in
        (fst (if_get f 5) =? file_sample fl1 5) &&
        (fst (if_get g 5) =? file_sample fl1 261) && negb (file_sample fl1 261 =? file_sample fl1 5) && negb (file_sample fl1 261 =? 0) &&
        (fst (if_get g 140) =? file_sample fl1 140) && (fst (if_get g 261) =? 0) && (b_index b0 =? 0)
    | None => false
    end
  | _ => false
  end.

Lemma passed_reach : forall f, passed = Ok f -> creach cfg_flash fl1 f.
Proof.
  intros f E. unfold passed in E. apply bind_ok in E. destruct E as ([t f1] & E1 & E2). apply Ok_inj in E2. subst f.
  apply (cr_op cfg_flash fl1 0 (CoGet 130) f1); [|exact I|reflexivity].
  eapply preload_reach; [|exact E1]. unfold in_s32; lia.
Qed.

Lemma res_with : forall {A} (e : res A) (P : A -> bool), match e with Ok r => P r | _ => false end = true -> exists r, e = Ok r /\ P r = true.
Proof. intros A [r| |] P H; try discriminate. eauto. Qed.

Lemma race_case : exists f pc g, creach cfg_flash fl1 f /\ during (f_of_d d1) f (pc, g) /\ replacing (pc, g) = Some 0 /\
  fst (if_get f 5) = file_sample fl1 5 /\
  fst (if_get g 5) = file_sample fl1 261 /\ file_sample fl1 261 <> file_sample fl1 5 /\ file_sample fl1 261 <> 0 /\
  fst (if_get g 140) = file_sample fl1 140 /\ fst (if_get g 261) = 0.
Proof.
  destruct (res_with passed race_check) as (f & E & H); [vm_compute; reflexivity|].
  apply passed_reach in E. unfold race_check in H.
  destruct (i_loop f) eqn:L; try discriminate.
  destruct (decided f) as [[[[b0 rest] nx] act]|] eqn:D; [|discriminate].
  pose proof (decided_during f b0 rest nx act L D) as DU. cbv zeta in H.
  set (g := set_pos _ _) in *. set (pc := AtIndex _ _ _) in DU.
  assert (RP : replacing (pc, g) = Some (b_index b0)) by reflexivity.
  clearbody g pc. rewrite !andb_true_iff, !negb_true_iff, !Z.eqb_eq, !Z.eqb_neq in H.
  destruct H as ((((((H1 & H2) & H3) & H4) & H5) & H6) & H7). rewrite H7 in RP.
  exists f, pc, g. repeat (split; [assumption|]). assumption.
Qed.

Lemma race_refuted : exists f pc g i, creach cfg_flash fl1 f /\ during (f_of_d d1) f (pc, g) /\ in_file fl1 i /\
  fst (if_get g i) <> file_sample fl1 i /\ fst (if_get g i) <> 0.
Proof.
  destruct race_case as (f & pc & g & H1 & H2 & _ & _ & H5 & H6 & H7 & _). exists f, pc, g, 5.
  split; [exact H1|]. split; [exact H2|]. split; [unfold in_file; cbn; lia|]. rewrite H5. auto.
Qed.

(* between operations, whatever interrupted the reloads *)
Lemma between_right : forall c fl f i, cfg_ok c -> fsize fl <= 2 ^ 31 -> ireach c fl f -> in_file fl i ->
  fst (if_get f i) = file_sample fl i \/ (fst (if_get f i) = 0 /\ i_fails (snd (if_get f i)) = i_fails f + 1).
Proof. intros c fl f i C FS R IN. apply (coherent_get c fl); [|exact IN]. now apply ireach_coherent. Qed.
