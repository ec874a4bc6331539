(* Playback of a file against playback of an array with the file's bytes: whole
   sessions, and single reads inside what is buffered (C79, C80). *)

From Coq Require Import ZArith Lia List Bool.
From RecordUpdate Require Import RecordUpdate.
From Flocq Require Import IEEE754.BinarySingleNaN.
From Verif Require Import Machine Floats WavModel InterpModel CacheModel ReaderModel ReaderFacts CacheFacts CacheSpec CacheProofs FileSpec
  CacheFinal LifeProofs RaceProofs MirrorSpec MirrorProofs.
Import ListNotations.
Local Open Scope Z_scope.

(* ---- the miss counter ------------------------------------------------------- *)

Lemma get_fails : forall f i, i_fails f <= i_fails (snd (if_get f i)).
Proof.
  intros f i. unfold if_get. destruct (find_with_index _ _) as [[n|] b]; cbn; lia.
Qed.
Lemma gets_fails : forall f g, gets f g -> i_fails f <= i_fails g.
Proof. induction 1 as [f|f i g _ IH]; [lia|]. pose proof (get_fails f i). lia. Qed.

Lemma step_fails : forall f x go f', reload_step f x = Ok (Some (go, f')) -> i_fails f' = i_fails f.
Proof.
  intros f x go f' E. unfold reload_step in E. destruct (i_bufs f) as [|b0 rest]; [discriminate|].
  destruct (negb _); [discriminate|]. apply bind_ok in E. destruct E as ([[nx ld] act] & _ & E).
  destruct (if ld then _ else _) as [b0' p]. destruct act; inversion E; reflexivity.
Qed.
Lemma loop_fails : forall fuel f x f', reload_loop fuel f x = Ok f' -> i_fails f' = i_fails f.
Proof.
  induction fuel as [|fuel IH]; intros f x f' E; cbn [reload_loop] in E; [discriminate|].
  apply bind_ok in E. destruct E as ([[go f1]|] & S1 & E).
  - apply step_fails in S1. destruct go; [apply IH in E; congruence|apply Ok_inj in E; congruence].
  - apply Ok_inj in E. congruence.
Qed.
Lemma reload_fails : forall fuel f x f', triggerReload fuel f x = Ok f' -> i_fails f' = i_fails f.
Proof.
  intros fuel f x f' E. unfold triggerReload in E. apply bind_ok in E. destruct E as (f1 & L & E). apply loop_fails in L.
  apply Ok_inj in E. subst f'. destruct (feq f0 _); exact L.
Qed.

(* ---- one read ------------------------------------------------------------------ *)

Definition src_bad (k : Z) (s : source) : Prop := match s with SFile f => k < i_fails f | _ => False end.
Lemma src_bad_gets : forall k s t, src_gets s t -> src_bad k s -> src_bad k t.
Proof. intros k s t G. inversion G as [|m o|f g H]; subst; auto. intro B. cbn in *. apply gets_fails in H. lia. Qed.

Definition file_good (c : ccfg) (fl : file) (k : Z) (f : ifile) : Prop := coherent c fl f /\ i_fails f = k.

Lemma coherent_gets1 : forall c fl f i, coherent c fl f -> coherent c fl (snd (if_get f i)).
Proof.
  intros c fl f i (I1 & I2 & I3). pose proof (if_get_store f i) as (S1 & S2 & S3 & S4 & S5 & S6 & S7 & S8).
  split; [congruence|]. split; [congruence|]. eapply Forall_stored; eauto.
Qed.

Lemma file_hit : forall c fl k f i v, file_good c fl k f -> mem_sample (file_mem fl) 0 i = Some v ->
  (fst (if_get f i) = v /\ file_good c fl k (snd (if_get f i))) \/ src_bad k (SFile (snd (if_get f i))).
Proof.
  intros c fl k f i v (CO & K) M. unfold mem_sample in M.
  destruct (Z.leb_spec 0 (0 + 2 * i)), (Z.leb_spec (0 + 2 * i + 2) (msize (file_mem fl))); try discriminate. cbn [andb] in M.
  injection M as <-. cbn [file_mem msize mbyte] in *.
  pose proof (get_fails f i) as GF. destruct (Z.eq_dec (i_fails (snd (if_get f i))) k) as [E|E]; [left|right; cbn; lia].
  split; [|split; [now apply coherent_gets1|exact E]].
  destruct (coherent_get c fl f i CO) as [->|[_ B]]; [split; lia|reflexivity|lia].
Qed.

Lemma part_hit_eq : forall fl lo hi i, mem_sample (part_mem fl lo hi) (- (2 * lo)) i = if (lo <=? i) && (i <? hi) then Some (file_sample fl i) else None.
Proof.
  intros fl lo hi i. unfold mem_sample, part_mem. cbn [msize mbyte].
  destruct (Z.leb_spec 0 (- (2 * lo) + 2 * i)), (Z.leb_spec (- (2 * lo) + 2 * i + 2) (2 * (hi - lo))),
    (Z.leb_spec lo i), (Z.ltb_spec i hi); cbn [andb]; try reflexivity; try lia.
  unfold file_sample, le16, le16u. replace (2 * lo + (- (2 * lo) + 2 * i)) with (2 * i) by lia.
  replace (2 * lo + (- (2 * lo) + 2 * i + 1)) with (2 * i + 1) by lia. reflexivity.
Qed.

Lemma find_has : forall q l, (exists b, In b l /\ b_index b = q /\ 0 < b_size b) -> exists n l', find_with_index q l = (Some n, l').
Proof.
  intros q. induction l as [|x l IH]; intros (b & B & I & S); [destruct B|]. cbn [find_with_index].
  destruct (Z.eqb_spec (b_index x) q) as [E|E]; [destruct (Z.ltb_spec 0 (b_size x)); [cbn [andb]; eauto|]|]; cbn [andb].
  - destruct IH as (n & l' & ->); [exists b; destruct B as [ <- |B]; [lia|auto]|]. cbn. eauto.
  - destruct IH as (n & l' & ->); [exists b; destruct B as [ <- |B]; [congruence|auto]|]. cbn. eauto.
Qed.

Lemma has_block_stored : forall f g q, map stored (i_bufs g) = map stored (i_bufs f) -> has_block f q -> has_block g q.
Proof.
  intros f g q E (b & B & I & S). assert (X : In (stored b) (map stored (i_bufs g))) by (rewrite E; now apply in_map).
  apply in_map_iff in X. destruct X as (b' & E' & B'). unfold stored in E'. inversion E' as [[E1 E2 E3]].
  exists b'. rewrite E1, E2. auto.
Qed.
Lemma buffered_store : forall c fl f g lo hi, same_store f g -> buffered c fl f lo hi -> buffered c fl g lo hi.
Proof.
  intros c fl f g lo hi (_ & _ & _ & _ & _ & _ & _ & S) (B1 & B2 & B3). split; [auto|]. split; [auto|].
  intros i I. eapply has_block_stored; [exact S|auto].
Qed.

Definition part_good (c : ccfg) (fl : file) (lo hi k : Z) (f : ifile) : Prop :=
  coherent c fl f /\ buffered c fl f lo hi /\ i_fails f = k.

Lemma part_hit : forall c fl lo hi k f i v, cfg_ok c -> fsize fl <= 2 ^ 31 -> part_good c fl lo hi k f ->
  mem_sample (part_mem fl lo hi) (- (2 * lo)) i = Some v ->
  fst (if_get f i) = v /\ part_good c fl lo hi k (snd (if_get f i)).
Proof.
  intros c fl lo hi k f i v C FS (CO & BU & K) M. rewrite part_hit_eq in M.
  destruct (Z.leb_spec lo i), (Z.ltb_spec i hi); try discriminate. injection M as <-.
  pose proof BU as (B1 & B2 & B3). specialize (B3 i ltac:(lia)).
  assert (IN : in_file fl i) by (split; lia).
  assert (U : u32 (blk c i) = i / BS c).
  { apply u32_id. pose proof (blk_nonneg c i C ltac:(lia)). pose proof (BS_pos _ C). unfold in_u32. change (i / BS c) with (blk c i) in *.
    pose proof (blk_mod c i C). pose proof (mod_BS c i C). nia. }
  assert (F : i_fails (snd (if_get f i)) = i_fails f).
  { unfold if_get. destruct CO as (-> & _ & _). rewrite U. destruct (find_has _ _ B3) as (n & l' & ->). reflexivity. }
  split; [|split; [|split]].
  - destruct (coherent_get c fl f i CO IN) as [E|[_ E]]; [exact E|lia].
  - now apply coherent_gets1.
  - eapply buffered_store; [apply if_get_store|exact BU].
  - congruence.
Qed.

Lemma kind_read : forall fuel r n l r', r_read fuel r n = Ok (l, r') -> r_kind r' = r_kind r.
Proof. intros fuel r n l r' E. apply r_read_statics in E. destruct E as [E _]. symmetry. exact (f_equal r_kind E). Qed.

Lemma on_array_back : forall m off ra kd f, r_kind ra = KArray -> r_src ra = SArr m off -> ra = on_array m off (src_set ra kd (SFile f)).
Proof. intros m off ra kd f K S. destruct ra. cbn in *. now subst. Qed.

Lemma src_set_self : forall m off r f, r_src r = SFile f -> r = src_set (on_array m off r) (r_kind r) (SFile f).
Proof. intros m off r f S. destruct r. cbn in *. now subst. Qed.

Lemma read_part : forall c fl r f lo hi fuel n out ra, cfg_ok c -> fsize fl <= 2 ^ 31 -> r_src r = SFile f -> creach c fl f ->
  buffered c fl f lo hi -> r_read fuel (on_array (part_mem fl lo hi) (- (2 * lo)) r) n = Ok (out, ra) ->
  exists r', r_read fuel r n = Ok (out, r') /\ ra = on_array (part_mem fl lo hi) (- (2 * lo)) r' /\ misses r' = misses r.
Proof.
  intros c fl r f lo hi fuel n out ra C FS S CR BU E.
  assert (M : mir (part_mem fl lo hi) (- (2 * lo)) (r_kind r) (part_good c fl lo hi (i_fails f))
    (on_array (part_mem fl lo hi) (- (2 * lo)) r) r).
  { split; [reflexivity|]. exists f. split; [split; [now apply creach_coherent|auto]|]. now apply src_set_self. }
  pose proof (kind_read _ _ _ _ _ E) as KK.
  destruct (mir_read _ _ _ _ (fun _ => False) (fun _ _ _ H => H)
    (fun g i v G H => or_introl (part_hit c fl lo hi (i_fails f) g i v C FS G H)) fuel _ _ n M out ra E) as [(rf & R & S2 & g & G & ->)|[(s & []) _]].
  eexists. split; [exact R|]. split; [now apply on_array_back|]. unfold misses. rewrite S. apply G.
Qed.

(* ---- sessions ---------------------------------------------------------------------- *)

Lemma reload_reach : forall c fl f fuel x f', creach c fl f -> triggerReload fuel f x = Ok f' -> creach c fl f'.
Proof. intros c fl f fuel x f' R E. exact (cr_op c fl fuel (CoReload x) f f' R Logic.I E). Qed.

Lemma read_one_mirror : forall c fl r f fuel n out ra out' r', cfg_ok c -> fsize fl <= 2 ^ 31 -> r_src r = SFile f -> creach c fl f ->
  r_read fuel (on_array (file_mem fl) 0 r) n = Ok (out, ra) -> r_read fuel r n = Ok (out', r') ->
  exists f', r_src r' = SFile f' /\ creach c fl f' /\ i_fails f <= i_fails f' /\
    (i_fails f' = i_fails f -> out' = out /\ ra = on_array (file_mem fl) 0 r').
Proof.
  intros c fl r f fuel n out ra out' r' C FS S CR E E'.
  assert (G : exists f', r_src r' = SFile f' /\ gets f f').
  { apply r_read_statics in E'. destruct E' as [_ G]. rewrite S in G. inversion G; subst; eauto. }
  destruct G as (f' & S' & G). exists f'. split; [exact S'|]. split; [eapply gets_reach; eauto|]. split; [now apply gets_fails|]. intro SF.
  assert (M : mir (file_mem fl) 0 (r_kind r) (file_good c fl (i_fails f)) (on_array (file_mem fl) 0 r) r).
  { split; [reflexivity|]. exists f. split; [split; [now apply creach_coherent|reflexivity]|]. now apply src_set_self. }
  pose proof (kind_read _ _ _ _ _ E) as KK.
  destruct (mir_read _ _ _ _ (src_bad (i_fails f)) (src_bad_gets (i_fails f)) (file_hit c fl (i_fails f)) fuel _ _ n M out ra E)
    as [(rf & R & S2 & g & GG & ->)|[_ B]].
  - rewrite R in E'. apply Ok_inj, pair_equal_spec in E'. destruct E' as [<- <-]. split; [reflexivity|]. now apply on_array_back.
  - rewrite E' in B. rewrite S' in B. cbn in B. lia.
Qed.

Lemma rate_array : forall m off r x a, setPlaybackRate (on_array m off r) x = Ok a ->
  exists r', setPlaybackRate r x = Ok r' /\ a = on_array m off r' /\ r_src r' = r_src r.
Proof.
  intros m off r x a E. unfold setPlaybackRate in *. cbv zeta in *. set (r1 := r <| r_rate := x |>).
  change (on_array m off r <| r_rate := x |>) with (on_array m off r1) in E.
  assert (S1 : r_src r = r_src r1) by reflexivity. rewrite S1. clearbody r1. clear S1.
  change (r_dual (on_array m off r1)) with (r_dual r1) in E. change (r_cf (on_array m off r1)) with (r_cf r1) in E.
  change (r_pos1 (on_array m off r1)) with (r_pos1 r1) in E. change (r_hdr (on_array m off r1)) with (r_hdr r1) in E.
  change (r_pstart (on_array m off r1)) with (r_pstart r1) in E. change (r_fsamples (on_array m off r1)) with (r_fsamples r1) in E.
  change (r_lf (on_array m off r1)) with (r_lf r1) in E. change (r_ls (on_array m off r1)) with (r_ls r1) in E.
  assert (SP : forall n, spos (on_array m off r1) n = spos r1 n) by reflexivity. rewrite !SP in E.
  repeat match type of E with (if ?b then _ else _) = _ => destruct b end;
    try (apply Ok_inj in E; subst a; eexists; split; [reflexivity|split; reflexivity]; fail);
    (apply bind_ok in E; destruct E as (z & -> & E); apply Ok_inj in E; subst a; rewrite SP; cbn [bind]; eexists; split; [reflexivity|split; reflexivity]).
Qed.

Lemma here_array : forall m off r n a, r_loop_from_here (on_array m off r) n = Ok a ->
  exists r', r_loop_from_here r n = Ok r' /\ a = on_array m off r' /\ r_src r' = r_src r.
Proof.
  intros m off r n a E. unfold r_loop_from_here in *. cbv zeta in *.
  change (r_cf (on_array m off r)) with (r_cf r) in E. change (r_pos1 (on_array m off r)) with (r_pos1 r) in E.
  change (r_pos2 (on_array m off r)) with (r_pos2 r) in E. change (r_nch (on_array m off r)) with (r_nch r) in E.
  apply bind_ok in E. destruct E as (q & -> & E). apply Ok_inj in E. subst a. cbn [bind]. eexists. split; [reflexivity|]. split; reflexivity.
Qed.

Lemma op_mirror : forall c fl fuel o r f b a b' r', cfg_ok c -> fsize fl <= 2 ^ 31 -> r_src r = SFile f -> creach c fl f ->
  sop_run fuel o (on_array (file_mem fl) 0 r) = Ok (b, a) -> sop_run fuel o r = Ok (b', r') ->
  exists f', r_src r' = SFile f' /\ creach c fl f' /\ i_fails f <= i_fails f' /\
    (i_fails f' = i_fails f -> b' = b /\ a = on_array (file_mem fl) 0 r').
Proof.
  intros c fl fuel o r f b a b' r' C FS S CR EA EF. destruct o; cbn [sop_run] in EA, EF.
  - eapply read_one_mirror; eauto.
  - apply bind_ok in EA. destruct EA as (a1 & A1 & A2). apply bind_ok in EF. destruct EF as (r1 & R1 & R2).
    apply Ok_inj, pair_equal_spec in A2. destruct A2 as [<- <-]. apply Ok_inj, pair_equal_spec in R2. destruct R2 as [<- <-].
    unfold r_triggerReload in *. cbn [on_array r_src set] in A1. rewrite S in R1. apply bind_ok in R1. destruct R1 as (f' & R1 & R2).
    apply Ok_inj in R2. subst r1. exists f'. split; [reflexivity|]. split; [eapply reload_reach; eauto|].
    rewrite (reload_fails _ _ _ _ R1). split; [lia|]. intros _. split; [reflexivity|]. apply Ok_inj in A1. now subst a1.
  - apply bind_ok in EA. destruct EA as (a1 & A1 & A2). apply bind_ok in EF. destruct EF as (r1 & R1 & R2).
    apply Ok_inj, pair_equal_spec in A2. destruct A2 as [<- <-]. apply Ok_inj, pair_equal_spec in R2. destruct R2 as [<- <-].
    destruct (rate_array _ _ _ _ _ A1) as (r2 & E & -> & SS). rewrite R1 in E. apply Ok_inj in E. subst r2. exists f.
    split; [congruence|]. split; [auto|]. split; [lia|auto].
  - cbn [bind] in *. apply Ok_inj, pair_equal_spec in EA. destruct EA as [<- <-]. apply Ok_inj, pair_equal_spec in EF. destruct EF as [<- <-].
    exists (if_setLoopType f l). unfold setLoopType. rewrite S. split; [reflexivity|].
    split; [exact (cr_op c fl 0 (CoLoopType l) f _ CR Logic.I eq_refl)|]. split; [cbn; lia|]. intros _. split; reflexivity.
  - cbn [bind] in *. apply Ok_inj, pair_equal_spec in EA. destruct EA as [<- <-]. apply Ok_inj, pair_equal_spec in EF. destruct EF as [<- <-].
    unfold setLoopStart. cbv zeta. change (r_src (r <| r_ls := s32 v |>)) with (r_src r). rewrite S. eexists. split; [reflexivity|].
    split; [exact (cr_op c fl 0 (CoLoopStart _) f _ CR Logic.I eq_refl)|]. split; [cbn; lia|]. intros _. split; reflexivity.
  - cbn [bind] in *. apply Ok_inj, pair_equal_spec in EA. destruct EA as [<- <-]. apply Ok_inj, pair_equal_spec in EF. destruct EF as [<- <-].
    unfold setLoopFinish. cbv zeta. change (r_src (r <| r_lf := s32 v |>)) with (r_src r). rewrite S. eexists. split; [reflexivity|].
    split; [exact (cr_op c fl 0 (CoLoopFinish _) f _ CR Logic.I eq_refl)|]. split; [cbn; lia|]. intros _. split; reflexivity.
  - apply bind_ok in EA. destruct EA as (a1 & A1 & A2). apply bind_ok in EF. destruct EF as (r1 & R1 & R2).
    apply Ok_inj, pair_equal_spec in A2. destruct A2 as [<- <-]. apply Ok_inj, pair_equal_spec in R2. destruct R2 as [<- <-].
    destruct (here_array _ _ _ _ _ A1) as (r2 & E & -> & SS). rewrite R1 in E. apply Ok_inj in E. subst r2. exists f.
    split; [congruence|]. split; [auto|]. split; [lia|auto].
  - cbn [bind] in *. apply Ok_inj, pair_equal_spec in EA. destruct EA as [<- <-]. apply Ok_inj, pair_equal_spec in EF. destruct EF as [<- <-].
    exists f. split; [exact S|]. split; [auto|]. split; [lia|]. intros _. split; reflexivity.
  - cbn [bind] in *. apply Ok_inj, pair_equal_spec in EA. destruct EA as [<- <-]. apply Ok_inj, pair_equal_spec in EF. destruct EF as [<- <-].
    exists f. split; [exact S|]. split; [auto|]. split; [lia|]. intros _. split; reflexivity.
  - cbn [bind] in *. apply Ok_inj, pair_equal_spec in EA. destruct EA as [<- <-]. apply Ok_inj, pair_equal_spec in EF. destruct EF as [<- <-].
    exists f. split; [exact S|]. split; [auto|]. split; [lia|]. intros _. split; reflexivity.
  - cbn [bind] in *. apply Ok_inj, pair_equal_spec in EA. destruct EA as [<- <-]. apply Ok_inj, pair_equal_spec in EF. destruct EF as [<- <-].
    exists f. split; [exact S|]. split; [auto|]. split; [lia|]. intros _. split; reflexivity.
  - cbn [bind] in *. apply Ok_inj, pair_equal_spec in EA. destruct EA as [<- <-]. apply Ok_inj, pair_equal_spec in EF. destruct EF as [<- <-].
    exists f. split; [exact S|]. split; [auto|]. split; [lia|]. intros _. split; reflexivity.
Qed.

(* Misses only accumulate *)
Lemma op_misses : forall c fl fuel o r f b' r', r_src r = SFile f -> creach c fl f -> sop_run fuel o r = Ok (b', r') ->
  exists f', r_src r' = SFile f' /\ creach c fl f' /\ i_fails f <= i_fails f'.
Proof.
  intros c fl fuel o r f b' r' S CR EF. destruct o; cbn [sop_run] in EF.
  - apply r_read_statics in EF. destruct EF as [_ G]. rewrite S in G. inversion G as [| |x g H]; subst. exists g. split; [auto|].
    split; [eapply gets_reach; eauto|now apply gets_fails].
  - apply bind_ok in EF. destruct EF as (r1 & R1 & R2). apply Ok_inj, pair_equal_spec in R2. destruct R2 as [<- <-].
    unfold r_triggerReload in R1. rewrite S in R1. apply bind_ok in R1. destruct R1 as (f' & R1 & R2).
    apply Ok_inj in R2. subst r1. exists f'. split; [reflexivity|]. split; [eapply reload_reach; eauto|].
    rewrite (reload_fails _ _ _ _ R1). lia.
  - apply bind_ok in EF. destruct EF as (r1 & R1 & R2). apply Ok_inj, pair_equal_spec in R2. destruct R2 as [<- <-].
    assert (X : r_src r1 = r_src r).
    { unfold setPlaybackRate in R1. cbv zeta in R1.
      repeat match type of R1 with (if ?b then _ else _) = _ => destruct b end;
        try (apply Ok_inj in R1; subst r1; reflexivity);
        (apply bind_ok in R1; destruct R1 as (z & _ & R1); apply Ok_inj in R1; subst r1; reflexivity). }
    exists f. split; [congruence|]. split; [auto|lia].
  - cbn [bind] in *. apply Ok_inj, pair_equal_spec in EF. destruct EF as [<- <-].
    exists (if_setLoopType f l). unfold setLoopType. rewrite S. split; [reflexivity|].
    split; [exact (cr_op c fl 0 (CoLoopType l) f _ CR Logic.I eq_refl)|]. cbn; lia.
  - cbn [bind] in *. apply Ok_inj, pair_equal_spec in EF. destruct EF as [<- <-].
    unfold setLoopStart. cbv zeta. change (r_src (r <| r_ls := s32 v |>)) with (r_src r). rewrite S. eexists. split; [reflexivity|].
    split; [exact (cr_op c fl 0 (CoLoopStart _) f _ CR Logic.I eq_refl)|]. cbn; lia.
  - cbn [bind] in *. apply Ok_inj, pair_equal_spec in EF. destruct EF as [<- <-].
    unfold setLoopFinish. cbv zeta. change (r_src (r <| r_lf := s32 v |>)) with (r_src r). rewrite S. eexists. split; [reflexivity|].
    split; [exact (cr_op c fl 0 (CoLoopFinish _) f _ CR Logic.I eq_refl)|]. cbn; lia.
  - apply bind_ok in EF. destruct EF as (r1 & R1 & R2). apply Ok_inj, pair_equal_spec in R2. destruct R2 as [<- <-].
    unfold r_loop_from_here in R1. apply bind_ok in R1. destruct R1 as (q & _ & R1). apply Ok_inj in R1. subst r1.
    exists f. split; [exact S|]. split; [auto|lia].
  - cbn [bind] in *. apply Ok_inj, pair_equal_spec in EF. destruct EF as [<- <-]. exists f. split; [exact S|]. split; [auto|lia].
  - cbn [bind] in *. apply Ok_inj, pair_equal_spec in EF. destruct EF as [<- <-]. exists f. split; [exact S|]. split; [auto|lia].
  - cbn [bind] in *. apply Ok_inj, pair_equal_spec in EF. destruct EF as [<- <-]. exists f. split; [exact S|]. split; [auto|lia].
  - cbn [bind] in *. apply Ok_inj, pair_equal_spec in EF. destruct EF as [<- <-]. exists f. split; [exact S|]. split; [auto|lia].
  - cbn [bind] in *. apply Ok_inj, pair_equal_spec in EF. destruct EF as [<- <-]. exists f. split; [exact S|]. split; [auto|lia].
Qed.

Lemma session_misses : forall c fl fuel os r f bs r', r_src r = SFile f -> creach c fl f -> session fuel r os = Ok (bs, r') ->
  exists f', r_src r' = SFile f' /\ i_fails f <= i_fails f'.
Proof.
  intros c fl fuel. induction os as [|o os IH]; intros r f bs r' S CR E; cbn [session] in E.
  - apply Ok_inj, pair_equal_spec in E. destruct E as [<- <-]. exists f. split; [exact S|lia].
  - apply bind_ok in E. destruct E as ([b r1] & E1 & E). apply bind_ok in E. destruct E as ([bs1 r2] & E2 & E).
    apply Ok_inj, pair_equal_spec in E. destruct E as [<- <-].
    destruct (op_misses c fl _ _ _ _ _ _ S CR E1) as (f1 & S1 & C1 & L1).
    destruct (IH _ _ _ _ S1 C1 E2) as (f2 & S2 & L2). exists f2. split; [exact S2|lia].
Qed.

Theorem session_mirror : forall c fl fuel os r f bs a bs' r', cfg_ok c -> fsize fl <= 2 ^ 31 -> r_src r = SFile f -> creach c fl f ->
  session fuel (on_array (file_mem fl) 0 r) os = Ok (bs, a) -> session fuel r os = Ok (bs', r') -> misses r' = misses r ->
  bs' = bs /\ a = on_array (file_mem fl) 0 r'.
Proof.
  intros c fl fuel os r f bs a bs' r' C FS S CR EA EF MI. revert r f bs a bs' r' S CR EA EF MI.
  induction os as [|o os IH]; intros r f bs a bs' r' S CR EA EF MI; cbn [session] in EA, EF.
  - apply Ok_inj, pair_equal_spec in EA. destruct EA as [<- <-]. apply Ok_inj, pair_equal_spec in EF. destruct EF as [<- <-]. auto.
  - apply bind_ok in EF. destruct EF as ([b1 r1] & F1 & EF). apply bind_ok in EF. destruct EF as ([bs1 r2] & F2 & EF).
    apply Ok_inj, pair_equal_spec in EF. destruct EF as [<- <-].
    apply bind_ok in EA. destruct EA as ([b0 a1] & A1 & EA). apply bind_ok in EA. destruct EA as ([bs0 a2] & A2 & EA).
    apply Ok_inj, pair_equal_spec in EA. destruct EA as [<- <-].
    destruct (op_mirror c fl fuel o r f b0 a1 b1 r1 C FS S CR A1 F1) as (f1 & S1 & C1 & L1 & Q).
    destruct (session_misses c fl fuel os r1 f1 bs1 r2 S1 C1 F2) as (f2 & S2 & L2).
    unfold misses in MI. rewrite S, S2 in MI. destruct Q as [-> ->]; [lia|].
    destruct (IH r1 f1 bs0 a2 bs1 r2 S1 C1 A2 F2) as [-> ->]; [|auto].
    unfold misses. rewrite S1, S2. lia.
Qed.

(* ---- opening ------------------------------------------------------------------------ *)

Lemma preload_fails_loop : forall todo bufn fw f i total t f', preload_loop todo bufn fw f i total = Ok (t, f') -> i_fails f' = i_fails f.
Proof.
  induction todo as [|todo IH]; intros bufn fw f i total t f' E; cbn [preload_loop] in E.
  - apply Ok_inj, pair_equal_spec in E. destruct E as [_ <-]. reflexivity.
  - set (f1 := if Nat.leb _ _ then _ else _) in E. assert (F1 : i_fails f1 = i_fails f) by (unfold f1; destruct (Nat.leb _ _); reflexivity).
    clearbody f1. destruct (nth_error _ _) as [b|]; [|discriminate]. destruct (loadBuffer f1 b i) as [[b' p] n].
    destruct (n <? _); [apply Ok_inj, pair_equal_spec in E; destruct E as [_ <-]; exact F1|].
    apply bind_ok in E. destruct E as (i' & _ & E). apply IH in E. rewrite E. exact F1.
Qed.
Lemma preload_fails : forall f i fw t f', preLoadBuffers f i fw = Ok (t, f') -> i_fails f' = i_fails f.
Proof. intros f i fw t f' E. eapply preload_fails_loop. exact E. Qed.

Lemma header_keeps : forall r f stack o r', play_header r f stack = Ok (o, r') -> r_cfg r' = r_cfg r /\ r_kind r' = r_kind r.
Proof.
  intros r f stack o r' E. unfold play_header in E. cbv zeta in E. apply bind_ok in E. destruct E as ([ok h] & _ & E).
  destruct (negb _); [apply Ok_inj, pair_equal_spec in E; destruct E as [_ <-]; auto|].
  apply bind_ok in E. destruct E as ([t|] & _ & E); [|apply Ok_inj, pair_equal_spec in E; destruct E as [_ <-]; auto].
  apply bind_ok in E. destruct E as ([d|] & _ & E); apply Ok_inj, pair_equal_spec in E; destruct E as [_ <-]; auto.
Qed.
Lemma close_keeps : forall r, r_cfg (r_close r) = r_cfg r /\ r_kind (r_close r) = r_kind r.
Proof. intro r. unfold r_close. destruct (r_kind r) eqn:K, (r_src r); cbn; auto. Qed.

Lemma type_src : forall r l f, r_src r = SFile f -> r_src (setLoopType r l) = SFile (if_setLoopType f l).
Proof. intros r l f S. unfold setLoopType. rewrite S. reflexivity. Qed.
Lemma lstart_src : forall r v f, r_src r = SFile f -> exists z, r_src (setLoopStart r v) = SFile (if_setLoopStart f z).
Proof. intros r v f S. unfold setLoopStart. cbv zeta. change (r_src (r <| r_ls := s32 v |>)) with (r_src r). rewrite S. eexists. reflexivity. Qed.
Lemma lfinish_src : forall r v f, r_src r = SFile f -> exists z, r_src (setLoopFinish r v) = SFile (if_setLoopFinish f z).
Proof. intros r v f S. unfold setLoopFinish. cbv zeta. change (r_src (r <| r_lf := s32 v |>)) with (r_src r). rewrite S. eexists. reflexivity. Qed.
Lemma copy_reach : forall c fl r f, r_src r = SFile f -> creach c fl f -> exists f', r_src (copy_loop r) = SFile f' /\ creach c fl f' /\ i_fails f' = i_fails f.
Proof.
  intros c fl r f S R. unfold copy_loop. cbv zeta. pose proof (type_src r (r_loop r) f S) as S1. set (r1 := setLoopType _ _) in *. clearbody r1.
  destruct (lstart_src r1 (r_ls r1) _ S1) as (z1 & S2). set (r2 := setLoopStart _ _) in *. clearbody r2.
  destruct (lfinish_src r2 (r_lf r2) _ S2) as (z2 & S3). eexists. split; [exact S3|]. split; [|reflexivity].
  pose proof (cr_op c fl 0 (CoLoopType (r_loop r)) f _ R Logic.I eq_refl) as R1.
  pose proof (cr_op c fl 0 (CoLoopStart z1) _ _ R1 Logic.I eq_refl) as R2.
  exact (cr_op c fl 0 (CoLoopFinish z2) _ _ R2 Logic.I eq_refl).
Qed.
Lemma open_reach : forall r fs fl p g, exists f, r_src (copy_loop (open_src r fs fl p g)) = SFile f /\ creach (r_cfg r) fl f /\ i_fails f = 0.
Proof.
  intros r fs fl p g. assert (S : r_src (open_src r fs fl p g) = SFile (if_new (r_cfg r) fl p g)) by reflexivity.
  destruct (copy_reach (r_cfg r) fl _ _ S (cr_new _ _ _ _)) as (f & F1 & F2 & F3). exists f. auto.
Qed.

Lemma start_reach : forall c fl r f r', r_src r = SFile f -> creach c fl f -> i_fails f = 0 -> start_file r = Ok (true, r') ->
  exists f', r_src r' = SFile f' /\ creach c fl f' /\ i_fails f' = 0.
Proof.
  intros c fl r f r' S6 R6 F6 E. unfold start_file in E. apply bind_ok in E. destruct E as (r7 & E7 & E).
  apply reset_same in E7. destruct E7 as (_ & SS & PI & _). rewrite SS, S6 in E.
  apply bind_ok in E. destruct E as ([t g'] & E8 & E). apply Ok_inj, pair_equal_spec in E. destruct E as [_ <-].
  exists g'. split; [reflexivity|]. pose proof (preload_fails _ _ _ _ _ E8) as F8. split; [|congruence].
  apply (cr_op c fl 0 (CoPreload (r_pos1 r7) (dle d0 (r_rate r7))) f g' R6 PI). cbn [cop_run]. rewrite E8. reflexivity.
Qed.

Lemma play_open_reach : forall r fl p g r', play_open r fl p g = Ok (true, r') -> exists f, r_src r' = SFile f /\ creach (r_cfg r) fl f /\ i_fails f = 0.
Proof.
  intros r fl p g r' E. unfold play_open in E. destruct (_ <=? _); [apply Ok_inj, pair_equal_spec in E; destruct E; discriminate|].
  apply bind_ok in E. destruct E as (fs & _ & E). destruct (open_reach r fs fl p g) as (f & S & R & F).
  exact (start_reach _ _ _ _ _ S R F E).
Qed.

Definition past_header (r : reader) (fl : file) (w : bool) (st : bytes) : res (option Z * reader) :=
  if w then play_header (r <| r_fsize := s32 (fsize fl) |>) fl st
  else Ok (Some 0, (r <| r_fsize := s32 (fsize fl) |>) <| r_fsamples := Z.quot (r_fsize (r <| r_fsize := s32 (fsize fl) |>)) 2 |>).
Lemma past_keeps : forall r fl w st o r', past_header r fl w st = Ok (o, r') -> r_cfg r' = r_cfg r.
Proof.
  intros r fl w st o r' E. unfold past_header in E. destruct w.
  - apply header_keeps in E. exact (proj1 E).
  - apply Ok_inj, pair_equal_spec in E. destruct E as [_ <-]. reflexivity.
Qed.
Definition ready_to_open (r : reader) (w : bool) (n : Z) : reader :=
  let r1 := r_close r in let r2 := if w then r1 else setNumChannels r1 n in r2 <| r_fname := true |> <| r_live := r_live r2 + 1 |>.
Lemma ready_keeps : forall r w n, r_cfg (ready_to_open r w n) = r_cfg r.
Proof.
  intros r w n. unfold ready_to_open. cbv zeta. destruct (close_keeps r) as [C _]. destruct w; exact C.
Qed.
Lemma play_file_eq : forall r fl w n st g, r_play_file r (Some fl) w n st g =
  match r_kind (ready_to_open r w n) with
  | KArray => Ok (false, drop_name (ready_to_open r w n))
  | _ => '(o, r2) <- past_header (ready_to_open r w n) fl w st ;; match o with None => Ok (false, r2) | Some p => play_open r2 fl p g end
  end.
Proof. intros r fl w n st g. unfold r_play_file, past_header, ready_to_open. cbv zeta. set (r3 := set _ _ _). destruct (r_kind r3); reflexivity. Qed.

Lemma play_reach : forall r fl w n st g r', r_play_file r (Some fl) w n st g = Ok (true, r') ->
  exists f, r_src r' = SFile f /\ creach (r_cfg r) fl f /\ i_fails f = 0.
Proof.
  intros r fl w n st g r' E. rewrite play_file_eq in E. pose proof (ready_keeps r w n) as C. set (r3 := ready_to_open r w n) in *. clearbody r3.
  assert (E' : '(o, r2) <- past_header r3 fl w st ;; match o with None => Ok (false, r2) | Some p => play_open r2 fl p g end = Ok (true, r')).
  { destruct (r_kind r3); [discriminate|exact E..]. }
  clear E. apply bind_ok in E'. destruct E' as ([o r5] & E5 & E). apply past_keeps in E5.
  destruct o as [p|]; [|apply Ok_inj, pair_equal_spec in E; destruct E; discriminate].
  apply play_open_reach in E. rewrite E5, C in E. exact E.
Qed.

Theorem play_mirror : forall r0 fl w n st g r fuel os bs a bs' r', cfg_ok (r_cfg r0) -> fsize fl <= 2 ^ 31 ->
  r_play_file r0 (Some fl) w n st g = Ok (true, r) ->
  session fuel (on_array (file_mem fl) 0 r) os = Ok (bs, a) -> session fuel r os = Ok (bs', r') -> misses r' = 0 ->
  bs' = bs /\ a = on_array (file_mem fl) 0 r'.
Proof.
  intros r0 fl w n st g r fuel os bs a bs' r' C FS E EA EF MI. destruct (play_reach _ _ _ _ _ _ _ E) as (f & S & R & F).
  apply (session_mirror (r_cfg r0) fl fuel os r f); auto. rewrite MI. unfold misses. now rewrite S.
Qed.

(* ---- a case: cubic interpolation, crossfaded loop, changes of rate, reloads --------- *)

Definition mc_ops : list sop :=
  [SInterp IQuadratic; SRate (d_of_me 3 (-2)); SRead 64; SReload; SDual true; SFade 32; SLoopType LRepeat; SLoopStart 40; SLoopFinish 4000;
   SRead 64; SReload; SRate (d_of_me 7 (-1)); SInterp ILinear; SRead 1100; SReload; SRead 128; SReload].
Definition mc_sum (bs : list (list (list Z))) : Z := fold_right Z.add 0 (concat (concat bs)).
Lemma two_res : forall {A B} (x : res A) (y : res B) (P : A -> B -> bool),
  match x, y with Ok a, Ok b => P a b | _, _ => false end = true -> exists a b, x = Ok a /\ y = Ok b /\ P a b = true.
Proof. intros A B [a| |] [b| |] P H; try discriminate. eauto. Qed.

Definition mc_file : file := ramp_file 32768.
Notation mc_open := (r_play_file (new_reader KSd) (Some mc_file) false 1 (fun _ => 0) dirty).
Definition mc_pass (x y : list (list (list Z)) * reader) : bool :=
  (misses (snd x) =? 0) && (Z.of_nat (length (concat (fst x))) =? 1356) && (mc_sum (fst x) =? 4525207).
Definition mc_check (x : bool * reader) : bool :=
  let '(ok, r) := x in
  ok && match session 1200 r mc_ops, session 1200 (on_array (file_mem mc_file) 0 r) mc_ops with Ok x, Ok y => mc_pass x y | _, _ => false end.

Lemma mirror_case : cfg_ok (r_cfg (new_reader KSd)) /\ fsize mc_file <= 2 ^ 31 /\
  exists r bs a bs' r', mc_open = Ok (true, r) /\ session 1200 (on_array (file_mem mc_file) 0 r) mc_ops = Ok (bs, a) /\
    session 1200 r mc_ops = Ok (bs', r') /\ misses r' = 0 /\ Z.of_nat (length (concat bs')) = 1356 /\ mc_sum bs' = 4525207.
Proof.
  split; [apply cfg_sd_ok|]. split; [vm_compute; discriminate|].
  destruct (res_with mc_open mc_check) as ([ok r] & E & H); [vm_compute; reflexivity|]. unfold mc_check in H.
  destruct ok; [|discriminate]. cbn [andb] in H. apply two_res in H. destruct H as ([bs' r'] & [bs a] & EF & EA & H).
  unfold mc_pass in H. cbn [fst snd] in H.
  rewrite !andb_true_iff, !Z.eqb_eq in H. destruct H as [[H1 H2] H3]. exists r, bs, a, bs', r'. auto 7.
Qed.

(* one read inside a part of the buffers *)
Definition has_blockb (f : ifile) (q : Z) : bool := existsb (fun b => (b_index b =? q) && (0 <? b_size b)) (i_bufs f).
Lemma has_blockb_ok : forall f q, has_blockb f q = true -> has_block f q.
Proof.
  intros f q H. apply existsb_exists in H. destruct H as (b & I & H). apply andb_true_iff in H. destruct H as [H1 H2].
  exists b. split; [auto|]. lia.
Qed.
Definition pc_pass (x : list (list Z) * reader) : bool :=
  (Z.of_nat (length (fst x)) =? 128) && (fold_right Z.add 0 (concat (fst x)) =? 8128).
Definition part_check (fuel : nat) (n : Z) (m : mem) (off : Z) (r : reader) : bool :=
  match r_src r with SFile f => has_blockb f 0 | _ => false end && match r_read fuel (on_array m off r) n with Ok x => pc_pass x | _ => false end.
Lemma part_check_inv : forall fuel n m off r, part_check fuel n m off r = true -> exists f out ra, r_src r = SFile f /\ has_block f 0 /\
  r_read fuel (on_array m off r) n = Ok (out, ra) /\ Z.of_nat (length out) = 128 /\ fold_right Z.add 0 (concat out) = 8128.
Proof.
  intros fuel n m off r H. unfold part_check in H. apply andb_true_iff in H. destruct H as [B0 H].
  destruct (r_src r) as [| |f]; try discriminate. apply res_with in H. destruct H as ([out ra] & X & H). unfold pc_pass in H. cbn [fst] in H.
  rewrite andb_true_iff, !Z.eqb_eq in H. destruct H. exists f, out, ra. apply has_blockb_ok in B0. auto.
Qed.
Definition with_linear (x : res (bool * reader)) : res reader := '(ok, r) <- x ;; if (ok : bool) then Ok (setInterpolationType r ILinear) else NoFuel.
Lemma with_linear_inv : forall x r, with_linear x = Ok r -> exists r1, x = Ok (true, r1) /\ r = setInterpolationType r1 ILinear.
Proof.
  intros x r E. unfold with_linear in E. apply bind_ok in E. destruct E as ([ok r1] & E1 & E). destruct ok; [|discriminate].
  apply Ok_inj in E. exists r1. split; [exact E1|now symmetry].
Qed.
Lemma mc_reach : forall r, mc_open = Ok (true, r) -> exists f, r_src r = SFile f /\ creach cfg_sd mc_file f.
Proof.
  intros r E. apply play_reach in E. destruct E as (f & S & R & _). exists f. split; [exact S|exact R].
Qed.
Lemma pc_reach : forall r f, (with_linear mc_open) = Ok r -> r_src r = SFile f -> creach cfg_sd mc_file f.
Proof.
  intros r f E S. apply with_linear_inv in E. destruct E as (r1 & E1 & ->). destruct (mc_reach r1 E1) as (g & S1 & R).
  assert (X : SFile f = SFile g) by (rewrite <- S1; symmetry; exact S). injection X as ->. exact R.
Qed.
Lemma part_case : exists r f out ra, (with_linear mc_open) = Ok r /\ r_src r = SFile f /\ creach cfg_sd mc_file f /\
  buffered cfg_sd mc_file f 0 300 /\ r_read 200 (on_array (part_mem mc_file 0 300) (- (2 * 0)) r) 128 = Ok (out, ra) /\
  Z.of_nat (length out) = 128 /\ fold_right Z.add 0 (concat out) = 8128.
Proof.
  destruct (res_with (with_linear mc_open) (part_check 200 128 (part_mem mc_file 0 300) (- (2 * 0)))) as (r & E & H); [vm_compute; reflexivity|].
  apply part_check_inv in H. destruct H as (f & out & ra & S & B0 & X & H1 & H2). pose proof (pc_reach r f E S) as R.
  exists r, f, out, ra. split; [exact E|]. split; [exact S|]. split; [exact R|].
  split; [|auto]. split; [lia|]. split; [vm_compute; discriminate|]. intros i I.
  assert (Q : i / BS cfg_sd = 0). { apply Z.div_small. change (BS cfg_sd) with 2048. lia. } rewrite Q. exact B0.
Qed.

(* the same timeline with and without reloads *)
Definition tc_ops1 : list sop := SRate (d_of_Z 16) :: concat (repeat [SRead 125; SReload] 8).
Definition tc_ops2 : list sop := SRate (d_of_Z 16) :: SInterp ILinear :: repeat (SRead 125) 8.
Definition tc_pass (x y : list (list (list Z)) * reader) : bool :=
  (misses (snd x) =? 0) && (misses (snd y) =? 104) && (r_pos1 (snd x) =? 16000) && negb (mc_sum (fst x) =? mc_sum (fst y)).
Definition tc_check (x : bool * reader) : bool :=
  let '(ok, r) := x in
  ok && match session 600 r tc_ops1, session 600 r tc_ops2 with Ok x, Ok y => tc_pass x y | _, _ => false end.
Lemma timeline_case : filter timed tc_ops1 = filter timed tc_ops2 /\ exists r bs r1 ds r2, mc_open = Ok (true, r) /\
  session 600 r tc_ops1 = Ok (bs, r1) /\ session 600 r tc_ops2 = Ok (ds, r2) /\ misses r1 = 0 /\ misses r2 = 104 /\ r_pos1 r1 = 16000 /\
  bs <> ds.
Proof.
  split; [reflexivity|]. destruct (res_with mc_open tc_check) as ([ok r] & E & H); [vm_compute; reflexivity|]. unfold tc_check in H.
  destruct ok; [|discriminate]. cbn [andb] in H.
  apply two_res in H. destruct H as ([bs r1] & [ds r2] & E1 & E2 & H). unfold tc_pass in H. cbn [fst snd] in H.
  rewrite !andb_true_iff, !Z.eqb_eq, negb_true_iff, Z.eqb_neq in H. destruct H as [[[H1 H2] H3] H4].
  exists r, bs, r1, ds, r2. repeat (split; [auto|]). intros ->. auto.
Qed.
