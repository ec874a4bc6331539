(* What fetches and reloads do to the window of buffered blocks when playback has
   run ahead of it *)

From Coq Require Import ZArith Lia List Bool.
From RecordUpdate Require Import RecordUpdate.
From Flocq Require Import IEEE754.BinarySingleNaN.
From Verif Require Import Machine Floats WavModel CacheModel CacheFacts CacheSpec CacheProofs CacheFinal ReaderModel FileSpec
  RaceModel RaceProofs WindowProofs RaceSpec RaceCache BumpProofs.
Import ListNotations.
Local Open Scope Z_scope.

Lemma bump_file_0 : forall f, bump_file 0 f = f.
Proof. intros f. unfold bump_file. rewrite Z.add_0_r. destruct f; reflexivity. Qed.
Lemma bump_file_bump : forall v w f, bump_file v (bump_file w f) = bump_file (w + v) f.
Proof.
  intros v w f. change (f <| i_fails := i_fails f + w + v |> = f <| i_fails := i_fails f + (w + v) |>). now rewrite Z.add_assoc.
Qed.

Section L.
Variables (c : ccfg) (fl : file).
Hypothesis C : cfg_ok c.
Hypothesis FS : fsize fl <= 2 ^ 31.

Lemma find_none : forall q l, (forall b, In b l -> b_index b <> q) -> find_with_index q l = (None, map mark l).
Proof.
  intros q. induction l as [|x l IH]; intros H; [reflexivity|]. cbn [find_with_index map].
  destruct (Z.eqb_spec (b_index x) q) as [E|_]; [now apply H in E; [|left]|]. cbn [andb].
  rewrite IH by (intros b I; apply H; now right). reflexivity.
Qed.

Definition gone (f : ifile) : Prop := Forall (fun b => b_status b = StUnused) (i_bufs f).

Lemma win_marked : forall j m f l, win c fl j m f -> map stored l = map stored (i_bufs f) -> win c fl j m (f <| i_bufs := l |>).
Proof.
  intros j m f l [W1 W2 W3 W4 W5 W6 W7] E. constructor; try assumption; cbn.
  - rewrite <- (map_length stored), E, map_length. exact W5.
  - eapply Forall_stored; [exact E|exact W6].
  - intros t b N. pose proof (map_nth_error stored _ _ N) as M. rewrite E in M. rewrite nth_error_map in M.
    destruct (nth_error (i_bufs f) t) as [y|] eqn:Y; [|discriminate]. cbn [option_map] in M. apply Some_inj in M.
    destruct (W7 t y Y) as [H1 H2]. unfold stored in M. injection M as M1 M2 M3. rewrite <- M1, <- M2. auto.
Qed.

Lemma mark_all : forall l, map stored (map mark l) = map stored l.
Proof.
  intros l. rewrite map_map. apply map_ext. intros b. unfold mark. destruct (is_read _); reflexivity.
Qed.

(* A fetch beyond the window: every buffer that was not read counts as unused *)
Lemma get_beyond : forall j m f i, win c fl j m f -> in_file fl i -> j + Z.of_nat m <= blk c i ->
  if_get f i = (0, bump_file 1 (f <| i_bufs := map mark (i_bufs f) |>)) /\ win c fl j m (f <| i_bufs := map mark (i_bufs f) |>).
Proof.
  intros j m f i W IN B. destruct (file_blk c fl C FS i IN) as (U & _ & _).
  pose proof W as [W1 W2 W3 W4 W5 W6 W7]. split.
  - unfold if_get. rewrite W1, U, find_none; [reflexivity|].
    intros b I. apply In_nth_error in I. destruct I as (t & N). destruct (W7 t b N) as [X _].
    assert (t < m)%nat by (rewrite <- W5; apply nth_error_Some; congruence). lia.
  - apply win_marked; [exact W|apply mark_all].
Qed.

Lemma get_gone : forall j m f i, win c fl j m f -> in_file fl i -> j + Z.of_nat m <= blk c i -> marks None f \/ gone f ->
  exists x g, if_get f i = (x, bump_file 1 g) /\ win c fl j m g /\ gone g.
Proof.
  intros j m f i W IN B H. destruct (get_beyond j m f i W IN B) as [E W']. do 2 eexists. split; [exact E|]. split; [exact W'|].
  unfold gone. cbn. apply Forall_forall. intros b I. apply in_map_iff in I. destruct I as (y & <- & I).
  unfold mark. destruct H as [H|H].
  - apply In_nth_error in I. destruct I as (t & N). pose proof (H t y N) as S. cbn in S. rewrite S. reflexivity.
  - unfold gone in H. rewrite Forall_forall in H. rewrite (H y I). reflexivity.
Qed.

(* Once a buffer of the window has been read, later fetches change nothing that matters *)
Lemma get_after : forall j m a f i, win c fl j m f -> win_ok c fl j m -> marks (Some a) f -> in_file fl i -> j + Z.of_nat a <= blk c i ->
  exists x v g, if_get f i = (x, bump_file v g) /\ win c fl j m g /\ marks (Some a) g.
Proof.
  intros j m a f i W WO MK IN B. destruct (Z.lt_ge_cases (blk c i) (j + Z.of_nat m)) as [L|L].
  - destruct (win_get c fl j m f i (Some a) C FS W WO MK IN) as (g & E & W' & MK'); auto.
    { destruct WO as (M & _). lia. }
    exists (file_sample fl i), 0, g. rewrite bump_file_0. auto.
  - destruct (get_beyond j m f i W IN L) as [E W']. do 3 eexists. split; [exact E|]. split; [exact W'|].
    intros t b N. cbn in N. rewrite nth_error_map in N. destruct (nth_error (i_bufs f) t) as [y|] eqn:Y; [|discriminate].
    cbn [option_map] in N. apply Some_inj in N. subst b. destruct (MK t y Y) as [M1 M2]. unfold mark. split; intro T.
    + rewrite (M1 T). reflexivity.
    + rewrite (M2 T). cbn. auto.
Qed.

(* ---- reloads, whatever the marks ------------------------------------------------ *)

Definition fresh (l : list ibuf) : Prop := match l with [] => True | b :: _ => b_status b <> StUnused end.

Lemma fresh_app : forall l b, fresh l -> b_status b = StLoaded -> fresh (l ++ [b]).
Proof. intros [|x l] b H E; cbn; [rewrite E; discriminate|exact H]. Qed.

Lemma step_shape : forall f x b0 rest f', fle f0 x = true -> i_loop f = LNone -> i_bufs f = b0 :: rest ->
  reload_step f x = Ok (Some (true, f')) -> exists b', i_bufs f' = rest ++ [b'] /\ b_status b' = StLoaded.
Proof.
  intros f x b0 rest f' X L E H. unfold reload_step in H. rewrite E in H. destruct (negb _); [discriminate|].
  unfold reload_decide in H. rewrite X, L in H. cbn [bind] in H.
  destruct (loadBuffer f b0 _) as [[b' p] n] eqn:LD. apply Ok_inj in H. assert (Q : f <| i_bufs := b' :: rest |> <| i_pos := p |> <| i_bufs := rest ++ [b'] |> = f') by congruence.
  subst f'. exists b'. split; [reflexivity|]. unfold loadBuffer in LD.
  assert (Q : b' = fst (fst (b', p, n))) by reflexivity. rewrite <- LD in Q. subst b'. reflexivity.
Qed.

Lemma win_loop_any : forall x, fle f0 x = true -> forall l1 l2 j m f, win c fl j m f -> win_ok c fl j m -> i_bufs f = l1 ++ l2 ->
  Forall (fun b => b_status b = StUnused) l1 -> fresh l2 -> (j + Z.of_nat (length l1)) * BS c < 2 ^ 30 ->
  exists f', reload_loop (S (length l1)) f x = Ok f' /\ win c fl (j + Z.of_nat (length l1)) m f' /\ win_ok c fl (j + Z.of_nat (length l1)) m.
Proof.
  intros x X. pose proof (BS_pos _ C) as HB.
  induction l1 as [|b0 l1 IH]; intros l2 j m f W WO E U FR B; cbn [reload_loop length].
  - cbn [Z.of_nat]. rewrite Z.add_0_r. exists f. split; auto. unfold reload_step. rewrite E. cbn [app].
    destruct l2 as [|b l2]; [reflexivity|]. cbn in FR. destruct (b_status b); [reflexivity|congruence|reflexivity] || (destruct (is_unused (b_status b)) eqn:IU; [|reflexivity]; destruct (b_status b); cbn in IU; congruence).
  - apply Forall_cons_iff in U. destruct U as [U1 U2]. cbn [app] in E. cbn [length] in B.
    destruct (win_step c fl j m f x b0 (l1 ++ l2) C FS W WO X E U1 ltac:(nia)) as (f1 & E1 & W1 & WO1 & _).
    destruct (step_shape f x b0 (l1 ++ l2) f1 X (wi_loop _ _ _ _ _ W) E E1) as (b' & E2 & S2).
    rewrite E1. cbn [bind].
    destruct (IH (l2 ++ [b']) (j + 1) m f1 W1 WO1) as (f2 & E3 & W3 & WO3); auto.
    { now rewrite E2, app_assoc. } { now apply fresh_app. } { nia. }
    cbn [reload_loop length] in E3. exists f2. split; [exact E3|].
    replace (j + Z.of_nat (S (length l1))) with (j + 1 + Z.of_nat (length l1)) by lia. auto.
Qed.

Lemma split_used : forall l, exists l1 l2, l = l1 ++ l2 /\ Forall (fun b => b_status b = StUnused) l1 /\ fresh l2.
Proof.
  induction l as [|b l IH]; [exists [], []; repeat split; auto|].
  destruct (is_unused (b_status b)) eqn:E.
  - destruct IH as (l1 & l2 & -> & U & F). exists (b :: l1), l2. split; [reflexivity|]. split; [|exact F]. constructor; [|exact U].
    destruct (b_status b); try discriminate. reflexivity.
  - exists [], (b :: l). repeat split; auto. cbn. intros X. rewrite X in E. discriminate.
Qed.

Lemma win_reload_any : forall x l1 l2 j m f, fle f0 x = true -> win c fl j m f -> win_ok c fl j m -> i_bufs f = l1 ++ l2 ->
  Forall (fun b => b_status b = StUnused) l1 -> fresh l2 -> (j + Z.of_nat (length l1)) * BS c < 2 ^ 30 ->
  exists F f', (forall extra, triggerReload (F + extra) f x = Ok f') /\ win c fl (j + Z.of_nat (length l1)) m f' /\
    win_ok c fl (j + Z.of_nat (length l1)) m /\ marks None f'.
Proof.
  intros x l1 l2 j m f X W WO E U FR B.
  destruct (win_loop_any x X l1 l2 j m f W WO E U FR B) as (f1 & E1 & W1 & WO1).
  assert (RR : reload_rate f x = x) by (unfold reload_rate; now rewrite (wi_loop _ _ _ _ _ W)).
  destruct (reset_win _ _ _ _ _ W1) as [W2 M2].
  exists (S (length l1)). exists (let f2 := if_resetStatus f1 in if feq f0 (i_prev f2) then f2 <| i_prev := x |> else f2).
  split; [|split; [|split]]; auto.
  - intros extra. unfold triggerReload. rewrite RR, (reload_loop_fuel _ _ _ _ _ E1). reflexivity.
  - cbv zeta. destruct (feq _ _); auto using prev_win.
  - cbv zeta. destruct (feq _ _); auto.
Qed.

(* ---- interrupted reloads ---------------------------------------------------------- *)

(* All buffers are in use, or the end of the file is buffered *)
Definition reaching (f : ifile) : Prop :=
  length (i_bufs f) = c_nbuf c \/ exists b, In b (i_bufs f) /\ fsize fl <= 2 * ((b_index b + 1) * BS c).

Lemma reaching_indices : forall f f', map b_index (i_bufs f') = map b_index (i_bufs f) -> reaching f -> reaching f'.
Proof.
  intros f f' E [H|(b & I & H)].
  - left. rewrite <- H, <- (map_length b_index (i_bufs f')), E. apply map_length.
  - right. assert (I' : In (b_index b) (map b_index (i_bufs f'))) by (rewrite E; now apply in_map).
    apply in_map_iff in I'. destruct I' as (b' & X & I'). exists b'. rewrite X. auto.
Qed.

Lemma reaching_get : forall f i, reaching f -> reaching (snd (if_get f i)).
Proof.
  intros f i. apply reaching_indices. pose proof (if_get_store f i) as (_ & _ & _ & _ & _ & _ & _ & S).
  replace (map b_index (i_bufs (snd (if_get f i)))) with (map (fun x => fst (fst x)) (map stored (i_bufs (snd (if_get f i))))) by (rewrite map_map; reflexivity).
  rewrite S, map_map. reflexivity.
Qed.

Lemma reaching_step : forall x pbr s t Q, rstep x pbr s t -> ahead c fl in_use Q (fst s) (snd s) -> reaching (snd s) -> reaching (snd t).
Proof.
  intros x pbr s t Q H A. pose proof (BS_pos _ C) as HB. assert (NB : (c_nbuf c <= 64)%nat) by apply C.
  destruct H; cbn [fst snd] in *; try (apply reaching_indices; cbn; rewrite ?H; reflexivity); auto.
  - (* the index is written *)
    destruct A as ([[HC HF] _] & _ & N & BQ & j & J & CO & _ & _ & _ & -> & _). rewrite H in CO.
    intros [R|(b & I & R)]; [left; cbn; rewrite <- R, H; reflexivity|]. right. eexists. split; [left; reflexivity|].
    cbn [b_index]. rewrite H in I. apply (consec_ge _ _ _ _ _ CO) in I. rewrite H in N |- *. rewrite HC.
    unfold blk. rewrite Z.div_mul by lia. cbn [length] in *.
    rewrite u32_id by (unfold in_u32; nia). nia.
  - (* shuffle *)
    destruct A as (_ & _ & _ & _ & j & _ & -> & _). cbn.
    intros [R|(b & I & R)].
    + left. cbn. rewrite <- R, app_length, H. cbn. lia.
    + right. exists b. split; [|exact R]. cbn. rewrite H in I. destruct I as [->|I]; apply in_or_app; [right; left|left]; auto.
  - (* reset *)
    apply reaching_indices. cbn. rewrite map_map. reflexivity.
  - destruct (feq _ _); apply reaching_indices; reflexivity.
Qed.

End L.
