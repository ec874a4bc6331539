(* The setters behave as one step; the calls that stop the reader are silent from then on. *)

From Coq Require Import ZArith Lia List Bool.
From RecordUpdate Require Import RecordUpdate.
From Flocq Require Import IEEE754.BinarySingleNaN.
From Verif Require Import Machine Floats WavModel InterpModel CacheModel CacheFacts ReaderModel ReaderFacts PlayerModel CallModel CallSpec CallProofs CallTweak.
Import ListNotations.
Local Open Scope Z_scope.

Lemma updates_app : forall fuel l1 l2 r, updates fuel (l1 ++ l2) r =
  '(o1, r1) <- updates fuel l1 r ;; '(o2, r2) <- updates fuel l2 r1 ;; Ok (o1 ++ o2, r2).
Proof.
  intros fuel. induction l1 as [|a l1 IH]; intros l2 r; cbn [updates app bind].
  - destruct (updates fuel l2 r) as [[o r1]|u|]; reflexivity.
  - destruct (p_update fuel a r) as [[[ac ev] r1]|u|]; cbn [bind]; try reflexivity. rewrite IH.
    destruct (updates fuel l1 r1) as [[o1 r2]|u|]; cbn [bind]; try reflexivity.
    destruct (updates fuel l2 r2) as [[o2 r3]|u|]; reflexivity.
Qed.
Lemma concat_hd : forall A (m : list (list A)), concat m = hd [] m ++ concat (tl m).
Proof. intros A [|x m]; reflexivity. Qed.

Lemma write_mid : forall fuel g k mids r, interrupted fuel (write g k) mids r =
  '(o, r1) <- updates fuel (hd [] mids) r ;; '(o', b, r3) <- interrupted fuel k (tl mids) (g r1) ;; Ok (o ++ o', b, r3).
Proof. intros. cbn [interrupted write bind]. apply bind_ext. intros [o r1] _. reflexivity. Qed.
Lemma done_mid : forall fuel b mids r, interrupted fuel (Done b) mids r = '(o, r1) <- updates fuel (concat mids) r ;; Ok (o, b, r1).
Proof. reflexivity. Qed.

Lemma one_atomic : forall g r, atomic (write g (Done true)) (fun r => Ok (true, g r)) r.
Proof.
  intros g r fuel mids. exists (hd [] mids), (concat (tl mids)). split; [apply concat_hd|]. rewrite write_mid. unfold between.
  apply bind_ext. intros [o r1] _. rewrite done_mid. cbn [bind]. destruct (updates _ _ _) as [[o2 r2]|u|]; reflexivity.
Qed.
(* the second write could as well follow the first at once *)
Lemma first_atomic : forall g1 g2 r, (forall fuel l r, rsnd g2 (updates fuel l (g1 r)) = updates fuel l (g2 (g1 r))) ->
  atomic (write g1 (write g2 (Done true))) (fun r => Ok (true, g2 (g1 r))) r.
Proof.
  intros g1 g2 r C fuel mids. exists (hd [] mids), (concat (tl mids)). split; [apply concat_hd|]. rewrite write_mid. unfold between.
  apply bind_ext. intros [o r1] _. rewrite write_mid. cbn [bind]. rewrite (concat_hd _ (tl mids)), updates_app, <- C, bind_rsnd.
  destruct (updates fuel (hd [] (tl mids)) (g1 r1)) as [[o2 r2]|u|]; cbn [bind fst snd]; try reflexivity. rewrite done_mid.
  destruct (updates _ _ _) as [[o3 r3]|u|]; reflexivity.
Qed.
(* the first write could as well wait for the second *)
Lemma second_atomic : forall g1 g2 r, (forall fuel l r, updates fuel l (g1 r) = rsnd g1 (updates fuel l r)) ->
  atomic (write g1 (write g2 (Done true))) (fun r => Ok (true, g2 (g1 r))) r.
Proof.
  intros g1 g2 r C fuel mids. exists (hd [] mids ++ hd [] (tl mids)), (concat (tl (tl mids))).
  split; [rewrite <- app_assoc, <- concat_hd; apply concat_hd|]. rewrite write_mid. unfold between. rewrite updates_app.
  destruct (updates fuel (hd [] mids) r) as [[o r1]|u|]; cbn [bind]; try reflexivity. rewrite write_mid, C, bind_rsnd.
  destruct (updates fuel (hd [] (tl mids)) r1) as [[o2 r2]|u|]; cbn [bind fst snd]; try reflexivity. rewrite done_mid.
  destruct (updates _ _ _) as [[o3 r3]|u|]; cbn [bind]; try reflexivity. now rewrite app_assoc.
Qed.

Definition same (x : Z) : Z := x.
Lemma tw_src : forall phi r, tw phi same same same r = match r_src r with SFile f => r <| r_src := SFile (phi f) |> | _ => r end.
Proof. intros phi r. unfold tw, same. destruct (r_src r) as [|m o|f] eqn:S; destruct r; cbn in *; subst; reflexivity. Qed.
Lemma harmless_id : forall r, harmless same same r.
Proof. intros r. left. split; reflexivity. Qed.
Lemma get_loop_type : forall l f i, if_get (if_setLoopType f l) i = (fst (if_get f i), if_setLoopType (snd (if_get f i)) l).
Proof. intros l f i. unfold if_get. cbn [if_setLoopType i_cfg i_bufs]. change (i_bufs (if_setLoopType f l)) with (i_bufs f). change (i_cfg (if_setLoopType f l)) with (i_cfg f).
  destruct (find_with_index _ _) as [[n|] bufs]; reflexivity. Qed.
Lemma get_loop_start : forall x f i, if_get (if_setLoopStart f x) i = (fst (if_get f i), if_setLoopStart (snd (if_get f i)) x).
Proof. intros l f i. unfold if_get. change (i_bufs (if_setLoopStart f l)) with (i_bufs f). change (i_cfg (if_setLoopStart f l)) with (i_cfg f).
  destruct (find_with_index _ _) as [[n|] bufs]; reflexivity. Qed.
Lemma get_loop_finish : forall x f i, if_get (if_setLoopFinish f x) i = (fst (if_get f i), if_setLoopFinish (snd (if_get f i)) x).
Proof. intros l f i. unfold if_get. change (i_bufs (if_setLoopFinish f l)) with (i_bufs f). change (i_cfg (if_setLoopFinish f l)) with (i_cfg f).
  destruct (find_with_index _ _) as [[n|] bufs]; reflexivity. Qed.

Lemma statics_bounds : forall r r', same_statics r r' -> r_hdr r' = r_hdr r /\ r_nch r' = r_nch r /\ r_ls r' = r_ls r /\ r_lf r' = r_lf r.
Proof. intros r r' [S _]. repeat split; symmetry; [apply (f_equal r_hdr) in S|apply (f_equal r_nch) in S|apply (f_equal r_ls) in S|apply (f_equal r_lf) in S]; exact S. Qed.

Lemma rsnd_ext : forall A (g h : reader -> reader) (x : res (A * reader)), (forall a r, x = Ok (a, r) -> g r = h r) -> rsnd g x = rsnd h x.
Proof. intros A g h [[a r]|u|] H; cbn; auto. now rewrite (H a r). Qed.

Lemma setter_atomic : forall s r, atomic (setter_steps s) (fun r => Ok (true, setter_run s r)) r.
Proof.
  intros s r. destruct s; cbn [setter_steps setter_run]; try apply one_atomic.
  - apply (first_atomic (fun r => r <| r_pstart := p |>) (fun r => r <| r_pbstart := s32 v |>)). intros fuel l r0.
    assert (T : forall x, x <| r_pbstart := s32 v |> = tw (fun f => f) (fun _ => s32 v) same same x).
    { intros x. unfold tw, same. destruct x as [? ? ? ? ? ? ? ? ? ? ? ? ? ? ? ? ? ? ? ? ? sr ? ? ? ?]. destruct sr; reflexivity. }
    rewrite (rsnd_ext _ _ _ _ (fun _ r _ => T r)), T. symmetry. apply tw_updates; [|apply harmless_id].
    intros f i. now destruct (if_get f i).
  - assert (T : forall x, src_loop_type l x = tw (fun f => if_setLoopType f l) same same same x) by (intros; now rewrite tw_src).
    apply (second_atomic (src_loop_type l) (fun r => r <| r_loop := l |>)). intros fuel m r0. rewrite (rsnd_ext _ _ _ _ (fun _ r _ => T r)), T.
    apply tw_updates; [apply get_loop_type|apply harmless_id].
  - apply (first_atomic (fun r => r <| r_ls := s32 v |>) src_loop_start). intros fuel m r0. set (r1 := r0 <| r_ls := s32 v |>).
    assert (T : forall x, same_statics r1 x -> src_loop_start x = tw (fun f => if_setLoopStart f (spos r1 (r_ls r1))) same same same x).
    { intros x S. rewrite tw_src. unfold src_loop_start. destruct (statics_bounds _ _ S) as (E1 & E2 & E3 & _). unfold spos, sts. now rewrite E1, E2, E3. }
    rewrite (rsnd_ext _ _ (tw (fun f => if_setLoopStart f (spos r1 (r_ls r1))) same same same)), T by (try apply same_statics_refl; intros a x U; apply T; eapply updates_statics; exact U).
    symmetry. apply tw_updates; [apply get_loop_start|apply harmless_id].
  - apply (first_atomic (fun r => r <| r_lf := s32 v |>) src_loop_finish). intros fuel m r0. set (r1 := r0 <| r_lf := s32 v |>).
    assert (T : forall x, same_statics r1 x -> src_loop_finish x = tw (fun f => if_setLoopFinish f (spos r1 (r_lf r1))) same same same x).
    { intros x S. rewrite tw_src. unfold src_loop_finish. destruct (statics_bounds _ _ S) as (E1 & E2 & _ & E3). unfold spos, sts. now rewrite E1, E2, E3. }
    rewrite (rsnd_ext _ _ (tw (fun f => if_setLoopFinish f (spos r1 (r_lf r1))) same same same)), T by (try apply same_statics_refl; intros a x U; apply T; eapply updates_statics; exact U).
    symmetry. apply tw_updates; [apply get_loop_finish|apply harmless_id].
Qed.
