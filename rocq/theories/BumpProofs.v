(* The miss counter of a file source is only counted up: nothing depends on it. *)

From Coq Require Import ZArith Lia List Bool.
From RecordUpdate Require Import RecordUpdate.
From Flocq Require Import IEEE754.BinarySingleNaN.
From Verif Require Import Machine Floats WavModel InterpModel CacheModel ReaderModel FileSpec.
Import ListNotations.
Local Open Scope Z_scope.

Definition bump_file (v : Z) (f : ifile) : ifile := f <| i_fails := i_fails f + v |>.
Definition bump_src (v : Z) (s : source) : source := match s with SFile f => SFile (bump_file v f) | _ => s end.
(* r with v more misses *)
Definition bump (v : Z) (r : reader) : reader := r <| r_src := bump_src v (r_src r) |>.

Definition lift {A} (v : Z) (x : res (A * reader)) : res (A * reader) :=
  match x with Ok (a, r) => Ok (a, bump v r) | UB w => UB w | NoFuel => NoFuel end.
Definition lift1 (v : Z) (x : res reader) : res reader :=
  match x with Ok r => Ok (bump v r) | UB w => UB w | NoFuel => NoFuel end.

Lemma lift_bind : forall A B v (x y : res (A * reader)) (k k' : A * reader -> res (B * reader)),
  y = lift v x -> (forall a r, k' (a, bump v r) = lift v (k (a, r))) -> bind y k' = lift v (bind x k).
Proof. intros A B v x y k k' -> H. destruct x as [[a r]| |]; cbn [lift bind]; auto. Qed.
Lemma lift_bind1 : forall B v (x y : res reader) (k k' : reader -> res (B * reader)),
  y = lift1 v x -> (forall r, k' (bump v r) = lift v (k r)) -> bind y k' = lift v (bind x k).
Proof. intros B v x y k k' -> H. destruct x as [r| |]; cbn [lift1 bind]; auto. Qed.
Lemma lift1_bind : forall A v (x y : res (A * reader)) (k k' : A * reader -> res reader),
  y = lift v x -> (forall a r, k' (a, bump v r) = lift1 v (k (a, r))) -> bind y k' = lift1 v (bind x k).
Proof. intros A v x y k k' -> H. destruct x as [[a r]| |]; cbn [lift bind]; auto. Qed.
Lemma lift1_bind1 : forall v (x y : res reader) (k k' : reader -> res reader),
  y = lift1 v x -> (forall r, k' (bump v r) = lift1 v (k r)) -> bind y k' = lift1 v (bind x k).
Proof. intros v x y k k' -> H. destruct x as [r| |]; cbn [lift1 bind]; auto. Qed.
Lemma pure_bind : forall A B v (x : res A) (k k' : A -> res (B * reader)),
  (forall a, k' a = lift v (k a)) -> bind x k' = lift v (bind x k).
Proof. intros A B v x k k' H. destruct x; cbn; auto. Qed.
Lemma pure_bind1 : forall A v (x : res A) (k k' : A -> res reader),
  (forall a, k' a = lift1 v (k a)) -> bind x k' = lift1 v (bind x k).
Proof. intros A v x k k' H. destruct x; cbn; auto. Qed.

Section B.
Variable v : Z.

Lemma bump_get : forall f i, if_get (bump_file v f) i = (fst (if_get f i), bump_file v (snd (if_get f i))).
Proof.
  intros f i. unfold if_get, bump_file. cbn [i_cfg i_bufs]. change (i_cfg (f <| i_fails := i_fails f + v |>)) with (i_cfg f).
  change (i_bufs (f <| i_fails := i_fails f + v |>)) with (i_bufs f).
  destruct (find_with_index _ (i_bufs f)) as [[a|] l]; cbn [fst snd]; [reflexivity|]. f_equal.
  change (f <| i_bufs := l |> <| i_fails := i_fails f + v + 1 |> = f <| i_bufs := l |> <| i_fails := i_fails f + 1 + v |>).
  now replace (i_fails f + v + 1) with (i_fails f + 1 + v) by lia.
Qed.

Lemma bump_value : forall r i, getSourceBufferValue (bump v r) i = lift v (getSourceBufferValue r i).
Proof.
  intros r i. unfold getSourceBufferValue. unfold bump at 1. cbn [r_src]. change (r_src (r <| r_src := bump_src v (r_src r) |>)) with (bump_src v (r_src r)).
  change (r_kind (bump v r)) with (r_kind r). destruct (r_src r) as [|m off|f] eqn:E; cbn [bump_src].
  - assert (bump v r = r) as -> by (unfold bump; rewrite E; destruct r; cbn in *; subst; reflexivity).
    destruct (r_kind r); cbn [lift]; try reflexivity. f_equal. f_equal. unfold bump. rewrite E. destruct r; cbn in *; subst; reflexivity.
  - assert (X : bump v r = r) by (unfold bump; rewrite E; destruct r; cbn in *; subst; reflexivity).
    destruct (_ && _); cbn [lift]; rewrite ?X; reflexivity.
  - rewrite bump_get. destruct (if_get f i) as [w f']. cbn [fst snd lift]. reflexivity.
Qed.

Lemma bump_getAt : forall r p o c, getAt (bump v r) p o c = lift v (getAt r p o c).
Proof.
  intros r p o c. unfold getAt. change (r_nch (bump v r)) with (r_nch r).
  apply pure_bind. intro. apply pure_bind. intro. apply bump_value.
Qed.

Lemma bump_add : forall r c y, addPoint (bump v r) c y = lift1 v (addPoint r c y).
Proof.
  intros r c y. unfold addPoint. change (r_interp (bump v r)) with (r_interp r).
  destruct (r_interp r); [reflexivity| |]; apply pure_bind1; intro; reflexivity.
Qed.

Lemma bump_at_end : forall r, at_end (bump v r) = at_end r.
Proof. reflexivity. Qed.

Lemma bump_fetch : forall r c, fetch_value (bump v r) c = lift v (fetch_value r c).
Proof.
  intros r c. unfold fetch_value. change (r_dual (bump v r)) with (r_dual r). change (r_cfst (bump v r)) with (r_cfst r).
  change (r_pos1 (bump v r)) with (r_pos1 r). change (r_pos2 (bump v r)) with (r_pos2 r). change (r_cf (bump v r)) with (r_cf r).
  destruct (_ || _); [apply bump_getAt|]. destruct (deq _ _); [apply bump_getAt|].
  apply lift_bind; [apply bump_getAt|]. intros a r1. apply lift_bind; [apply bump_getAt|]. intros b r2.
  apply pure_bind. intro. reflexivity.
Qed.

Lemma bump_linear : forall r c w, linear_value (bump v r) c w = lift v (linear_value r c w).
Proof.
  intros r c w. unfold linear_value. change (r_rem (bump v r)) with (r_rem r). change (r_rate (bump v r)) with (r_rate r).
  change (r_dual (bump v r)) with (r_dual r). change (r_npts (bump v r)) with (r_npts r). change (r_pos1 (bump v r)) with (r_pos1 r).
  change (r_nch (bump v r)) with (r_nch r). change (r_hdr (bump v r)) with (r_hdr r).
  cbv zeta. destruct (dlt d0 (dabs (r_rem r))).
  - apply lift_bind1.
    + destruct (dlt d0 (r_rate r)).
      * destruct (dlt _ _); [|reflexivity]. apply lift1_bind1; [|intro; apply bump_add].
        destruct (r_dual r); [reflexivity|]. apply pure_bind1. intro. destruct (_ && _); [|reflexivity].
        apply pure_bind1. intro. apply pure_bind1. intro. destruct (_ <? _); [|reflexivity].
        apply lift1_bind; [apply bump_getAt|]. intros; reflexivity.
      * destruct (dlt (r_rate r) d0); [|reflexivity]. destruct (dlt _ _); [|reflexivity].
        apply lift1_bind1; [|intro; apply bump_add].
        destruct (r_dual r); [reflexivity|]. apply pure_bind1. intro. destruct (_ && _); [|reflexivity].
        apply lift1_bind; [apply bump_getAt|]. intros; reflexivity.
    + intro r1. apply pure_bind. intro. change (r_npts (bump v r1)) with (r_npts r1). change (r_pts (bump v r1)) with (r_pts r1).
      destruct (_ <? _); [|reflexivity]. apply pure_bind. intro. reflexivity.
  - apply lift_bind1; [apply bump_add|]. intro. reflexivity.
Qed.

Lemma bump_push : forall fwd c n r, push_points n fwd (bump v r) c = lift1 v (push_points n fwd r c).
Proof.
  intros fwd c. induction n as [|n IH]; intros r; [reflexivity|]. cbn [push_points].
  change (r_dual (bump v r)) with (r_dual r). change (r_pos1 (bump v r)) with (r_pos1 r). change (r_pos2 (bump v r)) with (r_pos2 r).
  change (r_cfst (bump v r)) with (r_cfst r). change (r_loop (bump v r)) with (r_loop r). change (r_cf (bump v r)) with (r_cf r).
  apply lift1_bind; [apply bump_getAt|]. intros a r1. apply lift1_bind.
  - destruct (_ && _); [|reflexivity]. apply lift_bind; [apply bump_getAt|]. intros b r2. apply pure_bind. reflexivity.
  - intros b r2. apply lift1_bind1; [apply bump_add|]. intro. apply IH.
Qed.

Lemma bump_quadratic : forall r c w, quadratic_value (bump v r) c w = lift v (quadratic_value r c w).
Proof.
  intros r c w. unfold quadratic_value. change (r_rem (bump v r)) with (r_rem r). change (r_rate (bump v r)) with (r_rate r).
  cbv zeta. apply lift_bind1.
  - destruct (dlt d0 (r_rate r)).
    + destruct (dlt _ _); [|reflexivity]. apply pure_bind1. intro. apply bump_push.
    + destruct (dlt (r_rate r) d0); [|reflexivity]. destruct (dlt _ _); [|reflexivity]. apply pure_bind1. intro. apply bump_push.
  - intro r1. apply pure_bind. intro. change (r_npts (bump v r1)) with (r_npts r1). change (r_pts (bump v r1)) with (r_pts r1).
    destruct (_ <=? _); [|reflexivity]. apply pure_bind. reflexivity.
Qed.

Lemma bump_next : forall r c, readNextValue (bump v r) c = lift v (readNextValue r c).
Proof.
  intros r c. unfold readNextValue. rewrite bump_at_end. change (r_interp (bump v r)) with (r_interp r).
  destruct (at_end r); [reflexivity|]. apply lift_bind; [apply bump_fetch|]. intros a r1.
  apply lift_bind; [|reflexivity]. destruct (r_interp r); [reflexivity|apply bump_linear|apply bump_quadratic].
Qed.

Lemma bump_on_end : forall r, on_end (bump v r) = match on_end r with Ok (Some r1) => Ok (Some (bump v r1)) | x => x end.
Proof.
  intros r. unfold on_end. change (r_loop (bump v r <| r_cfst := 0 |>)) with (r_loop r).
  change (r_loop (r <| r_cfst := 0 |>)) with (r_loop r).
  change (r_rate (bump v r <| r_cfst := 0 |>)) with (r_rate r). change (r_rate (r <| r_cfst := 0 |>)) with (r_rate r).
  change (r_lf (bump v r <| r_cfst := 0 |>)) with (r_lf r). change (r_lf (r <| r_cfst := 0 |>)) with (r_lf r).
  change (r_nch (bump v r <| r_cfst := 0 |>)) with (r_nch r). change (r_nch (r <| r_cfst := 0 |>)) with (r_nch r).
  destruct (r_loop r); [reflexivity| |]; destruct (dle _ _); try reflexivity; destruct (chk32 _); reflexivity.
Qed.

Lemma bump_one : forall c fuel r, read_one fuel c (bump v r) = lift v (read_one fuel c r).
Proof.
  intros c. induction fuel as [|fuel IH]; intros r; [reflexivity|]. cbn [read_one].
  apply lift_bind; [apply bump_next|]. intros [a|] r1; [reflexivity|]. rewrite bump_on_end.
  destruct (on_end r1) as [[r2|]| |]; cbn [bind]; try reflexivity. apply IH.
Qed.

Lemma bump_channels : forall fuel todo c r, read_channels fuel todo c (bump v r) = lift v (read_channels fuel todo c r).
Proof.
  intros fuel. induction todo as [|todo IH]; intros c r; [reflexivity|]. cbn [read_channels].
  apply lift_bind; [apply bump_one|]. intros [a|] r1; [|reflexivity]. apply lift_bind; [apply IH|]. reflexivity.
Qed.

Lemma bump_fade : forall r, updateCrossfade (bump v r) = lift1 v (updateCrossfade r).
Proof.
  intros r. unfold updateCrossfade.
  change (r_loop (bump v r)) with (r_loop r). change (r_rate (bump v r)) with (r_rate r). change (r_cfst (bump v r)) with (r_cfst r).
  change (r_pos1 (bump v r)) with (r_pos1 r). change (r_lf (bump v r)) with (r_lf r). change (r_ls (bump v r)) with (r_ls r).
  change (r_cfdur (bump v r)) with (r_cfdur r).
  change (spos (bump v r)) with (spos r). cbv zeta. set (pp := loop_eqb _ _).
  match goal with |- (if r_cfst ?a =? 1 then _ else _) = lift1 v (if r_cfst ?b =? 1 then _ else _) =>
    assert (E : a = bump v b) by (destruct (dle _ _); destruct (_ && _); reflexivity); rewrite E; generalize b end.
  intro r1. change (r_cfst (bump v r1)) with (r_cfst r1). destruct (r_cfst r1 =? 1); [|reflexivity].
  change (r_rate (bump v r1)) with (r_rate r1). change (r_nch (bump v r1)) with (r_nch r1).
  change (spos (bump v r1)) with (spos r1). change (sts (bump v r1)) with (sts r1). change (r_pos2 (bump v r1)) with (r_pos2 r1).
  change (r_lf (bump v r1)) with (r_lf r1). change (r_ls (bump v r1)) with (r_ls r1). change (r_cfdur (bump v r1)) with (r_cfdur r1).
  destruct (xorb _ _); destruct (_ <? _).
  - destruct pp; reflexivity.
  - destruct (u32 (r_nch r1) =? 0); reflexivity.
  - destruct pp; reflexivity.
  - destruct (u32 (r_nch r1) =? 0); reflexivity.
Qed.

Lemma bump_advance : forall r, advance (bump v r) = lift1 v (advance r).
Proof.
  intros r. unfold advance. change (r_rem (bump v r)) with (r_rem r). change (r_rate (bump v r)) with (r_rate r).
  change (r_nch (bump v r)) with (r_nch r). change (r_pos1 (bump v r)) with (r_pos1 r). change (r_cfst (bump v r)) with (r_cfst r).
  change (r_loop (bump v r)) with (r_loop r). change (r_pos2 (bump v r)) with (r_pos2 r). cbv zeta.
  apply pure_bind1. intro. apply pure_bind1. intro. apply pure_bind1. intro. destruct (_ =? _); [reflexivity|].
  apply pure_bind1. intro. reflexivity.
Qed.

Lemma bump_frame : forall fuel r, read_frame fuel (bump v r) = lift v (read_frame fuel r).
Proof.
  intros fuel r. unfold read_frame. change (r_dual (bump v r)) with (r_dual r). apply lift_bind1.
  - destruct (r_dual r); [apply bump_fade|reflexivity].
  - intro r1. change (r_nch (bump v r1)) with (r_nch r1). apply lift_bind; [apply bump_channels|].
    intros [a|] r2; [|reflexivity]. apply lift_bind1; [apply bump_advance|]. reflexivity.
Qed.

Lemma bump_loop : forall ifuel fuel r n, read_loop ifuel fuel (bump v r) n = lift v (read_loop ifuel fuel r n).
Proof.
  intros ifuel. induction fuel as [|fuel IH]; intros r n; cbn [read_loop]; destruct (n <=? 0); try reflexivity.
  apply lift_bind; [apply bump_frame|]. intros [a|] r1; [|reflexivity]. change (r_nch (bump v r)) with (r_nch r).
  destruct (_ =? _); [apply IH|]. apply lift_bind; [apply IH|]. reflexivity.
Qed.

Lemma bump_read : forall fuel r n, r_read fuel (bump v r) n = lift v (r_read fuel r n).
Proof.
  intros fuel r n. unfold r_read. change (r_playing (bump v r)) with (r_playing r). change (r_nch (bump v r)) with (r_nch r).
  destruct (negb _); [reflexivity|]. destruct (_ <? _); try reflexivity. apply bump_loop.
Qed.

(* ---- reloads ------------------------------------------------------------------ *)

Lemma bump_step : forall f x, reload_step (bump_file v f) x =
  match reload_step f x with Ok (Some (g, f1)) => Ok (Some (g, bump_file v f1)) | y => y end.
Proof.
  intros f x. unfold reload_step. change (i_bufs (bump_file v f)) with (i_bufs f). destruct (i_bufs f) as [|b0 rest]; [reflexivity|].
  destruct (negb _); [reflexivity|]. change (reload_decide (bump_file v f) x b0) with (reload_decide f x b0).
  destruct (reload_decide f x b0) as [[[nx ld] act]| |]; cbn [bind]; try reflexivity.
  change (i_cfg (bump_file v f)) with (i_cfg f).
  destruct ld.
  - change (loadBuffer (bump_file v f)) with (loadBuffer f). destruct (loadBuffer f b0 _) as [[b' p] n]. destruct act; reflexivity.
  - destruct act; reflexivity.
Qed.

Lemma bump_reloads : forall fuel f x, reload_loop fuel (bump_file v f) x =
  match reload_loop fuel f x with Ok f1 => Ok (bump_file v f1) | y => y end.
Proof.
  induction fuel as [|fuel IH]; intros f x; [reflexivity|]. cbn [reload_loop]. rewrite bump_step.
  destruct (reload_step f x) as [[[[] f1]|]| |]; cbn [bind]; auto.
Qed.

Lemma bump_reload : forall fuel r, r_triggerReload fuel (bump v r) = lift1 v (r_triggerReload fuel r).
Proof.
  intros fuel r. unfold r_triggerReload. unfold bump at 1. change (r_src (r <| r_src := bump_src v (r_src r) |>)) with (bump_src v (r_src r)).
  assert (X : forall s, r_src r = s -> bump_src v s = s -> bump v r = r).
  { intros s E1 E2. unfold bump. rewrite E1, E2, <- E1. destruct r; reflexivity. }
  destruct (r_src r) as [|m off|f] eqn:E; cbn [bump_src].
  - cbn [lift1]. rewrite (X _ eq_refl eq_refl). reflexivity.
  - cbn [lift1]. rewrite (X _ eq_refl eq_refl). reflexivity.
  - change (r_rate (bump v r)) with (r_rate r). unfold triggerReload. change (reload_rate (bump_file v f)) with (reload_rate f).
    rewrite bump_reloads. destruct (reload_loop fuel f _) as [f1| |]; cbn [bind lift1]; try reflexivity.
    change (if_resetStatus (bump_file v f1)) with (bump_file v (if_resetStatus f1)).
    change (i_prev (bump_file v (if_resetStatus f1))) with (i_prev (if_resetStatus f1)).
    destruct (feq _ _); reflexivity.
Qed.

Lemma bump_serviced : forall fuel ns r, serviced fuel (bump v r) ns = lift v (serviced fuel r ns).
Proof.
  intros fuel. induction ns as [|n ns IH]; intros r; [reflexivity|]. cbn [serviced].
  apply lift_bind; [apply bump_read|]. intros b r1. apply lift_bind1; [apply bump_reload|]. intro r2.
  apply lift_bind; [apply IH|]. reflexivity.
Qed.

End B.

Lemma bump_0 : forall r, bump 0 r = r.
Proof.
  intros r. unfold bump, bump_src. destruct (r_src r) as [| |f] eqn:E; destruct r; cbn in *; subst; try reflexivity.
  unfold bump_file. rewrite Z.add_0_r. destruct f; reflexivity.
Qed.

Lemma bump_misses : forall v r f, r_src r = SFile f -> misses (bump v r) = misses r + v.
Proof. intros v r f E. unfold misses, bump. rewrite E. cbn. reflexivity. Qed.

Lemma bump_bump : forall v w r, bump v (bump w r) = bump (w + v) r.
Proof.
  intros v w r. unfold bump. change (r <| r_src := bump_src v (bump_src w (r_src r)) |> = r <| r_src := bump_src (w + v) (r_src r) |>).
  replace (bump_src v (bump_src w (r_src r))) with (bump_src (w + v) (r_src r)); [reflexivity|].
  destruct (r_src r) as [| |f]; cbn [bump_src]; try reflexivity. f_equal.
  change (f <| i_fails := i_fails f + (w + v) |> = f <| i_fails := i_fails f + w + v |>). now rewrite Z.add_assoc.
Qed.
