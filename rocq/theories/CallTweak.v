(* What update() does not look at: the loop settings of the file object and the start
   position, and without a loop also the loop bounds.  Changing them commutes with it. *)

From Coq Require Import ZArith Lia List Bool.
From RecordUpdate Require Import RecordUpdate.
From Flocq Require Import IEEE754.BinarySingleNaN.
From Verif Require Import Machine Floats WavModel InterpModel CacheModel ReaderModel ReaderFacts PlayerModel CacheFacts CallModel CallSpec CallProofs.
Import ListNotations.
Local Open Scope Z_scope.

Definition rmap {A B} (g : A -> B) (x : res A) : res B := match x with Ok a => Ok (g a) | UB u => UB u | NoFuel => NoFuel end.
Definition rsnd {A} (g : reader -> reader) (x : res (A * reader)) : res (A * reader) := rmap (fun p => (fst p, g (snd p))) x.

Lemma bind_rmap : forall A B C (g : A -> B) (x : res A) (k : B -> res C), (y <- rmap g x ;; k y) = (y <- x ;; k (g y)).
Proof. intros A B C g [a|u|] k; reflexivity. Qed.
Lemma bind_rsnd : forall A C (g : reader -> reader) (x : res (A * reader)) (k : A * reader -> res C),
  (y <- rsnd g x ;; k y) = (y <- x ;; k (fst y, g (snd y))).
Proof. intros A C g [[a r]|u|] k; reflexivity. Qed.
Lemma rmap_bind : forall A B C (g : B -> C) (x : res A) (k : A -> res B), rmap g (y <- x ;; k y) = (y <- x ;; rmap g (k y)).
Proof. intros A B C g [a|u|] k; reflexivity. Qed.
Lemma bind_ext : forall A B (x : res A) (k k' : A -> res B), (forall a, x = Ok a -> k a = k' a) -> (y <- x ;; k y) = (y <- x ;; k' y).
Proof. intros A B [a|u|] k k' H; cbn; auto. Qed.

Definition smap (phi : ifile -> ifile) (s : source) : source := match s with SFile f => SFile (phi f) | _ => s end.

(* _updateCrossfade in parts *)
Definition fade_enter (r : reader) : reader :=
  if dle d0 (r_rate r) then
    if (r_cfst r =? 0) && (spos r (r_lf r - r_cfdur r) <=? r_pos1 r) then
      r <| r_pos2 := spos r (if loop_eqb (r_loop r) LPingpong then r_lf r else r_ls r) |> <| r_cfst := 1 |>
    else r
  else
    if (r_cfst r =? 0) && (r_pos1 r <=? spos r (r_ls r + r_cfdur r)) then
      r <| r_pos2 := spos r (if loop_eqb (r_loop r) LPingpong then r_ls r else r_lf r) |> <| r_cfst := 1 |>
    else r.
Definition fade_leave (pp : bool) (r1 : reader) : reader :=
  let r2 := r1 <| r_pos1 := r_pos2 r1 |> <| r_cfst := 0 |> in
  if pp then r2 <| r_rate := dneg (r_rate r2) |> else r2.
Definition fade_gain (r1 : reader) (x : Z) : res reader :=
  if u32 (r_nch r1) =? 0 then UB UbDivZero
  else Ok (r1 <| r_cf := dsub d1 (ddiv (d_of_Z (u32 x / u32 (r_nch r1))) (d_of_Z (r_cfdur r1))) |>).
Definition fade_rest (pp : bool) (r1 : reader) : res reader :=
  if r_cfst r1 =? 1 then
    if xorb pp (dlt d0 (r_rate r1)) then
      if spos r1 (r_ls r1 + r_cfdur r1) <? r_pos2 r1 then Ok (fade_leave pp r1)
      else fade_gain r1 (r_pos2 r1 - sts r1 (r_ls r1))
    else
      if r_pos2 r1 <? spos r1 (r_lf r1 - r_cfdur r1) then Ok (fade_leave pp r1)
      else fade_gain r1 (sts r1 (r_lf r1) - r_pos2 r1)
  else Ok r1.
Lemma fade_parts : forall r, updateCrossfade r = fade_rest (loop_eqb (r_loop r) LPingpong) (fade_enter r).
Proof. reflexivity. Qed.

Section Tweak.
Variable phi : ifile -> ifile.
Variables pb ls lf : Z -> Z.
Hypothesis phi_get : forall f i, if_get (phi f) i = (fst (if_get f i), phi (snd (if_get f i))).

Definition tw (r : reader) : reader :=
  r <| r_src := smap phi (r_src r) |> <| r_pbstart := pb (r_pbstart r) |> <| r_ls := ls (r_ls r) |> <| r_lf := lf (r_lf r) |>.
(* the loop bounds are kept, or not used *)
Definition harmless (r : reader) : Prop :=
  ((forall x, ls x = x) /\ (forall x, lf x = x)) \/ (r_loop r = LNone /\ r_dual r = false /\ r_pstart r = PSample).

Lemma harmless_same : forall r r', same_statics r r' -> harmless r -> harmless r'.
Proof.
  intros r r' S [H|(A & B & C)]; [now left|]. right. repeat split.
  - rewrite <- A. symmetry. now apply statics_loop.
  - rewrite <- B. symmetry. now apply statics_dual.
  - rewrite <- C. destruct S as [S _]. now apply (f_equal r_pstart) in S.
Qed.
Lemma harmless_quiet : forall r r', quiet r r' -> harmless r -> harmless r'.
Proof. intros r r' Q. apply harmless_same. now apply quiet_statics. Qed.

Lemma tw_get : forall r i, getSourceBufferValue (tw r) i = rsnd tw (getSourceBufferValue r i).
Proof.
  intros r i. unfold getSourceBufferValue. change (r_src (tw r)) with (smap phi (r_src r)). change (r_kind (tw r)) with (r_kind r).
  destruct (r_src r) as [|m off|f] eqn:S; cbn [smap].
  - destruct (r_kind r); reflexivity.
  - destruct (_ && _); reflexivity.
  - rewrite phi_get. destruct (if_get f i) as [v f']. reflexivity.
Qed.
Lemma tw_getAt : forall r p o c, getAt (tw r) p o c = rsnd tw (getAt r p o c).
Proof.
  intros r p o c. unfold getAt. change (r_nch (tw r)) with (r_nch r). unfold rsnd. rewrite rmap_bind. apply bind_ext. intros i1 _.
  rewrite rmap_bind. apply bind_ext. intros i _. apply tw_get.
Qed.
Lemma tw_add : forall r c y, addPoint (tw r) c y = rmap tw (addPoint r c y).
Proof.
  intros r c y. unfold addPoint. change (r_interp (tw r)) with (r_interp r). destruct (r_interp r); [reflexivity| |];
  (destruct (chan_ok c); reflexivity).
Qed.
Lemma tw_fetch : forall r c, fetch_value (tw r) c = rsnd tw (fetch_value r c).
Proof.
  intros r c. unfold fetch_value. change (r_dual (tw r)) with (r_dual r). change (r_cfst (tw r)) with (r_cfst r). change (r_cf (tw r)) with (r_cf r).
  change (r_pos1 (tw r)) with (r_pos1 r). change (r_pos2 (tw r)) with (r_pos2 r).
  destruct (_ || _); [apply tw_getAt|]. destruct (deq _ _); [apply tw_getAt|].
  rewrite tw_getAt, bind_rsnd. unfold rsnd. rewrite rmap_bind. apply bind_ext. intros [v1 r1] _. cbn [fst snd].
  rewrite tw_getAt, bind_rsnd. rewrite rmap_bind. apply bind_ext. intros [v2 r2] _. cbn [fst snd].
  rewrite rmap_bind. apply bind_ext. intros v _. reflexivity.
Qed.
Lemma tw_linear : forall r c v, linear_value (tw r) c v = rsnd tw (linear_value r c v).
Proof.
  intros r c v. unfold linear_value. cbv zeta. change (r_rem (tw r)) with (r_rem r). change (r_rate (tw r)) with (r_rate r).
  change (r_dual (tw r)) with (r_dual r). change (r_npts (tw r)) with (r_npts r). change (r_nch (tw r)) with (r_nch r).
  change (r_hdr (tw r)) with (r_hdr r). change (r_pos1 (tw r)) with (r_pos1 r).
  assert (END : forall r1, (_ <- chan_ok c ;; if 1 <? r_npts (tw r1) c then w <- mix16 (dabs (r_rem r)) (y1 (r_pts (tw r1) c)) (dsub d1 (dabs (r_rem r))) (y0 (r_pts (tw r1) c)) ;; Ok (w, tw r1) else Ok (v, tw r1))
     = rsnd tw (_ <- chan_ok c ;; if 1 <? r_npts r1 c then w <- mix16 (dabs (r_rem r)) (y1 (r_pts r1 c)) (dsub d1 (dabs (r_rem r))) (y0 (r_pts r1 c)) ;; Ok (w, r1) else Ok (v, r1))).
  { intros r1. change (r_npts (tw r1)) with (r_npts r1). change (r_pts (tw r1)) with (r_pts r1). destruct (chan_ok c); cbn; auto.
    destruct (1 <? _); [|reflexivity]. destruct (mix16 _ _ _ _); reflexivity. }
  destruct (dlt d0 (dabs (r_rem r))).
  2: { rewrite tw_add, bind_rmap. unfold rsnd. rewrite rmap_bind. apply bind_ext. intros r1 _. reflexivity. }
  assert (PT : forall r2 w, tw r2 <| r_pts := upd (r_pts (tw r2)) c (r_pts (tw r2) c <| y1 := w |>) |> = tw (r2 <| r_pts := upd (r_pts r2) c (r_pts r2 c <| y1 := w |>) |>)) by reflexivity.
  match goal with |- bind ?A _ = rsnd tw (bind ?B _) => assert (M : A = rmap tw B) end.
  { destruct (dlt d0 (r_rate r)).
    - destruct (dlt _ d0); [|reflexivity]. rewrite rmap_bind.
      match goal with |- bind ?A _ = bind ?B _ => assert (N : A = rmap tw B) end.
      { destruct (r_dual r); [reflexivity|]. rewrite rmap_bind. apply bind_ext. intros _ _. destruct (_ && _); [|reflexivity].
        rewrite rmap_bind. apply bind_ext. intros pm _. rewrite rmap_bind. apply bind_ext. intros h2 _. destruct (_ <? _); [|reflexivity].
        rewrite tw_getAt, bind_rsnd, rmap_bind. apply bind_ext. intros [w r2] _. reflexivity. }
      rewrite N, bind_rmap. apply bind_ext. intros r' _. apply tw_add.
    - destruct (dlt (r_rate r) d0); [|reflexivity]. destruct (dlt d0 _); [|reflexivity]. rewrite rmap_bind.
      match goal with |- bind ?A _ = bind ?B _ => assert (N : A = rmap tw B) end.
      { destruct (r_dual r); [reflexivity|]. rewrite rmap_bind. apply bind_ext. intros _ _. destruct (_ && _); [|reflexivity].
        rewrite tw_getAt, bind_rsnd, rmap_bind. apply bind_ext. intros [w r2] _. reflexivity. }
      rewrite N, bind_rmap. apply bind_ext. intros r' _. apply tw_add. }
  rewrite M, bind_rmap. unfold rsnd. rewrite rmap_bind. apply bind_ext. intros r1 _. apply END.
Qed.
Lemma tw_push : forall i fwd r c, push_points i fwd (tw r) c = rmap tw (push_points i fwd r c).
Proof.
  induction i as [|i IH]; intros fwd r c; [reflexivity|]. cbn [push_points].
  change (r_pos1 (tw r)) with (r_pos1 r). change (r_dual (tw r)) with (r_dual r). change (r_cfst (tw r)) with (r_cfst r).
  change (r_loop (tw r)) with (r_loop r). change (r_pos2 (tw r)) with (r_pos2 r). change (r_cf (tw r)) with (r_cf r).
  rewrite tw_getAt, bind_rsnd, rmap_bind. apply bind_ext. intros [v r1] _. cbn [fst snd]. rewrite rmap_bind.
  match goal with |- bind ?A _ = bind ?B _ => assert (N : A = rsnd tw B) end.
  { destruct (_ && _); [|reflexivity]. rewrite tw_getAt, bind_rsnd. unfold rsnd. rewrite rmap_bind. apply bind_ext. intros [w r2] _. cbn [fst snd].
    rewrite rmap_bind. apply bind_ext. intros y _. reflexivity. }
  rewrite N, bind_rsnd. apply bind_ext. intros [y r2] _. cbn [fst snd]. rewrite tw_add, bind_rmap, rmap_bind. apply bind_ext. intros r3 _. apply IH.
Qed.
Lemma tw_quad : forall r c v, quadratic_value (tw r) c v = rsnd tw (quadratic_value r c v).
Proof.
  intros r c v. unfold quadratic_value. cbv zeta. change (r_rem (tw r)) with (r_rem r). change (r_rate (tw r)) with (r_rate r).
  unfold rsnd. rewrite rmap_bind.
  match goal with |- bind ?A _ = bind ?B _ => assert (M : A = rmap tw B) end.
  { destruct (dlt d0 (r_rate r)).
    - destruct (dlt _ d0); [|reflexivity]. rewrite rmap_bind. apply bind_ext. intros n _. apply tw_push.
    - destruct (dlt (r_rate r) d0); [|reflexivity]. destruct (dlt d0 _); [|reflexivity]. rewrite rmap_bind. apply bind_ext. intros n _. apply tw_push. }
  rewrite M, bind_rmap. apply bind_ext. intros r1 _. rewrite rmap_bind. apply bind_ext. intros _ _.
  change (r_npts (tw r1)) with (r_npts r1). change (r_pts (tw r1)) with (r_pts r1). destruct (4 <=? _); [|reflexivity].
  rewrite rmap_bind. apply bind_ext. intros w _. reflexivity.
Qed.
Lemma tw_spos : forall r x, spos (tw r) x = spos r x.
Proof. reflexivity. Qed.
Lemma tw_end : forall r, harmless r -> at_end (tw r) = at_end r.
Proof.
  intros r H. unfold at_end. change (r_dual (tw r)) with (r_dual r). change (r_rate (tw r)) with (r_rate r). change (r_loop (tw r)) with (r_loop r).
  change (r_pstart (tw r)) with (r_pstart r). change (r_fsamples (tw r)) with (r_fsamples r). change (r_pos1 (tw r)) with (r_pos1 r). change (r_hdr (tw r)) with (r_hdr r).
  rewrite !tw_spos. change (r_ls (tw r)) with (ls (r_ls r)). change (r_lf (tw r)) with (lf (r_lf r)).
  destruct H as [[A B]|(A & B & C)]; [now rewrite A, B|]. rewrite A, C. reflexivity.
Qed.
Lemma tw_next : forall r c, harmless r -> readNextValue (tw r) c = rsnd tw (readNextValue r c).
Proof.
  intros r c H. unfold readNextValue. rewrite tw_end by assumption. destruct (at_end r); [reflexivity|].
  change (r_interp (tw r)) with (r_interp r). unfold rsnd. rewrite tw_fetch, bind_rsnd, rmap_bind. apply bind_ext. intros [v r1] _. cbn [fst snd].
  rewrite rmap_bind. match goal with |- bind ?A _ = bind ?B _ => assert (N : A = rsnd tw B) end.
  { destruct (r_interp r); [reflexivity|apply tw_linear|apply tw_quad]. }
  rewrite N, bind_rsnd. apply bind_ext. intros [w r2] _. reflexivity.
Qed.
Lemma tw_on_end : forall r, harmless r -> on_end (tw r) = rmap (option_map tw) (on_end r).
Proof.
  intros r H. unfold on_end. cbv zeta. change (r_loop (tw r <| r_cfst := 0 |>)) with (r_loop r). change (r_loop (r <| r_cfst := 0 |>)) with (r_loop r).
  destruct H as [[A B]|(A & B & C)].
  - destruct (r_loop r); [reflexivity| |].
    + change (r_rate (tw r <| r_cfst := 0 |>)) with (r_rate r). change (r_rate (r <| r_cfst := 0 |>)) with (r_rate r).
      change (r_ls (tw r <| r_cfst := 0 |>)) with (ls (r_ls r)). change (r_lf (tw r <| r_cfst := 0 |>)) with (lf (r_lf r)). rewrite A, B.
      destruct (dle _ _); [reflexivity|]. rewrite rmap_bind. apply bind_ext. intros n _. reflexivity.
    + change (r_rate (tw r <| r_cfst := 0 |>)) with (r_rate r). change (r_rate (r <| r_cfst := 0 |>)) with (r_rate r).
      change (r_ls (tw r <| r_cfst := 0 |>)) with (ls (r_ls r)). change (r_lf (tw r <| r_cfst := 0 |>)) with (lf (r_lf r)). rewrite A, B.
      destruct (dle _ _); [|reflexivity]. rewrite rmap_bind. apply bind_ext. intros n _. reflexivity.
  - rewrite A. reflexivity.
Qed.
Lemma tw_one : forall fuel c r, harmless r -> read_one fuel c (tw r) = rsnd tw (read_one fuel c r).
Proof.
  induction fuel as [|fuel IH]; intros c r H; [reflexivity|]. cbn [read_one]. unfold rsnd at 1. rewrite tw_next, bind_rsnd, rmap_bind by assumption.
  apply bind_ext. intros [[v|] r1] E; cbn [fst snd]; [reflexivity|].
  assert (H1 : harmless r1). { apply readNextValue_none in E. destruct E as [_ ->]. exact H. }
  rewrite tw_on_end, bind_rmap, rmap_bind by assumption. apply bind_ext. intros [r2|] E2; cbn [option_map]; [|reflexivity].
  apply IH. eapply harmless_same; [eapply on_end_statics; exact E2|exact H1].
Qed.
Lemma tw_channels : forall fuel todo c r, harmless r -> read_channels fuel todo c (tw r) = rsnd tw (read_channels fuel todo c r).
Proof.
  intros fuel. induction todo as [|todo IH]; intros c r H; [reflexivity|]. cbn [read_channels]. unfold rsnd at 1. rewrite tw_one, bind_rsnd, rmap_bind by assumption.
  apply bind_ext. intros [[v|] r1] E; cbn [fst snd]; [|reflexivity]. apply read_one_statics in E.
  rewrite IH, bind_rsnd, rmap_bind by (eapply harmless_same; eauto). apply bind_ext. intros [o r2] _. reflexivity.
Qed.
Lemma tw_enter : forall r, (forall x, ls x = x) -> (forall x, lf x = x) -> fade_enter (tw r) = tw (fade_enter r).
Proof.
  intros r A B. unfold fade_enter.
  change (r_rate (tw r)) with (r_rate r). change (r_loop (tw r)) with (r_loop r). change (r_cfst (tw r)) with (r_cfst r). change (r_pos1 (tw r)) with (r_pos1 r).
  change (r_cfdur (tw r)) with (r_cfdur r). change (r_ls (tw r)) with (ls (r_ls r)). change (r_lf (tw r)) with (lf (r_lf r)). rewrite A, B. rewrite !tw_spos.
  destruct (dle d0 (r_rate r)); (destruct (_ && _); [|reflexivity]); reflexivity.
Qed.
Lemma tw_gain : forall r x, fade_gain (tw r) x = rmap tw (fade_gain r x).
Proof. intros r x. unfold fade_gain. change (r_nch (tw r)) with (r_nch r). change (r_cfdur (tw r)) with (r_cfdur r). destruct (_ =? 0); reflexivity. Qed.
Lemma tw_leave : forall pp r, fade_leave pp (tw r) = tw (fade_leave pp r).
Proof. intros [|] r; reflexivity. Qed.
Lemma tw_rest : forall pp r, (forall x, ls x = x) -> (forall x, lf x = x) -> fade_rest pp (tw r) = rmap tw (fade_rest pp r).
Proof.
  intros pp r A B. unfold fade_rest. change (r_cfst (tw r)) with (r_cfst r). change (r_rate (tw r)) with (r_rate r). change (r_pos2 (tw r)) with (r_pos2 r).
  change (r_cfdur (tw r)) with (r_cfdur r). change (r_ls (tw r)) with (ls (r_ls r)). change (r_lf (tw r)) with (lf (r_lf r)). rewrite A, B. rewrite !tw_spos.
  change (sts (tw r)) with (sts r). rewrite tw_leave, !tw_gain.
  destruct (r_cfst r =? 1); [|reflexivity]. destruct (xorb _ _); (destruct (_ <? _); reflexivity).
Qed.
Lemma tw_fade : forall r, harmless r -> r_dual r = true -> updateCrossfade (tw r) = rmap tw (updateCrossfade r).
Proof.
  intros r H D. destruct H as [[A B]|(A & B & C)]; [|congruence]. rewrite !fade_parts, tw_enter by assumption.
  change (r_loop (tw r)) with (r_loop r). now apply tw_rest.
Qed.
Lemma tw_advance : forall r, advance (tw r) = rmap tw (advance r).
Proof.
  intros r. unfold advance. cbv zeta. change (r_rem (tw r)) with (r_rem r). change (r_rate (tw r)) with (r_rate r). change (r_nch (tw r)) with (r_nch r).
  change (r_pos1 (tw r)) with (r_pos1 r). change (r_pos2 (tw r)) with (r_pos2 r). change (r_cfst (tw r)) with (r_cfst r). change (r_loop (tw r)) with (r_loop r).
  rewrite rmap_bind. apply bind_ext. intros d _. rewrite rmap_bind. apply bind_ext. intros st _. rewrite rmap_bind. apply bind_ext. intros p _.
  destruct (_ =? 0); [reflexivity|]. rewrite rmap_bind. apply bind_ext. intros q _. reflexivity.
Qed.
Lemma tw_frame : forall fuel r, harmless r -> read_frame fuel (tw r) = rsnd tw (read_frame fuel r).
Proof.
  intros fuel r H. unfold read_frame. change (r_dual (tw r)) with (r_dual r). unfold rsnd at 1. rewrite rmap_bind.
  match goal with |- bind ?A _ = bind ?B _ => assert (N : A = rmap tw B) end.
  { destruct (r_dual r) eqn:D; [now apply tw_fade|reflexivity]. }
  rewrite N, bind_rmap. apply bind_ext. intros r1 E1. change (r_nch (tw r1)) with (r_nch r1).
  assert (H1 : harmless r1). { destruct (r_dual r); [|now apply Ok_inj in E1; subst]. eapply harmless_same; [eapply updateCrossfade_statics; exact E1|exact H]. }
  rewrite tw_channels, bind_rsnd, rmap_bind by assumption. apply bind_ext. intros [[vs|] r2] _; cbn [fst snd]; [|reflexivity].
  rewrite tw_advance, bind_rmap, rmap_bind. apply bind_ext. intros r3 _. reflexivity.
Qed.
Lemma tw_loop : forall ifuel fuel r n, harmless r -> read_loop ifuel fuel (tw r) n = rsnd tw (read_loop ifuel fuel r n).
Proof.
  intros ifuel. induction fuel as [|fuel IH]; intros r n H; cbn [read_loop]; destruct (n <=? 0); try reflexivity.
  unfold rsnd at 1. rewrite tw_frame, bind_rsnd, rmap_bind by assumption. apply bind_ext. intros [[vs|] r1] E; cbn [fst snd]; [|reflexivity].
  change (r_nch (tw r)) with (r_nch r). apply read_frame_statics in E. pose proof (harmless_same _ _ E H) as H1. destruct (r_nch r =? 0); [now apply IH|].
  rewrite IH, bind_rsnd, rmap_bind by assumption. apply bind_ext. intros [l r2] _. reflexivity.
Qed.
Lemma tw_read : forall fuel r n, harmless r -> r_read fuel (tw r) n = rsnd tw (r_read fuel r n).
Proof.
  intros fuel r n H. unfold r_read. change (r_playing (tw r)) with (r_playing r). change (r_nch (tw r)) with (r_nch r).
  destruct (negb _); [reflexivity|]. destruct (_ <? 0); [reflexivity|]. now apply tw_loop.
Qed.
Lemma tw_update : forall fuel a r, harmless r -> p_update fuel a (tw r) = rsnd tw (p_update fuel a r).
Proof.
  intros fuel a r H. unfold p_update. change (r_playing (tw r)) with (r_playing r). change (r_nch (tw r)) with (r_nch r).
  destruct (_ =? -1); [reflexivity|]. destruct (_ <? 0); [reflexivity|]. destruct (negb _); [reflexivity|]. cbv zeta.
  destruct (forallb _ _); [|reflexivity]. unfold rsnd at 1. rewrite tw_read, bind_rsnd, rmap_bind by assumption. apply bind_ext. intros [fr r'] _. reflexivity.
Qed.
Lemma p_update_statics : forall fuel a r x r', p_update fuel a r = Ok (x, r') -> same_statics r r'.
Proof.
  intros fuel a r x r' H. unfold p_update in H. destruct (_ =? -1); [apply Ok_inj, pair_equal_spec in H; destruct H as [_ <-]; apply same_statics_refl|].
  destruct (_ <? 0); [discriminate|]. destruct (negb _); [apply Ok_inj, pair_equal_spec in H; destruct H as [_ <-]; apply same_statics_refl|]. cbv zeta in H.
  destruct (forallb _ _); [|apply Ok_inj, pair_equal_spec in H; destruct H as [_ <-]; apply same_statics_refl].
  apply bind_ok in H. destruct H as ([fr r1] & E & H). apply Ok_inj, pair_equal_spec in H. destruct H as [_ <-]. now apply r_read_statics in E.
Qed.
Lemma updates_statics : forall fuel l r o r', updates fuel l r = Ok (o, r') -> same_statics r r'.
Proof.
  intros fuel. induction l as [|a l IH]; intros r o r' H; cbn [updates] in H.
  - apply Ok_inj, pair_equal_spec in H. destruct H as [_ <-]. apply same_statics_refl.
  - apply bind_ok in H. destruct H as ([[ac ev] r1] & E & H). apply bind_ok in H. destruct H as ([o2 r2] & E2 & H). apply Ok_inj, pair_equal_spec in H. destruct H as [_ <-].
    apply p_update_statics in E. apply IH in E2. eapply same_statics_trans; eauto.
Qed.
Lemma tw_updates : forall fuel l r, harmless r -> updates fuel l (tw r) = rsnd tw (updates fuel l r).
Proof.
  intros fuel. induction l as [|a l IH]; intros r H; cbn [updates]; [reflexivity|]. unfold rsnd at 1. rewrite tw_update, bind_rsnd, rmap_bind by assumption.
  apply bind_ext. intros [[ac ev] r1] E. cbn [fst snd]. apply p_update_statics in E. rewrite IH, bind_rsnd, rmap_bind by (eapply harmless_same; eauto).
  apply bind_ext. intros [o r2] _. reflexivity.
Qed.
End Tweak.
