(* The life of a player's source: C30, C40, C60, C61. *)

From Coq Require Import ZArith Lia List Bool.
From RecordUpdate Require Import RecordUpdate.
From Flocq Require Import IEEE754.BinarySingleNaN.
From Verif Require Import Machine Floats WavModel InterpModel CacheModel ReaderModel ReaderFacts ResponderModel PlayerModel
  CacheFacts CacheSpec CacheProofs CacheFinal LifeSpec UpdateProofs.
Import ListNotations.
Local Open Scope Z_scope.

(* ---- reading an existing source dereferences no null pointer ---- *)

Definition nn {A} (x : res A) : Prop := x <> UB UbNull.

Lemma nn_ok : forall A (a : A), nn (Ok a). Proof. discriminate. Qed.
Lemma nn_bind : forall A B (x : res A) (k : A -> res B), nn x -> (forall a, x = Ok a -> nn (k a)) -> nn (bind x k).
Proof. intros A B [a|w|] k H K; cbn; [now apply K| |discriminate]. intro E. apply H. congruence. Qed.
Lemma nn_chk32 : forall z, nn (chk32 z). Proof. intro z. unfold chk32. destruct (in_s32b z); discriminate. Qed.
Lemma nn_sdiv32 : forall a b, nn (sdiv32 a b). Proof. intros a b. unfold sdiv32. destruct (b =? 0); [discriminate|apply nn_chk32]. Qed.
Lemma nn_s16 : forall x, nn (d_to_s16 x). Proof. intro x. unfold d_to_s16. destruct (d_trunc x) as [z|]; [destruct (in_s16b z)|]; discriminate. Qed.
Lemma nn_s32 : forall x, nn (d_to_s32 x). Proof. intro x. unfold d_to_s32. destruct (d_trunc x) as [z|]; [destruct (in_s32b z)|]; discriminate. Qed.
Lemma nn_fs32 : forall x, nn (f_to_s32 x). Proof. intro x. unfold f_to_s32. destruct (f_trunc x) as [z|]; [destruct (in_s32b z)|]; discriminate. Qed.
Lemma nn_chan : forall c, nn (chan_ok c). Proof. intro c. unfold chan_ok. destruct (_ && _); discriminate. Qed.
Lemma nn_mix : forall a b c d, nn (mix16 a b c d). Proof. intros. apply nn_s16. Qed.
Lemma nn_fast : forall a b c d x, nn (fastinterpolate a b c d x).
Proof. intros. apply nn_bind; [apply nn_fs32|intros; apply nn_ok]. Qed.
Lemma nn_add : forall r ch y, nn (addPoint r ch y).
Proof. intros. unfold addPoint. destruct (r_interp r); [apply nn_ok| |]; (apply nn_bind; [apply nn_chan|intros; apply nn_ok]). Qed.
#[local] Hint Resolve nn_ok nn_chk32 nn_sdiv32 nn_s16 nn_s32 nn_fs32 nn_chan nn_mix nn_fast nn_add : nn.

Lemma gets_nonnull : forall a b, src_gets a b -> a <> SNull -> b <> SNull.
Proof. intros a b H. inversion H; subst; auto; discriminate. Qed.
Lemma quiet_nonnull : forall r r', quiet r r' -> r_src r <> SNull -> r_src r' <> SNull.
Proof. intros r r' [_ Q]. now apply gets_nonnull. Qed.
Lemma statics_nonnull : forall r r', same_statics r r' -> r_src r <> SNull -> r_src r' <> SNull.
Proof. intros r r' [_ Q]. now apply gets_nonnull. Qed.

Lemma nn_get : forall r i, r_src r <> SNull -> nn (getSourceBufferValue r i).
Proof.
  intros r i S. unfold getSourceBufferValue. destruct (r_src r) as [|m o|f]; [contradiction| |].
  - destruct (_ && _); discriminate.
  - destruct (if_get f i); discriminate.
Qed.
Lemma nn_getAt : forall r p o ch, r_src r <> SNull -> nn (getAt r p o ch).
Proof. intros. unfold getAt. apply nn_bind; auto with nn. intros. apply nn_bind; auto with nn. intros. now apply nn_get. Qed.

Lemma nn_fetch : forall r ch, r_src r <> SNull -> nn (fetch_value r ch).
Proof.
  intros r ch S. unfold fetch_value. destruct (_ || _); [now apply nn_getAt|]. destruct (deq _ _); [now apply nn_getAt|].
  apply nn_bind; [now apply nn_getAt|]. intros [v1 r1] E1. apply getAt_quiet in E1. destruct E1 as (Q1 & _).
  pose proof (quiet_nonnull _ _ Q1 S) as S1. apply nn_bind; [now apply nn_getAt|]. intros [v2 r2] _.
  apply nn_bind; auto with nn.
Qed.

Lemma nn_linear : forall r ch v, r_src r <> SNull -> nn (linear_value r ch v).
Proof.
  intros r ch v S. unfold linear_value. cbv zeta. destruct (dlt d0 (dabs (r_rem r))).
  - apply nn_bind.
    + destruct (dlt d0 (r_rate r)).
      * destruct (dlt _ d0); auto with nn. apply nn_bind; auto with nn. destruct (r_dual r); auto with nn.
        apply nn_bind; auto with nn. intros u _. destruct (_ && _); auto with nn.
        apply nn_bind; auto with nn. intros. apply nn_bind; auto with nn. intros. destruct (_ <? _); auto with nn.
        apply nn_bind; [now apply nn_getAt|]. intros [x r3] _. apply nn_ok.
      * destruct (dlt (r_rate r) d0); auto with nn. destruct (dlt d0 _); auto with nn. apply nn_bind; auto with nn.
        destruct (r_dual r); auto with nn. apply nn_bind; auto with nn. intros u _. destruct (_ && _); auto with nn.
        apply nn_bind; [now apply nn_getAt|]. intros [x r3] _. apply nn_ok.
    + intros r1 _. apply nn_bind; auto with nn. intros u _. destruct (1 <? _); auto with nn. apply nn_bind; auto with nn.
  - apply nn_bind; auto with nn.
Qed.

Lemma nn_push : forall i fwd r ch, r_src r <> SNull -> nn (push_points i fwd r ch).
Proof.
  induction i as [|i IH]; intros fwd r ch S; cbn [push_points]; auto with nn. cbv zeta.
  apply nn_bind; [now apply nn_getAt|]. intros [v r1] E1. apply getAt_quiet in E1. destruct E1 as (Q1 & _).
  pose proof (quiet_nonnull _ _ Q1 S) as S1. apply nn_bind.
  - destruct (_ && _); auto with nn. apply nn_bind; [now apply nn_getAt|]. intros [w r2] _. apply nn_bind; auto with nn.
  - intros [y r2] E2. assert (S2 : r_src r2 <> SNull).
    { destruct (_ && _); [|inversion E2; subst; exact S1]. apply bind_ok in E2. destruct E2 as ([w r3] & E3 & E2).
      apply getAt_quiet in E3. destruct E3 as (Q3 & _). apply bind_ok in E2. destruct E2 as (z & _ & E2). inversion E2; subst.
      eapply quiet_nonnull; eauto. }
    apply nn_bind; auto with nn. intros r3 E3. apply addPoint_quiet in E3. apply IH. eapply quiet_nonnull; eauto.
Qed.

Lemma nn_quadratic : forall r ch v, r_src r <> SNull -> nn (quadratic_value r ch v).
Proof.
  intros r ch v S. unfold quadratic_value. cbv zeta. apply nn_bind.
  - destruct (dlt d0 (r_rate r)).
    + destruct (dlt _ d0); auto with nn. apply nn_bind; auto with nn. intros. now apply nn_push.
    + destruct (dlt (r_rate r) d0); auto with nn. destruct (dlt d0 _); auto with nn. apply nn_bind; auto with nn.
      intros. now apply nn_push.
  - intros r1 _. apply nn_bind; auto with nn. intros u _. destruct (4 <=? _); auto with nn. apply nn_bind; auto with nn.
Qed.

Lemma nn_next : forall r ch, r_src r <> SNull -> nn (readNextValue r ch).
Proof.
  intros r ch S. unfold readNextValue. destruct (at_end r); auto with nn.
  apply nn_bind; [now apply nn_fetch|]. intros [v r1] E. apply fetch_value_quiet in E. destruct E as (Q & _).
  pose proof (quiet_nonnull _ _ Q S) as S1. apply nn_bind.
  - destruct (r_interp r); auto with nn; [now apply nn_linear|now apply nn_quadratic].
  - intros [w r2] _. apply nn_ok.
Qed.

Lemma nn_on_end : forall r, nn (on_end r).
Proof.
  intro r. unfold on_end. cbn. destruct (r_loop r); auto with nn; destruct (dle d0 (r_rate r)); auto with nn;
    apply nn_bind; auto with nn.
Qed.

Lemma nn_one : forall fuel ch r, r_src r <> SNull -> nn (read_one fuel ch r).
Proof.
  induction fuel as [|fuel IH]; intros ch r S; cbn [read_one]; [discriminate|].
  apply nn_bind; [now apply nn_next|]. intros [o r1] E. destruct o; auto with nn.
  apply readNextValue_none in E. destruct E as [_ ->]. apply nn_bind; [apply nn_on_end|]. intros [r2|] E2; auto with nn.
  apply IH. apply on_end_statics in E2. eapply statics_nonnull; eauto.
Qed.

Lemma nn_channels : forall fuel todo ch r, r_src r <> SNull -> nn (read_channels fuel todo ch r).
Proof.
  intros fuel. induction todo as [|todo IH]; intros ch r S; cbn [read_channels]; auto with nn.
  apply nn_bind; [now apply nn_one|]. intros [o r1] E. apply read_one_statics in E.
  destruct o; auto with nn. apply nn_bind; [apply IH; eapply statics_nonnull; eauto|]. intros [o2 r2] _. apply nn_ok.
Qed.

Lemma nn_advance : forall r, nn (advance r).
Proof.
  intro r. unfold advance. cbv zeta. apply nn_bind; auto with nn. intros. apply nn_bind; auto with nn. intros.
  apply nn_bind; auto with nn. intros. destruct (_ =? _); auto with nn. apply nn_bind; auto with nn.
Qed.

Lemma nn_crossfade : forall r, nn (updateCrossfade r).
Proof.
  intro r. unfold updateCrossfade. cbv zeta.
  repeat match goal with |- nn (if ?b then _ else _) => destruct b end; try apply nn_ok; discriminate.
Qed.

Lemma nn_frame : forall fuel r, r_src r <> SNull -> nn (read_frame fuel r).
Proof.
  intros fuel r S. unfold read_frame. apply nn_bind; [destruct (r_dual r); auto using nn_crossfade with nn|].
  intros r1 E1. assert (S1 : r_src r1 <> SNull).
  { destruct (r_dual r); [|inversion E1; subst; exact S]. apply updateCrossfade_statics in E1. eapply statics_nonnull; eauto. }
  apply nn_bind; [now apply nn_channels|]. intros [o r2] E2. destruct o; auto with nn.
  apply nn_bind; [apply nn_advance|]. intros. apply nn_ok.
Qed.

Lemma nn_loop : forall ifuel fuel r n, r_src r <> SNull -> nn (read_loop ifuel fuel r n).
Proof.
  intros ifuel. induction fuel as [|fuel IH]; intros r n S; cbn [read_loop]; destruct (n <=? 0); auto with nn; [discriminate|].
  apply nn_bind; [now apply nn_frame|]. intros [o r1] E. apply read_frame_statics in E. destruct o; auto with nn.
  pose proof (statics_nonnull _ _ E S) as S1. destruct (_ =? 0); auto. apply nn_bind; auto. intros [l2 r2] _. apply nn_ok.
Qed.

Lemma read_nonnull : forall fuel r n, (r_playing r = true -> r_src r <> SNull) -> r_read fuel r n <> UB UbNull.
Proof.
  intros fuel r n S. unfold r_read. destruct (r_playing r); cbn [negb]; [|discriminate].
  destruct (_ <? 0); [discriminate|]. now apply nn_loop, S.
Qed.

Lemma update_nonnull : forall fuel alloc r, (r_playing r = true -> r_src r <> SNull) -> p_update fuel alloc r <> UB UbNull.
Proof.
  intros fuel alloc r S. unfold p_update. destruct (_ =? -1); [discriminate|]. destruct (_ <? 0); [discriminate|].
  destruct (negb _); [discriminate|]. cbv zeta. destruct (forallb _ _); [|discriminate].
  apply nn_bind; [now apply read_nonnull|]. intros [frames r'] _. apply nn_ok.
Qed.

(* ---- the invariant ---- *)

Lemma rkind_eq_dec : forall a b : rkind, {a = b} + {a <> b}.
Proof. decide equality. Defined.

Definition name_blocks (r : reader) : Z := if r_fname r then 1 else 0.

Record life (k : rkind) (r : reader) : Prop := mkLife {
  li_kind : r_kind r = k;
  li_cfg : r_cfg r = cfg_of k;
  li_src : r_playing r = true -> r_src r <> SNull;
  li_arr : k = KArray -> r_fname r = false /\ forall f, r_src r <> SFile f;
  li_file : k <> KArray -> forall m o, r_src r <> SArr m o;
  li_live : r_live r = src_blocks (r_src r) + name_blocks r;
  li_open : forall f, r_src r = SFile f -> r_fname r = true /\ exists fl, creach (cfg_of k) fl f }.

Lemma cfg_of_ok : forall k, cfg_ok (cfg_of k).
Proof. intros []; [apply cfg_sd_ok|apply cfg_sd_ok|split; cbn; lia|apply cfg_flash_ok]. Qed.

Lemma life_new : forall k, life k (new_reader k).
Proof. intro k. constructor; cbn; auto; try discriminate. all: intros; split; auto; discriminate. Qed.

(* Changes that matter to none of the fields *)
Definition same_life (r r' : reader) : Prop :=
  r_kind r' = r_kind r /\ r_cfg r' = r_cfg r /\ (r_playing r' = true -> r_playing r = true) /\
  r_fname r' = r_fname r /\ r_live r' = r_live r.

Lemma life_same : forall k r r', life k r -> same_life r r' -> r_src r' = r_src r -> life k r'.
Proof.
  intros k r r' [A B C D E F G] (H1 & H2 & H3 & H4 & H5) H6.
  constructor; unfold name_blocks in *; rewrite ?H1, ?H2, ?H4, ?H5, ?H6; auto.
Qed.

(* ... with the source object in another state *)
Lemma life_file : forall k r r' f f', life k r -> same_life r r' -> r_src r = SFile f -> r_src r' = SFile f' ->
  length (i_bufs f') = length (i_bufs f) -> (forall fl, creach (cfg_of k) fl f -> creach (cfg_of k) fl f') -> life k r'.
Proof.
  intros k r r' f f' [A B C D E F G] (H1 & H2 & H3 & H4 & H5) S S' L R. rewrite S in *.
  constructor; unfold name_blocks in *; rewrite ?H1, ?H2, ?H4, ?H5, ?S'; auto.
  - discriminate.
  - intros K. destruct (D K) as [_ X]. now elim (X f).
  - discriminate.
  - rewrite F. cbn [src_blocks]. now rewrite L.
  - intros g X. injection X as <-. destruct (G f eq_refl) as [G1 (fl & G2)]. split; eauto.
Qed.

Lemma same_life_refl : forall r, same_life r r. Proof. intro r. repeat split; auto. Qed.

Lemma creach_more : forall c fuel o fl f f', (match o with CoPreload i _ => in_s32 i | _ => True end) ->
  cop_run fuel o f = Ok f' -> creach c fl f -> creach c fl f'.
Proof. intros. eapply cr_op; eauto. Qed.

Lemma creach_length : forall k fl f, creach (cfg_of k) fl f -> (length (i_bufs f) <= c_nbuf (cfg_of k))%nat.
Proof. intros k fl f R. apply (creach_shaped _ _ _ (cfg_of_ok k) R). Qed.


Lemma reload_length : forall k fuel fl f x f', creach (cfg_of k) fl f -> triggerReload fuel f x = Ok f' ->
  length (i_bufs f') = length (i_bufs f).
Proof.
  intros k fuel fl f x f' R E. pose proof (cfg_of_ok k) as C.
  exact (proj2 (reload_shaped fuel _ f x f' C (creach_shaped _ _ _ C R) E)).
Qed.

Lemma nn_slot : forall f, nn (last_slot f).
Proof. intro f. unfold last_slot. destruct (nth_error _ _); discriminate. Qed.
Lemma nn_decide : forall f x b, nn (reload_decide f x b).
Proof.
  intros f x b. unfold reload_decide. cbv zeta.
  destruct (fle f0 x); destruct (i_loop f); try apply nn_ok; destruct (_ <? _); try apply nn_ok;
    (apply nn_bind; [apply nn_slot|]; intros; try apply nn_ok); apply nn_bind; auto with nn.
Qed.
Lemma nn_step : forall f x, nn (reload_step f x).
Proof.
  intros f x. unfold reload_step. destruct (i_bufs f) as [|b0 rest]; [apply nn_ok|]. destruct (negb _); [apply nn_ok|].
  apply nn_bind; [apply nn_decide|]. intros [[nx ld] act] _. cbv zeta.
  destruct (if ld then _ else _) as [b' p]. destruct act; apply nn_ok.
Qed.
Lemma nn_reload_loop : forall fuel f x, nn (reload_loop fuel f x).
Proof.
  induction fuel as [|fuel IH]; intros f x; cbn [reload_loop]; [discriminate|].
  apply nn_bind; [apply nn_step|]. intros [[[] f']|] _; auto with nn.
Qed.
Lemma reload_nonnull : forall fuel r, r_triggerReload fuel r <> UB UbNull.
Proof.
  intros fuel r. unfold r_triggerReload. destruct (r_src r) as [|m o|f]; try discriminate.
  apply nn_bind; [|intros; apply nn_ok]. unfold triggerReload. apply nn_bind; [apply nn_reload_loop|]. intros. apply nn_ok.
Qed.

(* ---- the reader's functions keep the invariant ---- *)

Lemma life_stop : forall k r, life k r -> life k (r_stop r).
Proof. intros k r H. eapply life_same; [exact H| |reflexivity]. repeat split; auto; discriminate. Qed.

Lemma life_statics : forall k r r', life k r -> same_statics r r' -> life k r'.
Proof.
  intros k r r' H SS. assert (SL : same_life r r').
  { destruct SS as [E _]. repeat split.
    - symmetry. now apply (f_equal r_kind) in E.
    - symmetry. now apply (f_equal r_cfg) in E.
    - intro P. rewrite <- P. now apply (f_equal r_playing) in E.
    - symmetry. now apply (f_equal r_fname) in E.
    - symmetry. now apply (f_equal r_live) in E. }
  destruct SS as [_ G]. inversion G as [E1 E2|m o E1 E2|f g GG E1 E2].
  - eapply life_same; eauto; congruence.
  - eapply life_same; eauto; congruence.
  - pose proof (gets_store _ _ GG) as (_ & _ & _ & _ & _ & _ & _ & ST).
    eapply life_file; eauto.
    + now apply stored_length.
    + intros fl R. eapply gets_reach; eauto.
Qed.

Lemma life_read : forall k fuel r n l r', life k r -> r_read fuel r n = Ok (l, r') -> life k r'.
Proof. intros k fuel r n l r' H E. apply r_read_statics in E. eapply life_statics; eauto. Qed.

Lemma life_reload : forall k fuel r r', life k r -> r_triggerReload fuel r = Ok r' -> life k r'.
Proof.
  intros k fuel r r' H E. unfold r_triggerReload in E. destruct (r_src r) as [|m o|f] eqn:S; try (apply Ok_inj in E; subst; exact H).
  apply bind_ok in E. destruct E as (f' & E & E2). apply Ok_inj in E2. subst r'.
  destruct (li_open _ _ H f S) as [_ (fl & R)].
  eapply (life_file k r _ f f'); eauto using same_life_refl.
  - repeat split; auto.
  - eapply reload_length; eauto.
  - intros fl' R'. apply (creach_more _ fuel (CoReload (f_of_d (r_rate r))) _ f); [exact I|first [exact E|reflexivity]|assumption].
Qed.

Lemma life_setLoopType : forall k r l, life k r -> life k (setLoopType r l).
Proof.
  intros k r l H. unfold setLoopType. destruct (r_src r) as [|m o|f] eqn:S.
  - eapply life_same; eauto. repeat split; auto.
  - eapply life_same; eauto. repeat split; auto.
  - eapply (life_file k r _ f (if_setLoopType f l)); eauto; [repeat split; auto|].
    intros fl R. apply (creach_more _ 0 (CoLoopType l) _ f); [exact I|first [exact E|reflexivity]|assumption].
Qed.
Lemma life_setLoopStart : forall k r v, life k r -> life k (setLoopStart r v).
Proof.
  intros k r v H. unfold setLoopStart. cbv zeta. set (r1 := r <| r_ls := s32 v |>).
  assert (SL : same_life r r1) by (repeat split; auto). assert (SS : r_src r1 = r_src r) by reflexivity.
  clearbody r1. pose proof (life_same _ _ _ H SL SS) as H1. destruct (r_src r1) as [|m o|f] eqn:S; auto.
  eapply (life_file k r1 _ f (if_setLoopStart f (spos r1 (r_ls r1)))); eauto; [repeat split; auto|].
  intros fl R. apply (creach_more _ 0 (CoLoopStart (spos r1 (r_ls r1))) _ f); [exact I|first [exact E|reflexivity]|assumption].
Qed.
Lemma life_setLoopFinish : forall k r v, life k r -> life k (setLoopFinish r v).
Proof.
  intros k r v H. unfold setLoopFinish. cbv zeta. set (r1 := r <| r_lf := s32 v |>).
  assert (SL : same_life r r1) by (repeat split; auto). assert (SS : r_src r1 = r_src r) by reflexivity.
  clearbody r1. pose proof (life_same _ _ _ H SL SS) as H1. destruct (r_src r1) as [|m o|f] eqn:S; auto.
  eapply (life_file k r1 _ f (if_setLoopFinish f (spos r1 (r_lf r1)))); eauto; [repeat split; auto|].
  intros fl R. apply (creach_more _ 0 (CoLoopFinish (spos r1 (r_lf r1))) _ f); [exact I|first [exact E|reflexivity]|assumption].
Qed.

Lemma rate_same : forall r x r', setPlaybackRate r x = Ok r' -> same_life r r' /\ r_src r' = r_src r.
Proof.
  intros r x r' H. unfold setPlaybackRate in H. cbv zeta in H.
  repeat match type of H with
  | (if ?b then _ else _) = _ => destruct b
  | bind _ _ = Ok _ => apply bind_ok in H; destruct H as (? & _ & H)
  end; apply Ok_inj in H; subst r'; repeat split; auto.
Qed.

Lemma life_call : forall k fuel c r r', life k r -> call_run fuel c r = Ok r' -> life k r'.
Proof.
  intros k fuel c r r' H E. destruct c; cbn [call_run] in E; try (apply Ok_inj in E; subst r').
  - apply rate_same in E. destruct E. eapply life_same; eauto.
  - now apply life_setLoopType.
  - now apply life_setLoopStart.
  - now apply life_setLoopFinish.
  - eapply life_same; eauto. repeat split; auto.
  - eapply life_same; eauto. repeat split; auto.
  - eapply life_same; eauto. repeat split; auto.
  - eapply life_same; eauto. repeat split; auto.
  - eapply life_same; eauto. repeat split; auto; discriminate.
  - eapply life_reload; eauto.
Qed.

Lemma reset_same : forall r r', r_reset r = Ok r' -> same_life r r' /\ r_src r' = r_src r /\ in_s32 (r_pos1 r') /\ r_loop r' = r_loop r.
Proof.
  intros r r' H. unfold r_reset in H. apply bind_ok in H. destruct H as (p & E & H). apply Ok_inj in H. subst r'.
  split; [repeat split; auto|]. split; [reflexivity|]. split; [|reflexivity]. cbn [r_pos1].
  destruct (dle d0 (r_rate r)); destruct (r_pstart r);
    try (apply Ok_inj in E; subst p; apply s32_range).
  - apply chk32_inv in E. destruct E as [-> E]. exact E.
  - apply bind_ok in E. destruct E as (n & _ & E). apply Ok_inj in E. subst p. apply s32_range.
Qed.

(* Array functions *)

Definition raw_setup (r : reader) (m : mem) (off len nch : Z) : reader :=
  let r1 := r_stop (r <| r_src := SArr m off |>) in
  let r2 := r1 <| r_hdr := 0 |>
               <| r_fsize := s32 (u32 (len * 2)) |>
               <| r_ls := 0 |>
               <| r_lf := s32 len |>
               <| r_fsamples := s32 len |> in
  setNumChannels r2 nch.
Lemma playRaw_setup : forall r m off len nch, playRaw_array r m off len nch =
  (r3 <- r_reset (raw_setup r m off len nch) ;; Ok (r3 <| r_playing := true |>)).
Proof. reflexivity. Qed.
Lemma setup_kind : forall r m off len nch, r_kind (raw_setup r m off len nch) = r_kind r. Proof. reflexivity. Qed.
Lemma setup_cfg : forall r m off len nch, r_cfg (raw_setup r m off len nch) = r_cfg r. Proof. reflexivity. Qed.
Lemma setup_fname : forall r m off len nch, r_fname (raw_setup r m off len nch) = r_fname r. Proof. reflexivity. Qed.
Lemma setup_live : forall r m off len nch, r_live (raw_setup r m off len nch) = r_live r. Proof. reflexivity. Qed.
Lemma setup_src : forall r m off len nch, r_src (raw_setup r m off len nch) = SArr m off. Proof. reflexivity. Qed.

Lemma life_playRaw : forall r m off len nch r', life KArray r -> playRaw_array r m off len nch = Ok r' ->
  life KArray r' /\ r_playing r' = true.
Proof.
  intros r m off len nch r' H E. rewrite playRaw_setup in E.
  pose proof (setup_kind r m off len nch) as K2. pose proof (setup_cfg r m off len nch) as C2.
  pose proof (setup_fname r m off len nch) as F2. pose proof (setup_live r m off len nch) as L2.
  pose proof (setup_src r m off len nch) as S2. set (r2 := raw_setup r m off len nch) in *. clearbody r2.
  apply bind_ok in E. destruct E as (r3 & E & E2). apply Ok_inj in E2. subst r'.
  apply reset_same in E. destruct E as ((A & B & C & D & F) & S & _). destruct (li_arr _ _ H eq_refl) as [FN X].
  pose proof (li_kind _ _ H) as HK. pose proof (li_cfg _ _ H) as HC. pose proof (li_live _ _ H) as HL.
  split; [|reflexivity]. rewrite S2 in S. rewrite K2, HK in A. rewrite C2, HC in B. rewrite F2, FN in D.
  assert (L0 : r_live r = 0).
  { rewrite HL. unfold name_blocks. rewrite FN. destruct (r_src r) as [| |f] eqn:SF; auto. now elim (X f). }
  rewrite L2, L0 in F. clear - A B D F S.
  constructor; unfold name_blocks; cbn; rewrite ?A, ?B, ?D, ?F, ?S; auto; try discriminate; try congruence.
  intros _. split; [reflexivity|discriminate].
Qed.

Lemma life_playWav : forall r m b r', life KArray r -> playWav_array r m = Ok (b, r') ->
  life KArray r' /\ (b = false -> r' = r).
Proof.
  intros r m b r' H E. unfold playWav_array in E. cbv zeta in E. apply bind_ok in E. destruct E as ([ok h] & _ & E).
  destruct ok; cbn [negb] in E; [|apply Ok_inj in E; inversion E; subst; auto].
  apply bind_ok in E. destruct E as (tags & _ & E). destruct tags as [n|]; [|apply Ok_inj in E; inversion E; subst; auto].
  apply bind_ok in E. destruct E as (dh & _ & E). destruct dh as [db|]; [|apply Ok_inj in E; inversion E; subst; auto].
  destruct (_ =? 0); [discriminate|]. apply bind_ok in E. destruct E as (r1 & E & E2). apply Ok_inj in E2. inversion E2; subst.
  split; [|discriminate]. eapply life_playRaw; eauto.
Qed.

(* Closing *)
Lemma life_close : forall k r, life k r -> life k (r_close r) /\ r_playing (r_close r) = false /\
  (k <> KArray -> r_src (r_close r) = SNull /\ r_fname (r_close r) = false) /\ r_live (r_close r) = 0.
Proof.
  intros k r H. pose proof H as [HK HC HS HA HF HL HO]. unfold r_close. rewrite HK.
  assert (L0 : k = KArray -> r_live r = 0).
  { intro K. destruct (HA K) as [FN X]. rewrite HL. unfold name_blocks. rewrite FN.
    destruct (r_src r) as [| |f]; auto. now elim (X f). }
  destruct k.
  1: split; [now apply life_stop|]; split; [reflexivity|]; split; [now intros []|]; now apply L0.
  all: cbv zeta; assert (LV : r_live r - src_blocks (r_src r) - (if r_fname r then 1 else 0) = 0)
         by (rewrite HL; unfold name_blocks; lia).
  all: rewrite LV; split; [|auto].
  all: constructor; cbn; auto; try discriminate.
Qed.

(* ---- opening a file ---- *)

Lemma header_same : forall r f stack o r', play_header r f stack = Ok (o, r') -> same_life r r' /\ r_src r' = r_src r /\
  r_playing r' = r_playing r.
Proof.
  intros r f stack o r' H. unfold play_header in H. cbv zeta in H.
  apply bind_ok in H. destruct H as ([a h] & _ & H). destruct (negb _); [apply Ok_inj in H; inversion H; subst; repeat split; auto|].
  apply bind_ok in H. destruct H as (tags & _ & H). destruct tags; [|apply Ok_inj in H; inversion H; subst; repeat split; auto].
  apply bind_ok in H. destruct H as (dh & _ & H). destruct dh; apply Ok_inj in H; inversion H; subst; repeat split; auto.
Qed.

(* The state between the new file name and the opened source *)
Definition named (k : rkind) (r : reader) : Prop :=
  r_kind r = k /\ r_cfg r = cfg_of k /\ r_playing r = false /\ r_src r = SNull /\ r_fname r = true /\ r_live r = 1.

Lemma named_life : forall k r, k <> KArray -> named k r -> life k r.
Proof.
  intros k r K (A & B & C & D & E & F). constructor; unfold name_blocks; rewrite ?D, ?E; auto; try congruence; try discriminate.
Qed.
Lemma named_same : forall k r r', named k r -> same_life r r' -> r_src r' = r_src r -> named k r'.
Proof.
  intros k r r' (A & B & C & D & E & F) (H1 & H2 & H3 & H4 & H5) H6. repeat split; try congruence.
  destruct (r_playing r'); auto. now rewrite C in H3; specialize (H3 eq_refl).
Qed.

Lemma life_open_src : forall k r fs f p g, k <> KArray -> named k r -> life k (open_src r fs f p g) /\
  exists f1, r_src (open_src r fs f p g) = SFile f1 /\ i_bufs f1 = [].
Proof.
  intros k r fs f p g K (A & B & C & D & E & F). unfold open_src. cbv zeta.
  set (r1 := match r_loop r with LNone => _ | _ => _ end).
  assert (X : r_kind r1 = k /\ r_cfg r1 = cfg_of k /\ r_playing r1 = false /\ r_fname r1 = true).
  { unfold r1. destruct (r_loop r); auto. }
  clearbody r1. destruct X as (X1 & X2 & X3 & X4). split; [|eexists; split; reflexivity].
  constructor; unfold name_blocks; cbn; auto; try congruence; try discriminate.
  - rewrite F, X4. reflexivity.
  - intros f1 E1. injection E1 as <-. split; [auto|]. exists f. rewrite B. constructor.
Qed.

Lemma copy_loop_life : forall k r, life k r -> life k (copy_loop r).
Proof. intros k r H. unfold copy_loop. cbv zeta. now apply life_setLoopFinish, life_setLoopStart, life_setLoopType. Qed.

Lemma copy_loop_src : forall r f, r_src r = SFile f -> i_bufs f = [] -> exists f1, r_src (copy_loop r) = SFile f1 /\ i_bufs f1 = [].
Proof.
  intros r f S B. unfold copy_loop, setLoopType, setLoopStart, setLoopFinish. cbv zeta. rewrite S. cbn.
  eexists. split; [reflexivity|]. exact B.
Qed.

Lemma life_start : forall k r b r', life k r -> start_file r = Ok (b, r') -> life k r' /\ (b = false -> r_playing r' = false).
Proof.
  intros k r b r' H E. unfold start_file in E. apply bind_ok in E. destruct E as (r1 & E1 & E).
  apply reset_same in E1. destruct E1 as (SL & SS & PI & _). pose proof (life_same _ _ _ H SL SS) as H1.
  destruct (r_src r1) as [|m o|g] eqn:S1; try discriminate.
  apply bind_ok in E. destruct E as ([t g'] & E2 & E). apply Ok_inj in E. apply pair_equal_spec in E. destruct E as [<- <-].
  split; [|discriminate]. pose proof H1 as [HK HC HS HA HF HL HO]. destruct (HO g S1) as [FN (fl & R)].
  rewrite S1 in *. constructor; unfold name_blocks in *; cbn -[src_blocks Z.mul]; auto.
  - discriminate.
  - intros K. destruct (HA K) as [_ X]. now elim (X g).
  - discriminate.
  - rewrite HL, FN. cbn [src_blocks]. ring.
  - intros f X. injection X as <-. split; [exact FN|]. exists fl.
    apply (creach_more _ 0 (CoPreload (r_pos1 r1) (dle d0 (r_rate r1))) _ g); [exact PI|cbn [cop_run]; rewrite E2; reflexivity|exact R].
Qed.

Lemma life_drop : forall k r, k <> KArray -> named k r -> life k (drop_name (r <| r_playing := false |>)).
Proof.
  intros k r K (A & B & C & D & E & F). unfold drop_name. constructor; unfold name_blocks; cbn; rewrite ?D; auto; try discriminate.
  - rewrite F. reflexivity.
Qed.

Lemma life_play_file : forall k r fo w n st g b r', life k r -> r_play_file r fo w n st g = Ok (b, r') ->
  life k r' /\ (b = false -> r_playing r' = false).
Proof.
  intros k r fo w n st g b r' H E. unfold r_play_file in E. cbv zeta in E.
  destruct (life_close k r H) as (HC & PC & SC & LC). set (r1 := r_close r) in *. clearbody r1.
  set (r2 := if w then r1 else setNumChannels r1 n) in *.
  assert (SL : same_life r1 r2) by (unfold r2; destruct w; repeat split; auto).
  assert (SS : r_src r2 = r_src r1) by (unfold r2; destruct w; reflexivity).
  clearbody r2. pose proof (life_same _ _ _ HC SL SS) as H2. destruct SL as (A & B & C & D & F).
  assert (P2 : r_playing r2 = false) by (destruct (r_playing r2); auto; rewrite PC in C; now specialize (C eq_refl)).
  set (r3 := r2 <| r_fname := true |> <| r_live := r_live r2 + 1 |>) in *.
  pose proof (li_kind _ _ H2) as HK.
  destruct (rkind_eq_dec k KArray) as [K|K].
  - rewrite K in *. clear K. change (r_kind r3) with (r_kind r2) in E. rewrite HK in E. apply Ok_inj in E. inversion E; subst b r'. clear E.
    destruct (li_arr _ _ H2 eq_refl) as [FN _].
    split; [|intros _; unfold drop_name, r3; exact P2].
    eapply life_same; [exact H2| |reflexivity]. unfold drop_name, r3. repeat split; cbn; auto. lia.
  - destruct (SC K) as [S0 F0].
    assert (N3 : named k r3).
    { repeat split; cbn; auto; try congruence. - apply H2. - rewrite F. lia. }
    clearbody r3. assert (K3 : r_kind r3 = k) by (destruct N3; auto). rewrite K3 in E.
    assert (E' : match fo with None => Ok (false, drop_name r3) | Some f =>
        '(o, r) <- (if w then play_header (r3 <| r_fsize := s32 (fsize f) |>) f st
                    else Ok (Some 0, (r3 <| r_fsize := s32 (fsize f) |>) <| r_fsamples := Z.quot (r_fsize (r3 <| r_fsize := s32 (fsize f) |>)) 2 |>)) ;;
        match o with None => Ok (false, r) | Some p => play_open r f p g end end = Ok (b, r')).
    { destruct k; [contradiction|exact E|exact E|exact E]. }
    clear E. rename E' into E. destruct fo as [f|].
    + set (r4 := r3 <| r_fsize := s32 (fsize f) |>) in *.
      assert (N4 : named k r4) by (eapply named_same; [exact N3| |reflexivity]; repeat split; auto).
      clearbody r4. apply bind_ok in E. destruct E as ([o r5] & E5 & E).
      assert (N5 : named k r5).
      { destruct w.
        - apply header_same in E5. destruct E5 as (E5 & E6 & _). eapply named_same; eauto.
        - apply Ok_inj in E5. inversion E5; subst. eapply named_same; [exact N4| |reflexivity]. repeat split; auto. }
      destruct o as [p|].
      * unfold play_open in E. destruct (_ <=? _).
        -- apply Ok_inj in E. inversion E; subst. split; [now apply life_drop|reflexivity].
        -- apply bind_ok in E. destruct E as (fs & _ & E).
           eapply life_start; [|exact E]. apply copy_loop_life. now apply life_open_src.
      * apply Ok_inj in E. inversion E; subst. split; [now apply named_life|]. intros _. now destruct N5 as (_ & _ & P & _).
    + apply Ok_inj in E. inversion E; subst. destruct N3 as (X1 & X2 & X3 & X4 & X5 & X6).
      split; [|intros _; exact X3].
      change (drop_name r3) with (drop_name (r3 <| r_playing := r_playing r3 |>)). rewrite X3. apply life_drop; auto. repeat split; auto.
Qed.
