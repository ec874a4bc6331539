(* The example sketches that play an array (C114). *)

From Coq Require Import ZArith Lia List Bool Reals Lra.
From RecordUpdate Require Import RecordUpdate.
From Flocq Require Import Core.Core IEEE754.BinarySingleNaN.
From Verif Require Import Machine Floats FloatFacts WavModel InterpModel CacheModel CacheFacts ReaderModel ReaderFacts ReaderSpec
  Walk ForwardProofs LifeProofs FadeSpec FadeProofs FadeLoop CubicProofs QuadProofs InterpSafe ResponderModel ResponderSpec QueueProofs
  PlayerModel LifeSpec WorldProofs ScheduleProofs SketchModel SketchSpec SketchProofs.
Import ListNotations.
Local Open Scope Z_scope.

(* ---- the rate ---- *)

Lemma pot_value : forall p, 0 <= p <= 1023 -> fin64 (pot_rate p) = true /\ R64 (pot_rate p) = (IZR (p - 512) / 512)%R.
Proof.
  intros p B. unfold pot_rate. destruct (d_of_Z_ok p ltac:(lia)) as [P1 P2]. destruct (d_of_Z_ok 512 ltac:(lia)) as [Q1 Q2].
  assert (PB : (0 <= IZR p <= 1023)%R) by (split; apply IZR_le; lia).
  destruct (dsub_ok (d_of_Z p) (d_of_Z 512) P2 Q2) as [S1 S2]. { apply big_ok. rewrite P1, Q1. apply Rabs_le. lra. }
  rewrite P1, Q1, <- minus_IZR in S1. rewrite rnd64_id in S1 by (apply fmt64_Z; lia).
  destruct (ddiv_ok (dsub (d_of_Z p) (d_of_Z 512)) (d_of_Z 512) S2) as [D1 D2]. { rewrite Q1. lra. }
  { apply big_ok. rewrite S1, Q1. rewrite minus_IZR. apply Rabs_le. lra. }
  split; [exact D2|]. rewrite D1, S1, Q1. apply rnd64_id.
  replace (IZR (p - 512) / 512)%R with (IZR (p - 512) * bpow radix2 (-9))%R by (change (bpow radix2 (-9)) with (/ 512)%R; reflexivity).
  apply fmt64_me; lia.
Qed.
Lemma pot_upper : forall p, upper p -> fin64 (pot_rate p) = true /\ (0 <= R64 (pot_rate p) <= 1)%R.
Proof.
  intros p U. unfold upper in U. destruct (pot_value p ltac:(lia)) as [F E]. split; [exact F|]. rewrite E.
  assert (0 <= IZR (p - 512) <= 511)%R by (split; apply IZR_le; lia). lra.
Qed.
Lemma pot_lower : forall p, lower p -> fin64 (pot_rate p) = true /\ (-1 <= R64 (pot_rate p) < 0)%R.
Proof.
  intros p U. unfold lower in U. destruct (pot_value p ltac:(lia)) as [F E]. split; [exact F|]. rewrite E.
  assert (-512 <= IZR (p - 512) <= -1)%R by (split; apply IZR_le; lia). lra.
Qed.

Lemma rate_fwd : forall r x, r_dual r = false -> fin64 x = true -> (0 <= R64 x)%R -> r_hdr r <= r_pos1 r -> setPlaybackRate r x = Ok (r <| r_rate := x |>).
Proof.
  intros r x D F X L. unfold setPlaybackRate. cbv zeta. change (r_dual (r <| r_rate := x |>)) with (r_dual r). rewrite D. cbn [negb].
  rewrite dlt_R by auto using fin_d0. rewrite R64_d0, Rlt_bool_false by exact X.
  change (r_pos1 (r <| r_rate := x |>)) with (r_pos1 r). change (r_hdr (r <| r_rate := x |>)) with (r_hdr r).
  destruct (Z.ltb_spec (r_pos1 r) (r_hdr r)); [lia|]. now rewrite andb_false_r.
Qed.
Lemma rate_bwd : forall r x, r_dual r = false -> fin64 x = true -> (R64 x < 0)%R -> r_pstart r = PSample -> in_s32 (r_fsamples r - 1) ->
  setPlaybackRate r x = Ok (if r_pos1 r <=? r_hdr r then r <| r_rate := x |> <| r_pos1 := spos r (r_fsamples r - 1) |> else r <| r_rate := x |>).
Proof.
  intros r x D F X PS B. unfold setPlaybackRate. cbv zeta. change (r_dual (r <| r_rate := x |>)) with (r_dual r). rewrite D. cbn [negb].
  rewrite dlt_R by auto using fin_d0. rewrite R64_d0, Rlt_bool_true by exact X.
  change (r_pos1 (r <| r_rate := x |>)) with (r_pos1 r). change (r_hdr (r <| r_rate := x |>)) with (r_hdr r).
  change (r_pstart (r <| r_rate := x |>)) with (r_pstart r). change (r_fsamples (r <| r_rate := x |>)) with (r_fsamples r). rewrite PS.
  destruct (r_pos1 r <=? r_hdr r); [|reflexivity]. rewrite chk32_ok by exact B. reflexivity.
Qed.

Section Array.
Variables (m : mem) (len : Z).
Hypothesis (HA : array_holds m 0 len 1).

(* Before the start *)
Record fresh (r : reader) : Prop := mkFresh {
  fr_play : r_playing r = false; fr_nch : r_nch r = -1; fr_set : interp_settings IQuadratic r LNone PSample 0; fr_pts : pts_ok (r_pts r);
  fr_fin : fin64 (r_rate r) = true; fr_hdr : r_hdr r = 0; fr_fs : r_fsamples r = 0 }.

Definition fwd (r : reader) : Prop :=
  (fresh r /\ (0 <= R64 (r_rate r) <= 1)%R /\ r_pos1 r = 0) \/
  exists x, fin64 x = true /\ (0 <= R64 x <= 1)%R /\ fsafe m 0 len 1 x IQuadratic LNone PSample r.
Definition bwd (r : reader) : Prop :=
  (fresh r /\ (-1 <= R64 (r_rate r) < 0)%R) \/
  exists x, fin64 x = true /\ (-1 <= R64 x < 0)%R /\ bsafe m 0 len 1 x IQuadratic PSample r.

Lemma fresh_rate : forall r x p, fresh r -> fin64 x = true -> fresh (r <| r_rate := x |> <| r_pos1 := p |>).
Proof. intros r x p [] F. constructor; assumption. Qed.
Lemma fresh_rate2 : forall r x, fresh r -> fin64 x = true -> fresh (r <| r_rate := x |>).
Proof. intros r x [] F. constructor; assumption. Qed.

Lemma fresh_new : fresh (setInterpolationType (new_reader KArray) IQuadratic).
Proof. constructor; try reflexivity; [split; [reflexivity|]; repeat split|intros c; repeat split; discriminate]. Qed.

Lemma big26 : forall x, (Rabs x <= 1)%R -> (Rabs x <= IZR (2 ^ 26))%R.
Proof. intros x H. apply Rle_trans with (1 := H). apply IZR_le. lia. Qed.

Lemma fwd_room1 : forall x s r, fin64 x = true -> (0 <= R64 x <= 1)%R -> ins m 0 len 1 x IQuadratic LNone PSample s r -> (0 <= R64 (r_rem r))%R -> 0 <= s ->
  roomy len 1 s r.
Proof.
  intros x s r F X I R S. apply (fwd_room m 0 len 1 x IQuadratic LNone PSample HA); auto; [lia|apply big26, Rabs_le; lra|apply X|].
  intros _. exists 1. split; [lia|]. split; [lra|lia].
Qed.
Lemma bwd_room1 : forall x s r, fin64 x = true -> (-1 <= R64 x < 0)%R -> ins m 0 len 1 x IQuadratic LNone PSample s r -> (R64 (r_rem r) <= 0)%R -> s + 1 <= len ->
  roomy len 1 s r.
Proof.
  intros x s r F X I R S. apply (bwd_room m 0 len 1 x IQuadratic PSample HA); auto; [lia|apply big26, Rabs_le; lra|apply X| |discriminate].
  intros _. exists 1. split; [lia|]. split; [lra|lia].
Qed.

Lemma safe_read : forall J P, keeps_safe J P -> forall r, J r -> exists fr r', total (fun f => r_read f r ABS) (fr, r') /\ J r'.
Proof.
  intros J P K r H. destruct (safe_loop J P K 128 r H) as (F & l & r' & E & H' & _). destruct (K r H) as (PL & N1 & _).
  exists l, r'. split; [|exact H']. exists F. intros f L. unfold r_read. rewrite PL. cbn [negb]. destruct (Z.ltb_spec (r_nch r) 0); [lia|].
  change ABS with (Z.of_nat 128). eapply read_loop_fuel; [| |exact E]; lia.
Qed.

(* One array start, in a world like that *)
Lemma array_step : forall w r', playRaw_array (r_stop (w_rd w 0)) m 0 len 1 = Ok r' ->
  p_play_array 0 (fun r => always (playRaw_array r m 0 len 1)) w = Ok (true, set_rd (p_stop 0 w) 0 r').
Proof.
  intros w r' E. unfold p_play_array. cbv zeta. rewrite p_stop_rd. replace (Nat.eqb 0 0) with true by reflexivity. cbv beta. rewrite E. reflexivity.
Qed.
Lemma array_op : forall I w r', world_ok false I w -> playRaw_array (r_stop (w_rd w 0)) m 0 len 1 = Ok r' -> I r' -> op_ok false I (WPlayRaw 0 m 0 len 1) w.
Proof.
  intros I w r' (a & q & v & Y & A & H) E H'. pose proof (array_step w r' E) as P. set (w' := set_rd (p_stop 0 w) 0 r') in *.
  exists (WoPlay 0 true), w'. split.
  - exists O. intros f _. unfold wop_run. rewrite P. reflexivity.
  - exists a, (q_remove q 0), v. split; [|split; [exact A|]].
    + eapply ys_rd; [apply (ys_stop w a q 0 v 0 Y); lia|reflexivity].
    + unfold w'. rewrite rd_set. exact H'.
Qed.

(* ---- forwards ---- *)

Lemma fwd_nch : forall r, fwd r -> r_nch r = -1 \/ 0 <= r_nch r.
Proof.
  intros r [[[] _]|(x & F & X & p & I & _)]; [auto|]. right. rewrite (i_nch _ _ _ _ _ _ (n_ist _ _ _ _ _ _ _ _ _ _ I)). lia.
Qed.
Lemma fwd_read : forall r, fwd r -> r_playing r = true -> exists fr r', total (fun f => r_read f r ABS) (fr, r') /\ fwd r'.
Proof.
  intros r [[[] _]|(x & F & X & S)] PL; [congruence|].
  assert (BX : (Rabs (R64 x) <= IZR (2 ^ 26))%R) by (apply big26, Rabs_le; lra).
  destruct (safe_read _ _ (fwd_safe m 0 len 1 x IQuadratic LNone PSample HA ltac:(lia) F BX (or_introl eq_refl) (proj1 X)) r S) as (fr & r' & T & S').
  exists fr, r'. split; [exact T|]. right. eauto.
Qed.
Lemma fwd_rate : forall p r, upper p -> fwd r -> exists r', setPlaybackRate r (pot_rate p) = Ok r' /\ fwd r'.
Proof.
  intros p r U H. destruct (pot_upper p U) as [F X]. set (x := pot_rate p) in *. clearbody x.
  destruct H as [(H & _ & P0)|(x0 & F0 & X0 & q & I & Q0 & Q1 & R0 & RM)].
  - exists (r <| r_rate := x |>). split; [|left; split; [now apply fresh_rate2|split; [exact X|exact P0]]].
    apply rate_fwd; auto; [apply H|apply X|]. rewrite (fr_hdr r H). lia.
  - pose proof (n_ist _ _ _ _ _ _ _ _ _ _ I) as J. exists (r <| r_rate := x |>). split.
    + apply rate_fwd; auto; [apply J|apply X|]. rewrite (i_hdr _ _ _ _ _ _ J), (i_pos _ _ _ _ _ _ J). lia.
    + right. exists x. split; [exact F|]. split; [exact X|]. exists q.
      assert (I2 : ins m 0 len 1 x IQuadratic LNone PSample (q * Z.of_nat 1) (r <| r_rate := x |>)).
      { destruct I as [[] ? ? ? ?]. constructor; try assumption; [|reflexivity]. constructor; assumption. }
      split; [exact I2|]. split; [exact Q0|]. split; [exact Q1|]. split; [exact R0|].
      apply (fwd_room1 x); auto. lia.
Qed.
Lemma fwd_start : forall st g w, bytes_ok st -> world_ok false fwd w -> r_playing (w_rd w 0) = false -> op_ok false fwd (start_array m len st g) w.
Proof.
  intros st g w _ W PL. unfold start_array.
  assert (P : exists r', playRaw_array (r_stop (w_rd w 0)) m 0 len 1 = Ok r' /\ fwd r').
  { destruct W as (a & q & v & _ & _ & H). set (r := w_rd w 0) in *. clearbody r.
    destruct H as [(H & X & _)|(x & F & X & p & I & _)]; [|pose proof (i_play _ _ _ _ _ _ (n_ist _ _ _ _ _ _ _ _ _ _ I)); congruence].
    destruct H as [_ NC (SI & B) PT F HH FS]. set (rs := r_stop r) in *.
    assert (BS : basic_settings (setInterpolationType rs INone) LNone PSample 0) by exact B.
    destruct (playRaw_fwd m 0 len 1 _ LNone PSample 0 HA BS) as (r' & E & PLN & SR & R1 & FS' & LP & RM & L0 & L1 & PS & PO); auto; [apply X|discriminate|].
    pose proof (playRaw_interp (setInterpolationType rs INone) IQuadratic m 0 len (Z.of_nat 1)) as PI. rewrite E in PI. cbn [bind] in PI. rewrite (interp_set rs IQuadratic SI) in PI.
    exists (setInterpolationType r' IQuadratic). split; [exact PI|]. right. exists (r_rate r). split; [exact F|]. split; [exact X|].
    destruct B as (B1 & B2 & B3 & B4 & B5 & B6 & B7).
    exists 0. assert (INS : ins m 0 len 1 (r_rate r) IQuadratic LNone PSample (0 * Z.of_nat 1) (setInterpolationType r' IQuadratic)).
    { constructor; [constructor|..]; try reflexivity; try assumption; try apply PLN.
      - change (pts_ok (r_pts r')). rewrite (playRaw_pts _ _ _ _ _ _ E). exact PT.
      - change (fin64 (r_rem r') = true). rewrite RM. exact B6.
      - change (Rabs (R64 (r_rem r')) <= 1)%R. rewrite RM. change (r_rem (setInterpolationType rs INone)) with (r_rem (setInterpolationType r INone)). rewrite B7, Rabs_R0. lra.
      - change (fin64 (r_rate r') = true). rewrite R1. exact F. }
    assert (RZ : R64 (r_rem (setInterpolationType r' IQuadratic)) = 0%R) by (change (R64 (r_rem r') = 0%R); rewrite RM; exact B7).
    split; [exact INS|]. split; [lia|]. split; [pose proof HA as (_ & ? & _); lia|]. split; [rewrite RZ; lra|].
    apply (fwd_room1 (r_rate r)); auto; [rewrite RZ; lra|lia]. }
  destruct P as (r' & E & H). now apply (array_op fwd w r').
Qed.

Theorem array_forward : forall flags analog l, 0 <= flags < 256 -> upper analog -> Forall (turn_ok upper) l ->
  exists F xs w, forall fuel, (F <= fuel)%nat -> sketch fuel KArray flags (start_array m len) analog l = Ok (xs, w).
Proof.
  intros flags analog l FL U A.
  assert (I0 : fwd (setInterpolationType (new_reader KArray) IQuadratic)).
  { left. split; [apply fresh_new|]. split; [|reflexivity]. change (R64 (r_rate (setInterpolationType (new_reader KArray) IQuadratic))) with (R64 d1). rewrite R64_d1. lra. }
  destruct (fwd_rate analog _ U I0) as (r0 & E & I1).
  destruct (sketch_total false fwd upper (start_array m len) fwd_nch fwd_read fwd_rate) with (k := KArray) (flags := flags) (analog := analog) (l := l) (r0 := r0)
    as (xs & w & [F T] & _); auto; [discriminate|exact fwd_start|].
  exists F, xs, w. exact T.
Qed.

(* ---- in reverse ---- *)

Lemma bwd_nch : forall r, bwd r -> r_nch r = -1 \/ 0 <= r_nch r.
Proof.
  intros r [[[] _]|(x & F & X & p & I & _)]; [auto|]. right. rewrite (i_nch _ _ _ _ _ _ (n_ist _ _ _ _ _ _ _ _ _ _ I)). lia.
Qed.
Lemma bwd_read : forall r, bwd r -> r_playing r = true -> exists fr r', total (fun f => r_read f r ABS) (fr, r') /\ bwd r'.
Proof.
  intros r [[[] _]|(x & F & X & S)] PL; [congruence|].
  assert (BX : (Rabs (R64 x) <= IZR (2 ^ 26))%R) by (apply big26, Rabs_le; lra).
  destruct (safe_read _ _ (bwd_safe m 0 len 1 x IQuadratic PSample HA ltac:(lia) F BX (proj2 X)) r S) as (fr & r' & T & S').
  exists fr, r'. split; [exact T|]. right. eauto.
Qed.
Lemma bwd_rate : forall p r, lower p -> bwd r -> exists r', setPlaybackRate r (pot_rate p) = Ok r' /\ bwd r'.
Proof.
  intros p r U H. destruct (pot_lower p U) as [F X]. set (x := pot_rate p) in *. clearbody x.
  destruct H as [(H & _)|(x0 & F0 & X0 & s & I & S0 & S1 & R0 & RM)].
  - eexists. split; [apply rate_bwd; auto; [apply H|apply X|apply H|rewrite (fr_fs r H); unfold in_s32; lia]|].
    left. destruct (_ <=? _); [split; [now apply fresh_rate|]|split; [now apply fresh_rate2|]].
    + change (-1 <= R64 x < 0)%R. lra.
    + change (-1 <= R64 x < 0)%R. lra.
  - pose proof (n_ist _ _ _ _ _ _ _ _ _ _ I) as J. pose proof HA as (_ & LN & _ & LB & _).
    eexists. split; [apply rate_bwd; auto; [apply J|apply X|apply I|rewrite (i_len _ _ _ _ _ _ J); unfold in_s32; lia]|].
    right. exists x. split; [exact F|]. split; [exact X|].
    assert (Q : forall s' r', ins m 0 len 1 x IQuadratic LNone PSample s' r' -> r_rem r' = r_rem r -> - 2 ^ 30 - 8 <= s' -> s' + 1 <= len -> bsafe m 0 len 1 x IQuadratic PSample r').
    { intros s' r' I2 RR B1 B2. exists s'. split; [exact I2|]. split; [exact B1|]. split; [lia|]. rewrite RR. split; [exact R0|].
      apply (bwd_room1 x); auto. now rewrite RR. }
    rewrite (i_pos _ _ _ _ _ _ J), (i_hdr _ _ _ _ _ _ J), (i_len _ _ _ _ _ _ J). destruct (Z.leb_spec s 0).
    + apply (Q (len - 1)); [|reflexivity|lia|lia].
      assert (SP : spos r (len - 1) = len - 1).
      { unfold spos, sts. rewrite (i_hdr _ _ _ _ _ _ J), (i_nch _ _ _ _ _ _ J), s32_u32. rewrite s32_id by (unfold in_s32; lia). lia. }
      rewrite SP. destruct I as [[] ? ? ? ?]. constructor; try assumption; [|reflexivity]. constructor; try assumption. reflexivity.
    + apply (Q s); [|reflexivity|lia|lia]. destruct I as [[] ? ? ? ?]. constructor; try assumption; [|reflexivity]. constructor; assumption.
Qed.
Lemma bwd_start : forall st g w, bytes_ok st -> world_ok false bwd w -> r_playing (w_rd w 0) = false -> op_ok false bwd (start_array m len st g) w.
Proof.
  intros st g w _ W PL. unfold start_array.
  assert (P : exists r', playRaw_array (r_stop (w_rd w 0)) m 0 len 1 = Ok r' /\ bwd r').
  { destruct W as (a & q & v & _ & _ & H). set (r := w_rd w 0) in *. clearbody r.
    destruct H as [(H & X)|(x & F & X & p & I & _)]; [|pose proof (i_play _ _ _ _ _ _ (n_ist _ _ _ _ _ _ _ _ _ _ I)); congruence].
    destruct H as [_ NC (SI & B) PT F HH FS]. set (rs := r_stop r) in *.
    assert (BS : basic_settings (setInterpolationType rs INone) LNone PSample 0) by exact B.
    destruct (playRaw_bwd m 0 len 1 _ LNone PSample 0 HA BS) as (r' & E & PLN & SR & R1 & FS' & LP & RM & L0 & L1 & PS & PO); auto; [apply X|discriminate|].
    pose proof (playRaw_interp (setInterpolationType rs INone) IQuadratic m 0 len (Z.of_nat 1)) as PI. rewrite E in PI. cbn [bind] in PI. rewrite (interp_set rs IQuadratic SI) in PI.
    exists (setInterpolationType r' IQuadratic). split; [exact PI|]. right. exists (r_rate r). split; [exact F|]. split; [lra|].
    destruct B as (B1 & B2 & B3 & B4 & B5 & B6 & B7). pose proof HA as (_ & LN & _ & LB & _).
    exists (len - 1). assert (INS : ins m 0 len 1 (r_rate r) IQuadratic LNone PSample (len - 1) (setInterpolationType r' IQuadratic)).
    { constructor; [constructor|..]; try reflexivity; try assumption; try apply PLN.
      - change (pts_ok (r_pts r')). rewrite (playRaw_pts _ _ _ _ _ _ E). exact PT.
      - change (fin64 (r_rem r') = true). rewrite RM. exact B6.
      - change (Rabs (R64 (r_rem r')) <= 1)%R. rewrite RM. change (r_rem (setInterpolationType rs INone)) with (r_rem (setInterpolationType r INone)). rewrite B7, Rabs_R0. lra.
      - change (fin64 (r_rate r') = true). rewrite R1. exact F. }
    assert (RZ : R64 (r_rem (setInterpolationType r' IQuadratic)) = 0%R) by (change (R64 (r_rem r') = 0%R); rewrite RM; exact B7).
    split; [exact INS|]. split; [lia|]. split; [lia|]. split; [rewrite RZ; lra|].
    apply (bwd_room1 (r_rate r)); auto; [rewrite RZ; lra|lia]. }
  destruct P as (r' & E & H). now apply (array_op bwd w r').
Qed.

Theorem array_reverse : forall flags analog l, 0 <= flags < 256 -> lower analog -> Forall (turn_ok lower) l ->
  exists F xs w, forall fuel, (F <= fuel)%nat -> sketch fuel KArray flags (start_array m len) analog l = Ok (xs, w).
Proof.
  intros flags analog l FL U A. destruct (pot_lower analog U) as [FX X].
  assert (I1 : exists r0, setPlaybackRate (setInterpolationType (new_reader KArray) IQuadratic) (pot_rate analog) = Ok r0 /\ bwd r0).
  { eexists. split; [apply rate_bwd; auto; [apply X|cbn; unfold in_s32; lia]|]. left. split; [apply fresh_rate; [apply fresh_new|exact FX]|exact X]. }
  destruct I1 as (r0 & E & I1).
  destruct (sketch_total false bwd lower (start_array m len) bwd_nch bwd_read bwd_rate) with (k := KArray) (flags := flags) (analog := analog) (l := l) (r0 := r0)
    as (xs & w & [F T] & _); auto; [discriminate|exact bwd_start|].
  exists F, xs, w. exact T.
Qed.
End Array.
