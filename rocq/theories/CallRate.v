(* setPlaybackRate and loop(n) interrupted by updates. *)

From Coq Require Import ZArith Lia List Bool Reals Lra.
From RecordUpdate Require Import RecordUpdate.
From Flocq Require Import Core.Core IEEE754.BinarySingleNaN.
From Verif Require Import Machine Floats FloatFacts WavModel InterpModel CacheModel CacheFacts ReaderModel ReaderFacts ReaderSpec PlayerModel DriftProofs
  CallModel CallSpec CallProofs CallTweak CallAtomic.
Import ListNotations.
Local Open Scope Z_scope.

(* one head, no loop, less than a frame pending, the rate x *)
Record straight (x : b64) (r : reader) : Prop := mkStraight {
  st_dual : r_dual r = false; st_loop : r_loop r = LNone; st_fin : fin64 (r_rem r) = true;
  st_rem : (Rabs (R64 (r_rem r)) < 1)%R; st_rate : r_rate r = x; st_x : fin64 x = true }.

(* the least number of frames by which a step can go back: a above, b below zero *)
Definition back_by (x : b64) (B : Z) : Prop := (0 <= R64 x)%R /\ B = 0 \/ (exists K, 0 <= K < 2 ^ 40 /\ (- IZR K <= R64 x)%R /\ B = K + 1).

Lemma advance_back : forall x B r r', straight x r -> back_by x B -> advance r = Ok r' -> exists D, - B <= D /\ r_pos1 r' = r_pos1 r + D * r_nch r /\ straight x r'.
Proof.
  intros x B r r' [D L F RM RX FX] BB A.
  destruct (advance_moves r r' A F (eq_ind_r (fun y => fin64 y = true) FX RX) RM) as (_ & F2 & RM2 & RX2).
  pose proof (advance_statics _ _ A) as S.
  assert (ST : straight x r').
  { constructor; auto; [rewrite <- (statics_dual _ _ S); exact D|rewrite <- (statics_loop _ _ S); exact L|congruence]. }
  unfold advance in A. cbv zeta in A. set (s := dadd (r_rem r) (r_rate r)) in *.
  apply bind_ok in A. destruct A as (dl & E0 & A). apply d_to_s32_inv in E0. destruct E0 as (FS & DE & DI).
  apply bind_ok in A. destruct A as (st & E1 & A). apply chk32_inv in E1. apply bind_ok in A. destruct A as (p & E2 & A). apply chk32_inv in E2.
  exists dl. split; [|split; [|exact ST]].
  2: { destruct E1 as [-> _], E2 as [-> _]. destruct (r_cfst r =? 0); [apply Ok_inj in A; rewrite <- A; reflexivity|].
       apply bind_ok in A. destruct A as (q & _ & A). apply Ok_inj in A. rewrite <- A. reflexivity. }
  assert (SV : R64 s = rnd64 (R64 (r_rem r) + R64 x)) by (unfold s; rewrite dadd_fin, RX; auto; rewrite RX; exact FX).
  destruct (Rabs_def2 _ _ RM) as [RM1 RM0]. rewrite DE. destruct BB as [[X ->]|(K & KR & X & ->)].
  - assert (G : (R64 (r_rem r) <= R64 s)%R). { rewrite SV. rewrite <- (rnd64_id (R64 (r_rem r))) at 1 by apply fmt64_R64. apply rnd64_le. lra. }
    destruct (Rle_lt_dec 0 (R64 s)) as [P|P].
    + pose proof (Ztrunc_bounds_pos _ P). assert (LT : (-1 < IZR (Ztrunc (R64 s)))%R) by lra. apply lt_IZR in LT. lia.
    + apply Rlt_le in P. destruct (Ztrunc_bounds_neg _ P) as [_ Q]. assert (LT : (-1 < IZR (Ztrunc (R64 s)))%R) by lra. apply lt_IZR in LT. lia.
  - assert (G : (- IZR (K + 1) <= R64 s)%R).
    { rewrite SV. rewrite <- opp_IZR. rewrite <- (rnd64_id (IZR (- (K + 1)))) by (apply fmt64_Z; lia). apply rnd64_le. rewrite opp_IZR, plus_IZR. lra. }
    destruct (Rle_lt_dec 0 (R64 s)) as [P|P].
    + pose proof (Ztrunc_bounds_pos _ P). assert (LT : (-1 < IZR (Ztrunc (R64 s)))%R) by lra. apply lt_IZR in LT. lia.
    + apply Rlt_le in P. destruct (Ztrunc_bounds_neg _ P) as [_ Q]. rewrite <- opp_IZR in G. assert (IZR (- (K + 1)) <= IZR (Ztrunc (R64 s)))%R by lra. apply le_IZR in H. lia.
Qed.

Lemma straight_head : forall x r r', straight x r -> same_head r r' -> straight x r'.
Proof. intros x r r' [A B C D E F] (H1 & H2 & _ & H4 & H5 & _). constructor; congruence. Qed.

Lemma frame_back : forall x B ifuel r o r', straight x r -> back_by x B -> 0 <= r_nch r -> read_frame ifuel r = Ok (o, r') ->
  straight x r' /\ r_nch r' = r_nch r /\ r_pos1 r - B * r_nch r <= r_pos1 r' /\ (o = None -> r_pos1 r' = r_pos1 r).
Proof.
  intros x B ifuel r o r' ST BB N H. assert (B0 : 0 <= B) by (destruct BB as [[_ ->]|(K & KR & _ & ->)]; lia).
  assert (BN : 0 <= B * r_nch r) by now apply Z.mul_nonneg_nonneg.
  unfold read_frame in H. rewrite (st_dual _ _ ST) in H. cbn [bind] in H. apply bind_ok in H. destruct H as ([o1 r1] & E & H).
  apply channels_head in E; [|apply (st_loop _ _ ST)]. pose proof (straight_head _ _ _ ST E) as ST1. destruct E as (_ & _ & N1 & _ & _ & P1). destruct o1.
  - apply bind_ok in H. destruct H as (r3 & A & H). apply Ok_inj, pair_equal_spec in H. destruct H as [<- <-].
    pose proof (advance_statics _ _ A) as S. destruct (advance_back _ _ _ _ ST1 BB A) as (D & DB & P & ST2). split; [exact ST2|]. split; [rewrite <- (statics_nch _ _ S); exact N1|]. split; [|discriminate].
    rewrite P, P1, N1. assert (- B * r_nch r <= D * r_nch r) by (apply Z.mul_le_mono_nonneg_r; lia). lia.
  - apply Ok_inj, pair_equal_spec in H. destruct H as [<- <-]. split; [exact ST1|]. split; [exact N1|]. split; [lia|auto].
Qed.
Lemma loop_back : forall x B ifuel fuel r n l r', straight x r -> back_by x B -> 0 < r_nch r -> 0 <= n -> read_loop ifuel fuel r n = Ok (l, r') ->
  straight x r' /\ r_nch r' = r_nch r /\ r_pos1 r - n * (B * r_nch r) <= r_pos1 r'.
Proof.
  intros x B ifuel. induction fuel as [|fuel IH]; intros r n l r' ST BB N N0 H;
  assert (B0 : 0 <= B) by (destruct BB as [[_ ->]|(K & KR & _ & ->)]; lia);
  assert (BN : 0 <= B * r_nch r) by (apply Z.mul_nonneg_nonneg; lia); assert (NB : 0 <= n * (B * r_nch r)) by (apply Z.mul_nonneg_nonneg; lia);
  cbn [read_loop] in H; destruct (Z.leb_spec n 0); try discriminate.
  - apply Ok_inj, pair_equal_spec in H. destruct H as [_ <-]. split; [exact ST|]. split; [reflexivity|lia].
  - apply Ok_inj, pair_equal_spec in H. destruct H as [_ <-]. split; [exact ST|]. split; [reflexivity|lia].
  - apply bind_ok in H. destruct H as ([o r1] & E & H). destruct (frame_back _ _ _ _ _ _ ST BB ltac:(lia) E) as (ST1 & N1 & P1 & PN). destruct o as [vs|].
    + destruct (Z.eqb_spec (r_nch r) 0); [lia|]. apply bind_ok in H. destruct H as ([l2 r2] & E2 & H). apply Ok_inj, pair_equal_spec in H. destruct H as [_ <-].
      destruct (IH r1 (n - 1) l2 r2 ST1 BB ltac:(lia) ltac:(lia) E2) as (ST2 & N2 & P2). split; [exact ST2|]. split; [lia|]. rewrite N1 in P2.
      replace (n * (B * r_nch r)) with ((n - 1) * (B * r_nch r) + B * r_nch r) by ring. lia.
    + apply Ok_inj, pair_equal_spec in H. destruct H as [_ <-]. split; [exact ST1|]. split; [exact N1|]. specialize (PN eq_refl). lia.
Qed.
Lemma update_back : forall x B fuel a r z r', straight x r -> back_by x B -> 0 < r_nch r -> p_update fuel a r = Ok (z, r') ->
  straight x r' /\ r_nch r' = r_nch r /\ r_pos1 r - ABS * (B * r_nch r) <= r_pos1 r'.
Proof.
  intros x B fuel a r z r' ST BB N H. assert (B0 : 0 <= B) by (destruct BB as [[_ ->]|(K & KR & _ & ->)]; lia).
  assert (BN : 0 <= B * r_nch r) by (apply Z.mul_nonneg_nonneg; lia). unfold p_update in H. unfold ABS in *.
  destruct (_ =? -1); [apply Ok_inj, pair_equal_spec in H; destruct H as [_ <-]; split; [exact ST|split; [reflexivity|lia]]|].
  destruct (_ <? 0); [discriminate|]. destruct (negb _) eqn:PL; [apply Ok_inj, pair_equal_spec in H; destruct H as [_ <-]; split; [exact ST|split; [reflexivity|lia]]|]. cbv zeta in H.
  destruct (forallb _ _); [|apply Ok_inj, pair_equal_spec in H; destruct H as [_ <-]; split; [exact ST|split; [reflexivity|lia]]].
  apply bind_ok in H. destruct H as ([fr r1] & E & H). apply Ok_inj, pair_equal_spec in H. destruct H as [_ <-]. unfold r_read in E. rewrite PL in E.
  destruct (_ <? 0); [discriminate|]. eapply (loop_back x B); [exact ST|exact BB|exact N| |exact E]. lia.
Qed.
Lemma updates_back : forall x B fuel l r o r', straight x r -> back_by x B -> 0 < r_nch r -> updates fuel l r = Ok (o, r') ->
  straight x r' /\ r_pos1 r - Z.of_nat (length l) * (ABS * (B * r_nch r)) <= r_pos1 r'.
Proof.
  intros x B fuel. induction l as [|a l IH]; intros r o r' ST BB N H; cbn [updates] in H.
  - apply Ok_inj, pair_equal_spec in H. destruct H as [_ <-]. split; [exact ST|]. cbn [length]. lia.
  - apply bind_ok in H. destruct H as ([[ac ev] r1] & E & H). apply bind_ok in H. destruct H as ([o2 r2] & E2 & H). apply Ok_inj, pair_equal_spec in H. destruct H as [_ <-].
    destruct (update_back _ _ _ _ _ _ _ ST BB N E) as (ST1 & N1 & P1). destruct (IH r1 o2 r2 ST1 BB ltac:(lia) E2) as (ST2 & P2). split; [exact ST2|].
    cbn [length]. rewrite Nat2Z.inj_succ, N1 in *. replace (Z.succ (Z.of_nat (length l)) * (ABS * (B * r_nch r))) with (Z.of_nat (length l) * (ABS * (B * r_nch r)) + ABS * (B * r_nch r)) by ring. lia.
Qed.
Lemma updates_hdr : forall fuel l r o r', updates fuel l r = Ok (o, r') -> r_hdr r' = r_hdr r.
Proof. intros. apply updates_statics in H. destruct (statics_bounds _ _ H) as (E & _). exact E. Qed.

(* the position is not moved by the call when the comparison is made after l *)
Definition kept (f : b64) (r : reader) : Prop := r_dual r = false /\ (if dlt f d0 then r_hdr r < r_pos1 r else r_hdr r <= r_pos1 r).
Lemma kept_rate : forall f r, kept f r -> setPlaybackRate r f = Ok (r <| r_rate := f |>).
Proof.
  intros f r [D K]. unfold setPlaybackRate. change (r_dual (r <| r_rate := f |>)) with (r_dual r). rewrite D. cbn [negb].
  change (r_pos1 (r <| r_rate := f |>)) with (r_pos1 r). change (r_hdr (r <| r_rate := f |>)) with (r_hdr r). destruct (dlt f d0).
  - destruct (Z.leb_spec (r_pos1 r) (r_hdr r)); [lia|reflexivity].
  - destruct (Z.ltb_spec (r_pos1 r) (r_hdr r)); [lia|]. rewrite andb_false_r. reflexivity.
Qed.
Lemma rate_kept : forall f r mids, kept f r ->
  (forall fuel o r1, updates fuel (hd [] mids) (r <| r_rate := f |>) = Ok (o, r1) -> kept f r1) ->
  at_once (rate_steps f) (fun r => yes (setPlaybackRate r f)) r mids.
Proof.
  intros f r mids K U fuel. unfold rate_steps. rewrite write_mid. cbn [hd tl updates bind app]. unfold between. cbn [updates bind app].
  rewrite kept_rate by assumption. unfold yes. cbn [bind].
  cbn [look interrupted]. destruct (updates fuel (hd [] mids) (r <| r_rate := f |>)) as [[o r1]|u|] eqn:E.
  - rewrite (concat_hd _ mids), updates_app, E. cbn [bind]. destruct (U _ _ _ E) as [D P]. rewrite D. cbn [negb].
    assert (X : forall p q, (if dlt f d0 then if r_pos1 r1 <=? r_hdr r1 then p else Done true else if dle d0 f && (r_pos1 r1 <? r_hdr r1) then q else Done true) = Done true).
    { intros p q. destruct (dlt f d0).
      - destruct (Z.leb_spec (r_pos1 r1) (r_hdr r1)); [lia|reflexivity].
      - destruct (Z.ltb_spec (r_pos1 r1) (r_hdr r1)); [lia|]. rewrite andb_false_r. reflexivity. }
    rewrite X. cbn [interrupted]. destruct (updates fuel (concat (tl mids)) r1) as [[o2 r2]|u|]; reflexivity.
  - rewrite (concat_hd _ mids), updates_app, E. reflexivity.
  - rewrite (concat_hd _ mids), updates_app, E. reflexivity.
Qed.

Lemma calm_straight : forall f r, calm_head r -> fin64 f = true -> straight f (r <| r_rate := f |>).
Proof. intros f r (A & B & C & D & _) F. constructor; auto. Qed.

Lemma rate_forward : forall f r mids, calm_head r -> fin64 f = true -> (0 <= R64 f)%R -> r_hdr r <= r_pos1 r ->
  at_once (rate_steps f) (fun r => yes (setPlaybackRate r f)) r mids.
Proof.
  intros f r mids C F X P. pose proof (calm_straight f r C F) as ST. assert (L : dlt f d0 = false) by now apply dlt0_false.
  apply rate_kept; [split; [apply C|rewrite L; exact P]|]. intros fuel o r1 U. destruct (updates_back f 0 _ _ _ _ _ ST (or_introl (conj X eq_refl)) ltac:(apply C) U) as (ST1 & P1).
  split; [apply (st_dual _ _ ST1)|]. rewrite L, (updates_hdr _ _ _ _ _ U). change (r_hdr (r <| r_rate := f |>)) with (r_hdr r). change (r_pos1 (r <| r_rate := f |>)) with (r_pos1 r) in P1. lia.
Qed.
Lemma rate_reverse : forall f K r mids, calm_head r -> fin64 f = true -> 0 <= K < 2 ^ 40 -> (- IZR K <= R64 f < 0)%R ->
  Z.of_nat (length (hd [] mids)) * (128 * ((K + 1) * r_nch r)) < r_pos1 r - r_hdr r ->
  at_once (rate_steps f) (fun r => yes (setPlaybackRate r f)) r mids.
Proof.
  intros f K r mids C F KR X P. pose proof (calm_straight f r C F) as ST. assert (L : dlt f d0 = true) by (apply dlt0_true; auto; lra).
  assert (N : 0 < r_nch r) by apply C.
  assert (P0 : 0 <= Z.of_nat (length (hd [] mids)) * (128 * ((K + 1) * r_nch r))) by (apply Z.mul_nonneg_nonneg; [lia|]; apply Z.mul_nonneg_nonneg; [lia|]; apply Z.mul_nonneg_nonneg; lia).
  apply rate_kept; [split; [apply C|rewrite L; lia]|]. intros fuel o r1 U.
  assert (BB : back_by f (K + 1)) by (right; exists K; repeat split; lra || lia).
  destruct (updates_back f (K + 1) _ _ _ _ _ ST BB N U) as (ST1 & P1).
  split; [apply (st_dual _ _ ST1)|]. rewrite L, (updates_hdr _ _ _ _ _ U). change (r_hdr (r <| r_rate := f |>)) with (r_hdr r).
  change (r_pos1 (r <| r_rate := f |>)) with (r_pos1 r) in P1. change (r_nch (r <| r_rate := f |>)) with (r_nch r) in P1. unfold ABS in P1. lia.
Qed.

(* ------------------------------------------------------------------ *)
(* loop(n)                                                             *)

Lemma tw_bounds : forall x y r, tw (fun f => f) same (fun _ => x) (fun _ => y) r = r <| r_ls := x |> <| r_lf := y |>.
Proof. intros x y r. unfold tw, same. destruct r as [? ? ? ? ? ? ? ? ? ? ? ? ? ? ? ? ? ? ? ? ? sr ? ? ? ?]. destruct sr; reflexivity. Qed.
Lemma tw_first : forall x r, tw (fun f => f) same (fun _ => x) same r = r <| r_ls := x |>.
Proof. intros x r. unfold tw, same. destruct r as [? ? ? ? ? ? ? ? ? ? ? ? ? ? ? ? ? ? ? ? ? sr ? ? ? ?]. destruct sr; reflexivity. Qed.
Lemma id_get : forall f i, if_get f i = (fst (if_get f i), snd (if_get f i)).
Proof. intros f i. now destruct (if_get f i). Qed.

Lemma loopless_updates : forall fuel l r o r', updates fuel l r = Ok (o, r') -> loopless r -> loopless r'.
Proof.
  intros fuel l r o r' U (A & B & C). apply updates_statics in U. repeat split.
  - rewrite <- A. symmetry. now apply statics_loop.
  - rewrite <- B. symmetry. now apply statics_dual.
  - rewrite <- C. destruct U as [S _]. now apply (f_equal r_pstart) in S.
Qed.
Lemma fade_kept_one : forall fuel c r o r', r_loop r = LNone -> read_one fuel c r = Ok (o, r') -> r_cf r' = r_cf r.
Proof.
  intros [|fuel] c r0 o0 r0' L H; [discriminate|]. cbn [read_one] in H. apply bind_ok in H. destruct H as ([o1 r1] & E & H). destruct o1.
  - apply Ok_inj, pair_equal_spec in H. destruct H as [_ <-]. apply readNextValue_some in E. destruct E as [_ [Q _]]. symmetry. exact (f_equal r_cf Q).
  - apply readNextValue_none in E. destruct E as [_ ->]. apply bind_ok in H. destruct H as (e & E2 & H).
    unfold on_end in E2. change (r_loop (r0 <| r_cfst := 0%Z |>)) with (r_loop r0) in E2. cbv zeta in E2. rewrite L in E2. apply Ok_inj in E2. subst e.
    apply Ok_inj, pair_equal_spec in H. destruct H as [_ <-]. reflexivity.
Qed.
Lemma fade_kept_channels : forall fuel todo c r o r', r_loop r = LNone -> read_channels fuel todo c r = Ok (o, r') -> r_cf r' = r_cf r.
Proof.
  intros fuel. induction todo as [|todo IH]; intros c r o1 r1 L E; cbn [read_channels] in E.
  - apply Ok_inj, pair_equal_spec in E. now destruct E as [_ <-].
  - apply bind_ok in E. destruct E as ([o2 r2] & E1 & E). pose proof (read_one_statics _ _ _ _ _ E1) as S. apply fade_kept_one in E1; auto. destruct o2.
    + apply bind_ok in E. destruct E as ([o3 r3] & E3 & E). apply Ok_inj, pair_equal_spec in E. destruct E as [_ <-].
      rewrite <- E1. apply IH in E3; auto. rewrite <- (statics_loop _ _ S). exact L.
    + apply Ok_inj, pair_equal_spec in E. now destruct E as [_ <-].
Qed.
Lemma fade_kept_frame : forall ifuel r o r', r_dual r = false -> r_loop r = LNone -> read_frame ifuel r = Ok (o, r') -> r_cf r' = r_cf r.
Proof.
  intros ifuel r o r' D L H. unfold read_frame in H. rewrite D in H. cbn [bind] in H. apply bind_ok in H. destruct H as ([o1 r1] & E & H).
  assert (C : r_cf r1 = r_cf r) by (revert E; now apply fade_kept_channels).
  destruct o1.
  - apply bind_ok in H. destruct H as (r3 & A & H). apply Ok_inj, pair_equal_spec in H. destruct H as [_ <-]. rewrite <- C. unfold advance in A.
    apply bind_ok in A. destruct A as (d & _ & A). apply bind_ok in A. destruct A as (s & _ & A). apply bind_ok in A. destruct A as (p & _ & A).
    destruct (_ =? 0); [apply Ok_inj in A; now rewrite <- A|]. apply bind_ok in A. destruct A as (q & _ & A). apply Ok_inj in A. now rewrite <- A.
  - apply Ok_inj, pair_equal_spec in H. now destruct H as [_ <-].
Qed.
Lemma fade_kept : forall fuel l r o r', loopless r -> updates fuel l r = Ok (o, r') -> r_cf r' = r_cf r.
Proof.
  intros fuel. assert (LOOP : forall ifuel f r n l r', loopless r -> read_loop ifuel f r n = Ok (l, r') -> r_cf r' = r_cf r).
  { intros ifuel. induction f as [|f IH]; intros r n l r' LL H; cbn [read_loop] in H; destruct (n <=? 0); try discriminate;
      try (apply Ok_inj, pair_equal_spec in H; now destruct H as [_ <-]).
    apply bind_ok in H. destruct H as ([o r1] & E & H). pose proof (read_frame_statics _ _ _ _ E) as S. destruct LL as (A & B & C). apply fade_kept_frame in E; auto.
    assert (LL1 : loopless r1). { repeat split; [rewrite <- (statics_loop _ _ S); exact A|rewrite <- (statics_dual _ _ S); exact B|]. rewrite <- C. destruct S as [S _]. now apply (f_equal r_pstart) in S. }
    destruct o; [|apply Ok_inj, pair_equal_spec in H; destruct H as [_ <-]; exact E]. destruct (_ =? 0); [now rewrite (IH _ _ _ _ LL1 H)|].
    apply bind_ok in H. destruct H as ([l2 r2] & E2 & H). apply Ok_inj, pair_equal_spec in H. destruct H as [_ <-]. now rewrite (IH _ _ _ _ LL1 E2). }
  induction l as [|a l IH]; intros r o r' LL H; cbn [updates] in H.
  - apply Ok_inj, pair_equal_spec in H. now destruct H as [_ <-].
  - apply bind_ok in H. destruct H as ([[ac ev] r1] & E & H). apply bind_ok in H. destruct H as ([o2 r2] & E2 & H). apply Ok_inj, pair_equal_spec in H. destruct H as [_ <-].
    assert (U1 : updates fuel [a] r = Ok ([(ac, ev)], r1)) by (cbn [updates]; rewrite E; reflexivity).
    rewrite (IH r1 o2 r2 (loopless_updates _ _ _ _ _ U1 LL) E2). unfold p_update in E.
    destruct (_ =? -1); [apply Ok_inj, pair_equal_spec in E; now destruct E as [_ <-]|]. destruct (_ <? 0); [discriminate|].
    destruct (negb _) eqn:PL; [apply Ok_inj, pair_equal_spec in E; now destruct E as [_ <-]|]. cbv zeta in E.
    destruct (forallb _ _); [|apply Ok_inj, pair_equal_spec in E; now destruct E as [_ <-]]. apply bind_ok in E. destruct E as ([fr r3] & E3 & E). apply Ok_inj, pair_equal_spec in E. destruct E as [_ <-].
    unfold r_read in E3. rewrite PL in E3. destruct (_ <? 0); [discriminate|]. exact (LOOP _ _ _ _ _ _ LL E3).
Qed.

Lemma look_mid : forall fuel k mids r, interrupted fuel (look k) mids r =
  '(o, r1) <- updates fuel (hd [] mids) r ;; '(o', b, r3) <- interrupted fuel (k r1) (tl mids) r1 ;; Ok (o ++ o', b, r3).
Proof. intros. cbn [interrupted look bind]. apply bind_ext. intros [o r1] _. reflexivity. Qed.
Lemma step_mid : forall fuel g k mids r, interrupted fuel (Step g k) mids r =
  '(o, r1) <- updates fuel (hd [] mids) r ;; r2 <- g r1 ;; '(o', b, r3) <- interrupted fuel (k r2) (tl mids) r2 ;; Ok (o ++ o', b, r3).
Proof. reflexivity. Qed.

Lemma loop_late : forall n r, loopless r -> loops_late n r.
Proof.
  intros n r LL fuel mids. set (m1 := tl mids). set (m2 := tl m1). set (m3 := tl m2). set (m4 := tl m3).
  exists (hd [] mids ++ hd [] m1), (hd [] m2 ++ hd [] m3 ++ hd [] m4), (concat (tl m4)). split.
  { rewrite (concat_hd _ mids). fold m1. rewrite (concat_hd _ m1). fold m2. rewrite (concat_hd _ m2). fold m3. rewrite (concat_hd _ m3). fold m4. rewrite (concat_hd _ m4).
    now rewrite <- !app_assoc. }
  intros o1 r1 rl o2 r2 U1 Q U2.
  rewrite updates_app in U1. apply bind_ok in U1. destruct U1 as ([oa ra] & Ua & U1). apply bind_ok in U1. destruct U1 as ([ob rb] & Ub & U1).
  apply Ok_inj, pair_equal_spec in U1. destruct U1 as [<- ->].
  rewrite updates_app in U2. apply bind_ok in U2. destruct U2 as ([oc rc] & Uc & U2). rewrite updates_app in U2. apply bind_ok in U2. destruct U2 as ([od rd] & Ud & U2).
  apply bind_ok in Ud. destruct Ud as ([oe re] & Ue & Ud). apply bind_ok in Ud. destruct Ud as ([og rg] & Ug & Ud). apply Ok_inj, pair_equal_spec in Ud. destruct Ud as [<- ->].
  apply Ok_inj, pair_equal_spec in U2. destruct U2 as [<- <-].
  pose proof (loopless_updates _ _ _ _ _ Ua LL) as La. pose proof (loopless_updates _ _ _ _ _ Ub La) as Lb. pose proof (loopless_updates _ _ _ _ _ Uc Lb) as Lc.
  pose proof (loopless_updates _ _ _ _ _ Ue Lc) as Le.
  pose proof (fade_kept _ _ _ _ _ La Ub) as CF. unfold r_loop_from_here in Q. rewrite CF in Q. cbv zeta in Q. apply bind_ok in Q. destruct Q as (q & Q & RL). apply Ok_inj in RL.
  unfold loop_steps. rewrite look_mid, Ua. cbn [bind]. fold m1. rewrite look_mid, Ub. cbn [bind]. fold m2. rewrite step_mid, Uc. cbn [bind]. fold m3.
  assert (N : r_nch rc = r_nch r1) by (symmetry; apply statics_nch; eapply updates_statics; exact Uc). rewrite N, Q. cbn [bind].
  change (r_ls (rc <| r_ls := q |>)) with q. rewrite write_mid. fold m4.
  rewrite <- tw_first, tw_updates, Ue by (try apply id_get; right; exact Lc). cbn [rsnd rmap bind fst snd]. rewrite write_mid.
  assert (T : tw (fun f => f) same (fun _ => q) same re <| r_lf := s32 (u32 (q + n)) |> = tw (fun f => f) same (fun _ => q) (fun _ => s32 (u32 (q + n))) re).
  { rewrite tw_first, tw_bounds. reflexivity. }
  rewrite T, tw_updates, Ug by (try apply id_get; right; exact Le). cbn [rsnd rmap bind fst snd]. rewrite done_mid, tw_bounds, <- RL.
  match goal with |- context [updates fuel (concat (tl m4)) ?a] => set (z := a) end.
  match goal with |- _ = bind (updates fuel (concat (tl m4)) ?a) _ => change a with z end.
  destruct (updates fuel (concat (tl m4)) z) as [[o3 r3]|u|]; cbn [bind]; try reflexivity. now rewrite <- !app_assoc.
Qed.
