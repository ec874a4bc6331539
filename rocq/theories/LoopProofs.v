(* Looping playback: the reader follows the orbit of LoopSpec. *)

From Coq Require Import ZArith Lia List Bool Reals Lra.
From RecordUpdate Require Import RecordUpdate.
From Flocq Require Import Core.Core IEEE754.BinarySingleNaN.
From Verif Require Import Machine Floats FloatFacts WavModel InterpModel CacheModel ReaderModel
  ReaderFacts ReaderSpec Sessions StreamFacts Walk ForwardProofs LoopSpec.
Import ListNotations.
Local Open Scope Z_scope.

(* ---- closed forms ---------------------------------------------------------- *)

Lemma mod_step : forall n d, 0 < d -> 0 <= n ->
  (n + 1) mod d = if n mod d + 1 =? d then 0 else n mod d + 1.
Proof.
  intros n d D N. pose proof (Z.mod_pos_bound n d D) as B. pose proof (Z.div_mod n d ltac:(lia)) as E.
  destruct (Z.eqb_spec (n mod d + 1) d) as [H|H].
  - symmetry. apply Z.mod_unique with (n / d + 1); [lia|]. nia.
  - symmetry. apply Z.mod_unique with (n / d); [lia|]. nia.
Qed.

Lemma move_unit_fwd : forall i, move 1 1 (mkHead i 0 false) = mkHead (i + 1) 0 false.
Proof. reflexivity. Qed.
Lemma move_unit_bwd : forall i, move 1 1 (mkHead i 0 true) = mkHead (i - 1) 0 true.
Proof. reflexivity. Qed.

Lemma orbit_repeat : forall lo top start finish p, start < finish ->
  forall k, orbit (mkLoop false start lo finish top) 1 1 (mkHead p 0 false) k
    = mkHead (repeat_frame start finish p k) 0 false.
Proof.
  intros lo top start finish p H. induction k as [|k IH].
  - cbn [orbit turn hd_back hd_i lp_hi lp_pp lp_re hd_f]. unfold repeat_frame.
    change (Z.of_nat 0) with 0. rewrite Z.add_0_r.
    destruct (Z.leb_spec finish p); destruct (Z.ltb_spec p finish); try lia; auto.
    rewrite Z.max_l by lia. rewrite Z.sub_diag, Z.mod_0_l by lia. now rewrite Z.add_0_r.
  - cbn [orbit]. rewrite IH, move_unit_fwd. unfold turn, hd_back, hd_i, lp_hi, lp_pp, lp_re, hd_f.
    unfold repeat_frame. replace (p + Z.of_nat (S k)) with (p + Z.of_nat k + 1) by lia.
    set (n := p + Z.of_nat k).
    destruct (Z.ltb_spec n finish) as [L|L].
    + destruct (Z.leb_spec finish (n + 1)); destruct (Z.ltb_spec (n + 1) finish); try lia; auto.
      rewrite Z.max_r by lia. replace (n + 1 - finish) with 0 by lia.
      rewrite Z.mod_0_l by lia. now rewrite Z.add_0_r.
    + destruct (Z.ltb_spec (n + 1) finish); [lia|].
      replace (n + 1 - Z.max p finish) with (n - Z.max p finish + 1) by lia.
      rewrite mod_step by lia.
      pose proof (Z.mod_pos_bound (n - Z.max p finish) (finish - start) ltac:(lia)).
      destruct (Z.eqb_spec ((n - Z.max p finish) mod (finish - start) + 1) (finish - start)) as [E|E].
      * destruct (Z.leb_spec finish (start + (n - Z.max p finish) mod (finish - start) + 1)); [|lia].
        now rewrite Z.add_0_r.
      * destruct (Z.leb_spec finish (start + (n - Z.max p finish) mod (finish - start) + 1)); [lia|].
        f_equal. lia.
Qed.

(* Direction of the triangle *)
Definition triangle_back (start finish top p : Z) (k : nat) : bool :=
  let n := p + Z.of_nat k in
  if n <? finish then false
  else
    let down := Z.max 0 (top - start + 1) in
    (n - Z.max p finish) mod (down + (finish - start)) <? down.

Lemma orbit_triangle : forall re start finish top p, start < finish -> top < finish ->
  forall k, orbit (mkLoop true re start finish top) 1 1 (mkHead p 0 false) k
    = mkHead (triangle_frame start finish top p k) 0 (triangle_back start finish top p k).
Proof.
  intros re start finish top p H HT. set (down := Z.max 0 (top - start + 1)).
  induction k as [|k IH].
  - cbn [orbit turn hd_back hd_i lp_hi lp_pp lp_lo lp_top hd_f]. unfold triangle_frame, triangle_back.
    change (Z.of_nat 0) with 0. rewrite Z.add_0_r. fold down.
    destruct (Z.leb_spec finish p); destruct (Z.ltb_spec p finish); try lia; auto.
    rewrite Z.max_l by lia. rewrite Z.sub_diag, Z.mod_0_l by lia.
    destruct (Z.ltb_spec top start); destruct (Z.ltb_spec 0 down); try lia; f_equal; lia.
  - cbn [orbit]. rewrite IH. unfold triangle_frame, triangle_back.
    replace (p + Z.of_nat (S k)) with (p + Z.of_nat k + 1) by lia.
    set (n := p + Z.of_nat k). fold down.
    destruct (Z.ltb_spec n finish) as [L|L].
    + rewrite move_unit_fwd. unfold turn, hd_back, hd_i, lp_hi, lp_pp, lp_top, lp_lo, hd_f.
      destruct (Z.leb_spec finish (n + 1)); destruct (Z.ltb_spec (n + 1) finish); try lia; auto.
      rewrite Z.max_r by lia. replace (n + 1 - finish) with 0 by lia.
      rewrite Z.mod_0_l by lia.
      destruct (Z.ltb_spec top start); destruct (Z.ltb_spec 0 down); try lia; f_equal; lia.
    + destruct (Z.ltb_spec (n + 1) finish); [lia|].
      replace (n + 1 - Z.max p finish) with (n - Z.max p finish + 1) by lia.
      rewrite mod_step by lia.
      pose proof (Z.mod_pos_bound (n - Z.max p finish) (down + (finish - start)) ltac:(lia)).
      set (m := (n - Z.max p finish) mod (down + (finish - start))) in *.
      destruct (Z.ltb_spec m down) as [D|D].
      * rewrite move_unit_bwd. unfold turn, hd_back, hd_i, lp_hi, lp_pp, lp_top, lp_lo, hd_f.
        destruct (Z.eqb_spec (m + 1) (down + (finish - start))); [lia|].
        destruct (Z.ltb_spec (top - m - 1) start); destruct (Z.ltb_spec (m + 1) down); try lia;
          f_equal; lia.
      * rewrite move_unit_fwd. unfold turn, hd_back, hd_i, lp_hi, lp_pp, lp_top, lp_lo, hd_f.
        destruct (Z.eqb_spec (m + 1) (down + (finish - start))).
        -- destruct (Z.leb_spec finish (start + (m - down) + 1)); [|lia].
           destruct (Z.ltb_spec top start); destruct (Z.ltb_spec 0 down); try lia; f_equal; lia.
        -- destruct (Z.leb_spec finish (start + (m - down) + 1)); [lia|].
           destruct (Z.ltb_spec (m + 1) down); [lia|]. f_equal; lia.
Qed.

(* ---- the reader follows the orbit ------------------------------------- *)

Record loop_inv (h : Z) (nch : nat) (l : lspec) (x : b64) (q : Z) (hd : head) (r : reader)
  : Prop := mkLI {
  li_plain : plain h nch r;
  li_loop : r_loop r = if lp_pp l then LPingpong else LRepeat;
  li_ls : r_ls r = lp_re l;
  li_lf : r_lf r = lp_hi l;
  li_lo : lp_lo l = match r_pstart r with PSample => 0 | _ => r_ls r end;
  li_rate : r_rate r = if hd_back hd then dneg x else x;
  li_remf : fin64 (r_rem r) = true;
  li_rem : R64 (r_rem r) = (IZR (hd_f hd) * bpow radix2 (- q))%R;
  li_frac : Z.abs (hd_f hd) < 2 ^ q;
  li_pos : r_pos1 r = h + hd_i hd * Z.of_nat nch }.

(* The loop lies in the audio *)
Definition loop_ok (l : lspec) (len : Z) (nch : nat) : Prop :=
  0 <= lp_re l < lp_hi l /\ 0 <= lp_lo l < lp_hi l /\ lp_hi l <= len /\
  lp_top l = lp_hi l - Z.of_nat nch.

Definition head_ok (l : lspec) (len : Z) (hd : head) : Prop :=
  if hd_back hd then hd_i hd < len /\ (lp_pp l = true \/ lp_lo l <= lp_top l)
  else 0 <= hd_i hd.

Lemma turn_ok : forall l len nch hd, (1 <= nch)%nat -> loop_ok l len nch -> head_ok l len hd ->
  head_ok l len (turn l hd) /\ 0 <= hd_i (turn l hd) < len.
Proof.
  intros l len nch [i f b] N (H1 & H2 & H3 & H4) HH. unfold head_ok, turn in *. cbn [hd_back hd_i hd_f] in *.
  destruct b.
  - destruct HH as [HI HT]. destruct (Z.ltb_spec i (lp_lo l)).
    + destruct (lp_pp l) eqn:PP; cbn [hd_back hd_i hd_f]; rewrite ?PP.
      * split; lia.
      * destruct HT as [?|HT]; [discriminate|]. split; [split; [lia|auto]|lia].
    + cbn [hd_back hd_i]. split; [auto|lia].
  - destruct (Z.leb_spec (lp_hi l) i).
    + destruct (lp_pp l) eqn:PP; cbn [hd_back hd_i hd_f].
      * destruct (Z.ltb_spec (lp_top l) (lp_lo l)); cbn [hd_back hd_i]; rewrite ?PP; split; auto; lia.
      * split; lia.
    + cbn [hd_back hd_i]. lia.
Qed.

Lemma spos_in : forall h nch r n len, plain h nch r -> fits h len nch ->
  - Z.of_nat nch <= n <= len -> spos r n = h + n * Z.of_nat nch.
Proof.
  intros h nch r n len P (H1 & H2 & H4 & H5 & H6) HN. apply spos_plain; auto.
  unfold in_s32. split; nia.
Qed.

Lemma li_at_end : forall h nch l x q hd r len, fits h len nch -> loop_ok l len nch ->
  fin64 x = true -> (0 < R64 x)%R -> loop_inv h nch l x q hd r ->
  at_end r = if hd_back hd then hd_i hd <? lp_lo l else lp_hi l <=? hd_i hd.
Proof.
  intros h nch l x q hd r len A LK F P [PL LP LS LF LO RT RF RM FR PS].
  pose proof A as (H1 & H2 & H4 & H5 & H6). destruct LK as (L1 & L2 & L3 & L4).
  unfold at_end. rewrite (pl_dual _ _ _ PL), RT, PS.
  destruct (hd_back hd).
  - rewrite (dge0_false (dneg x)) by (rewrite ?fin_neg, ?R64_neg; auto; lra).
    rewrite (dlt0_true (dneg x)) by (rewrite ?fin_neg, ?R64_neg; auto; lra).
    assert (E : (match r_pstart r with PSample => r_hdr r | _ => spos r (r_ls r) end) = h + lp_lo l * Z.of_nat nch).
    { rewrite LO. destruct (r_pstart r); [rewrite (pl_hdr _ _ _ PL); lia| |];
        apply (spos_in h nch r (r_ls r) len); auto; lia. }
    replace (match r_pstart r with PSample => h + hd_i hd * Z.of_nat nch <? r_hdr r
             | _ => h + hd_i hd * Z.of_nat nch <? spos r (r_ls r) end)
      with (h + hd_i hd * Z.of_nat nch <? h + lp_lo l * Z.of_nat nch)
      by (rewrite <- E; destruct (r_pstart r); reflexivity).
    destruct (Z.ltb_spec (hd_i hd) (lp_lo l));
      destruct (Z.ltb_spec (h + hd_i hd * Z.of_nat nch) (h + lp_lo l * Z.of_nat nch)); auto; nia.
  - rewrite (dge0_true x F) by lra.
    replace (match r_loop r with LNone => _ | _ => _ end) with (spos r (r_lf r) <=? h + hd_i hd * Z.of_nat nch)
      by (rewrite LP; destruct (lp_pp l); reflexivity).
    rewrite LF, (spos_in h nch r (lp_hi l) len) by (auto; lia).
    destruct (Z.leb_spec (lp_hi l) (hd_i hd));
      destruct (Z.leb_spec (h + lp_hi l * Z.of_nat nch) (h + hd_i hd * Z.of_nat nch)); auto; nia.
Qed.

Lemma plain_pos : forall h nch r p, plain h nch r -> plain h nch (r <| r_cfst := 0 |> <| r_pos1 := p |>).
Proof. intros h nch r p []. constructor; auto. Qed.
Lemma plain_pos_rate : forall h nch r p x, plain h nch r ->
  plain h nch (r <| r_cfst := 0 |> <| r_pos1 := p |> <| r_rate := x |>).
Proof. intros h nch r p x []. constructor; auto. Qed.

Lemma li_on_end : forall h nch l x q hd r len, fits h len nch -> loop_ok l len nch ->
  fin64 x = true -> (0 < R64 x)%R -> loop_inv h nch l x q hd r ->
  let hd' :=
    if hd_back hd then
      if lp_pp l then mkHead (lp_lo l) (hd_f hd) false else mkHead (lp_top l) (hd_f hd) true
    else
      if lp_pp l then mkHead (lp_top l) (hd_f hd) true else mkHead (lp_re l) (hd_f hd) false in
  exists r1, on_end r = Ok (Some r1) /\ loop_inv h nch l x q hd' r1.
Proof.
  intros h nch l x q hd r len A LK F P [PL LP LS LF LO RT RF RM FR PS].
  pose proof A as (H1 & H2 & H4 & H5 & H6). destruct LK as (L1 & L2 & L3 & L4).
  unfold on_end. change (r_loop (r <| r_cfst := 0 |>)) with (r_loop r).
  change (r_rate (r <| r_cfst := 0 |>)) with (r_rate r).
  change (r_lf (r <| r_cfst := 0 |>)) with (r_lf r). change (r_ls (r <| r_cfst := 0 |>)) with (r_ls r).
  change (r_nch (r <| r_cfst := 0 |>)) with (r_nch r).
  change (r_pstart (r <| r_cfst := 0 |>)) with (r_pstart r).
  change (r_hdr (r <| r_cfst := 0 |>)) with (r_hdr r).
  assert (SP : forall n, spos (r <| r_cfst := 0 |>) n = spos r n) by reflexivity. rewrite !SP.
  assert (TP : chk32 (r_lf r - r_nch r) = Ok (lp_top l)).
  { rewrite LF, (pl_nch _ _ _ PL), <- L4. apply chk32_ok. unfold in_s32. nia. }
  rewrite TP. cbn [bind]. rewrite SP.
  rewrite (spos_in h nch r (lp_top l) len PL A) by lia.
  rewrite (spos_in h nch r (r_ls r) len PL A) by lia.
  rewrite LP, RT.
  destruct (hd_back hd) eqn:B.
  - rewrite (dge0_false (dneg x)) by (rewrite ?fin_neg, ?R64_neg; auto; lra).
    destruct (lp_pp l) eqn:PP; cbn zeta.
    + eexists. split; [reflexivity|]. constructor; auto.
      * now apply plain_pos_rate.
      * now rewrite PP.
      * cbn [hd_back]. apply Bopp_involutive.
      * change ((match r_pstart r with PSample => r_hdr r | _ => h + r_ls r * Z.of_nat nch end) =
                h + lp_lo l * Z.of_nat nch).
        rewrite LO. destruct (r_pstart r); auto. rewrite (pl_hdr _ _ _ PL). lia.
    + eexists. split; [reflexivity|]. constructor; auto.
      * now apply plain_pos.
      * now rewrite PP.
  - rewrite (dge0_true x F) by lra.
    destruct (lp_pp l) eqn:PP; cbn zeta.
    + eexists. split; [reflexivity|]. constructor; auto.
      * now apply plain_pos_rate.
      * now rewrite PP.
    + eexists. split; [reflexivity|]. constructor; auto.
      * now apply plain_pos.
      * now rewrite PP.
      * cbn [hd_i]. change (h + r_ls r * Z.of_nat nch = h + lp_re l * Z.of_nat nch). now rewrite LS.
Qed.

Lemma turn_settles : forall h nch l x q hd r len, fits h len nch -> loop_ok l len nch ->
  head_ok l len hd -> fin64 x = true -> (0 < R64 x)%R -> loop_inv h nch l x q hd r ->
  exists n r2, settles n r r2 /\ loop_inv h nch l x q (turn l hd) r2.
Proof.
  intros h nch l x q hd r len A LK HK F P I.
  pose proof (li_at_end _ _ _ _ _ _ _ _ A LK F P I) as E.
  pose proof LK as (L1 & L2 & L3 & L4). pose proof A as (_ & _ & _ & N1 & _).
  unfold turn, head_ok in *. destruct (hd_back hd) eqn:B.
  - destruct (Z.ltb_spec (hd_i hd) (lp_lo l)).
    + destruct (li_on_end _ _ _ _ _ _ _ _ A LK F P I) as (r1 & O & I1). rewrite B in I1.
      pose proof (li_at_end _ _ _ _ _ _ _ _ A LK F P I1) as E1.
      exists 1%nat, r1. split; [|exact I1]. econstructor; eauto. constructor. rewrite E1.
      destruct (lp_pp l) eqn:PP; cbn [hd_back hd_i].
      * apply Z.leb_gt. lia.
      * apply Z.ltb_ge. destruct HK as [_ [?|?]]; [discriminate|lia].
    + exists 0%nat, r. split; [now constructor|auto].
  - destruct (Z.leb_spec (lp_hi l) (hd_i hd)).
    + destruct (li_on_end _ _ _ _ _ _ _ _ A LK F P I) as (r1 & O & I1). rewrite B in I1.
      pose proof (li_at_end _ _ _ _ _ _ _ _ A LK F P I1) as E1.
      destruct (lp_pp l) eqn:PP; cbn [hd_back hd_i] in E1.
      * destruct (Z.ltb_spec (lp_top l) (lp_lo l)).
        -- destruct (li_on_end _ _ _ _ _ _ _ _ A LK F P I1) as (r2 & O2 & I2).
           cbn [hd_back] in I2. rewrite PP in I2. cbn [hd_f] in I2.
           pose proof (li_at_end _ _ _ _ _ _ _ _ A LK F P I2) as E2. cbn [hd_back hd_i] in E2.
           exists 2%nat, r2. split; [|exact I2]. econstructor; eauto. econstructor; eauto.
           constructor. rewrite E2. apply Z.leb_gt. lia.
        -- exists 1%nat, r1. split; [|exact I1]. econstructor; eauto. constructor. auto.
      * exists 1%nat, r1. split; [|exact I1]. econstructor; eauto. constructor. rewrite E1.
        apply Z.leb_gt. lia.
    + exists 0%nat, r. split; [now constructor|auto].
Qed.

Lemma move_advance : forall h nch l x num q hd r len, fits h len nch ->
  fin64 x = true -> R64 x = (IZR num * bpow radix2 (- q))%R -> 0 <= q <= 52 -> 0 < num <= 2 ^ 52 ->
  ((R64 x + 1) * INR nch <= IZR (2 ^ 30))%R -> 0 <= hd_i hd < len ->
  loop_inv h nch l x q hd r ->
  exists r3, advance r = Ok r3 /\ loop_inv h nch l x q (move num (2 ^ q) hd) r3.
Proof.
  intros h nch l x num q hd r len A F X Hq Hn B HI [PL LP LS LF LO RT RF RM FR PS].
  pose proof A as (H1 & H2 & H4 & H5 & H6).
  set (D := 2 ^ q) in *. assert (HD : 0 < D) by (apply Z.pow_pos_nonneg; lia).
  assert (DD : D <= 2 ^ 52) by (apply Z.pow_le_mono_r; lia).
  assert (HB : bpow radix2 (- q) = (/ IZR D)%R).
  { rewrite bpow_opp, bpow_IZR by lia. reflexivity. }
  set (s := if hd_back hd then hd_f hd - num else hd_f hd + num).
  assert (RS : (R64 (r_rem r) + R64 (r_rate r))%R = (IZR s * bpow radix2 (- q))%R).
  { rewrite RM, RT. unfold s. destruct (hd_back hd).
    - rewrite R64_neg, X, minus_IZR. ring.
    - rewrite X, plus_IZR. ring. }
  assert (SB : Z.abs s <= 2 ^ 53) by (unfold s; destruct (hd_back hd); lia).
  assert (SS : step_sum r = (IZR s * bpow radix2 (- q))%R).
  { unfold step_sum. rewrite RS. apply rnd64_id. apply fmt64_me; lia. }
  assert (TR : Ztrunc (step_sum r) = Z.quot s D).
  { rewrite SS, HB. apply Ztrunc_div. lia. }
  assert (RR : Z.abs (Z.rem s D) < D).
  { pose proof (Z.rem_bound_abs s D ltac:(lia)). lia. }
  assert (QB : Z.abs (Z.quot s D) * Z.of_nat nch <= 2 ^ 30).
  { apply le_IZR. eapply Rle_trans; [|exact B]. rewrite mult_IZR, <- INR_IZR_INZ.
    apply Rmult_le_compat_r; [apply pos_INR|].
    assert (QD : Z.abs (Z.quot s D) * D <= num + D).
    { assert (Z.abs s <= num + D) by (unfold s; destruct (hd_back hd); lia).
      rewrite <- Z.quot_abs by lia. rewrite (Z.abs_eq D) by lia.
      pose proof (Z.mul_quot_le (Z.abs s) D ltac:(lia) ltac:(lia)). lia. }
    rewrite X, HB. apply Rmult_le_reg_r with (IZR D); [apply (IZR_lt 0); lia|].
    rewrite <- mult_IZR. eapply Rle_trans; [apply IZR_le, QD|]. rewrite plus_IZR.
    right. field. apply IZR_neq. lia. }
  assert (X30 : (Rabs (R64 x) <= bpow radix2 40)%R).
  { assert (1 <= INR nch)%R by (change 1%R with (INR 1); apply le_INR; lia).
    rewrite Rabs_pos_eq.
    - rewrite bpow_IZR by lia. apply Rle_trans with (IZR (2 ^ 30)).
      + assert (0 <= R64 x)%R; [|nra]. rewrite X. apply Rmult_le_pos; [apply (IZR_le 0); lia|apply bpow_ge_0].
      + apply IZR_le. lia.
    - rewrite X. apply Rmult_le_pos; [apply (IZR_le 0); lia|apply bpow_ge_0]. }
  destruct (advance_plain r) as (y & Y1 & Y2 & Y3 & AD).
  + auto.
  + rewrite RT. destruct (hd_back hd); rewrite ?fin_neg; auto.
  + rewrite RM, HB, Rabs_mult, <- abs_IZR.
    rewrite (Rabs_pos_eq (/ IZR D)) by (left; apply Rinv_0_lt_compat, (IZR_lt 0); lia).
    apply Rmult_le_reg_r with (IZR D); [apply (IZR_lt 0); lia|].
    rewrite Rmult_assoc, Rinv_l, Rmult_1_r, Rmult_1_l by (apply IZR_neq; lia). apply IZR_le. lia.
  + rewrite RT. destruct (hd_back hd); auto. now rewrite R64_neg, Rabs_Ropp.
  + apply PL.
  + rewrite TR. unfold in_s32. nia.
  + rewrite TR, (pl_nch _ _ _ PL). unfold in_s32. nia.
  + rewrite TR, PS, (pl_nch _ _ _ PL). unfold in_s32. nia.
  + eexists. split; [exact AD|]. constructor; auto.
    * now apply advance_keeps_plain.
    * change (R64 y = (IZR (Z.rem s D) * bpow radix2 (- q))%R).
      rewrite Y2, TR, SS, HB. rewrite Z.rem_eq by lia. rewrite minus_IZR, mult_IZR. field. apply IZR_neq. lia.
    * change (r_pos1 r + Ztrunc (step_sum r) * r_nch r = h + (hd_i hd + Z.quot s D) * Z.of_nat nch).
      rewrite PS, TR, (pl_nch _ _ _ PL). ring.
Qed.

(* The head before the k-th frame is delivered *)
Definition pre (l : lspec) (num den : Z) (h : head) (k : nat) : head :=
  match k with O => h | S k' => move num den (orbit l num den h k') end.

Lemma orbit_pre : forall l num den h k, orbit l num den h k = turn l (pre l num den h k).
Proof. intros. destruct k; reflexivity. Qed.

Lemma move_ok : forall l len num den hd, 0 < den -> 0 < num -> Z.abs (hd_f hd) < den ->
  head_ok l len hd -> 0 <= hd_i hd < len -> head_ok l len (move num den hd).
Proof.
  intros l len num den [i f b] HD HN HF HH HI. unfold head_ok, move in *. cbn [hd_back hd_i hd_f] in *.
  destruct b.
  - destruct HH as [_ HH]. split; auto.
    assert (Z.quot (f - num) den <= 0); [|lia].
    destruct (Z.le_gt_cases (f - num) 0).
    + replace (f - num) with (- (num - f)) by lia. rewrite Z.quot_opp_l by lia.
      pose proof (Z.quot_pos (num - f) den ltac:(lia) ltac:(lia)). lia.
    + rewrite Z.quot_small by lia. lia.
  - assert (0 <= Z.quot (f + num) den); [|lia].
    destruct (Z.le_gt_cases 0 (f + num)).
    + apply Z.quot_pos; lia.
    + replace (f + num) with (- (- num - f)) by lia. rewrite Z.quot_opp_l by lia.
      rewrite Z.quot_small by lia. lia.
Qed.

Lemma orbit_ok : forall l len nch num q hd, (1 <= nch)%nat -> loop_ok l len nch -> head_ok l len hd ->
  0 <= q -> 0 < num -> Z.abs (hd_f hd) < 2 ^ q ->
  forall k, head_ok l len (pre l num (2 ^ q) hd k) /\ Z.abs (hd_f (pre l num (2 ^ q) hd k)) < 2 ^ q.
Proof.
  intros l len nch num q hd N LK HK HQ HN HF.
  assert (HD : 0 < 2 ^ q) by (apply Z.pow_pos_nonneg; lia).
  assert (TF : forall h, hd_f (turn l h) = hd_f h).
  { intros [i f b]. unfold turn. cbn [hd_back hd_i hd_f].
    destruct b, (lp_pp l); repeat destruct (_ <? _); repeat destruct (_ <=? _); reflexivity. }
  induction k as [|k [IH1 IH2]]; [auto|].
  cbn [pre]. rewrite orbit_pre.
  destruct (turn_ok l len nch _ N LK IH1) as [T1 T2]. split.
  - apply move_ok; auto. now rewrite TF.
  - unfold move. cbn [hd_f]. pose proof (Z.rem_bound_abs
      (if hd_back (turn l (pre l num (2 ^ q) hd k))
       then hd_f (turn l (pre l num (2 ^ q) hd k)) - num
       else hd_f (turn l (pre l num (2 ^ q) hd k)) + num) (2 ^ q) ltac:(lia)). lia.
Qed.

Lemma loop_walk : forall h nch l x num q hd len, fits h len nch -> loop_ok l len nch -> head_ok l len hd ->
  fin64 x = true -> R64 x = (IZR num * bpow radix2 (- q))%R -> 0 <= q <= 52 -> 0 < num <= 2 ^ 52 ->
  ((R64 x + 1) * INR nch <= IZR (2 ^ 30))%R -> Z.abs (hd_f hd) < 2 ^ q ->
  walk h nch (fun k => loop_inv h nch l x q (pre l num (2 ^ q) hd k))
    (fun k => Some (hd_i (orbit l num (2 ^ q) hd k))).
Proof.
  intros h nch l x num q hd len A LK HK F X Hq Hn B HF.
  assert (P : (0 < R64 x)%R).
  { rewrite X. apply Rmult_lt_0_compat; [apply (IZR_lt 0); lia|apply bpow_gt_0]. }
  pose proof A as (_ & _ & _ & N1 & _).
  split; [auto|]. split.
  - intros k r s [PL LP LS LF LO RT RF RM FR PS]. constructor; auto using plain_src.
  - intros k r I. split; [apply I|].
    destruct (orbit_ok l len nch num q hd N1 LK HK ltac:(lia) ltac:(lia) HF k) as [K1 K2].
    destruct (turn_settles _ _ _ _ _ _ _ _ A LK K1 F P I) as (n & r2 & SS & I2).
    destruct (turn_ok l len nch _ N1 LK K1) as [T1 T2].
    destruct (move_advance _ _ _ _ _ _ _ _ _ A F X Hq Hn B T2 I2) as (r3 & AD & I3).
    exists n, r2, r3. rewrite orbit_pre. split; [auto|]. split; [apply I2|]. split; [apply I2|].
    split; [auto|]. cbn [pre]. now rewrite orbit_pre.
Qed.

(* ---- loops over arrays --------------------------------------------------- *)

(* The loop of an object with loop type l (not none), start mode ps and loop
   bounds ls, lf: moving backwards the first frame is the beginning of the audio
   when the start mode is "sample" *)
Definition loop_of (l : loop_type) (ps : play_start) (ls lf : Z) (nch : nat) : lspec :=
  mkLoop (loop_eqb l LPingpong) ls (match ps with PSample => 0 | _ => ls end) lf (lf - Z.of_nat nch).

Lemma loop_of_ok : forall l ps ls lf nch len, 0 <= ls < lf -> lf <= len -> loop_ok (loop_of l ps ls lf nch) len nch.
Proof. intros. unfold loop_ok, loop_of. cbn. destruct ps; repeat split; lia. Qed.

(* Setting the loop bounds of an array player *)
Definition with_loop (r : reader) (ls lf : Z) : reader := setLoopFinish (setLoopStart r ls) lf.

Lemma loop_delivers : forall m off len nch r l ps ls lf x num q i0 back, array_holds m off len nch ->
  0 <= ls < lf -> lf <= len -> l <> LNone ->
  plain 0 nch r -> r_src r = SArr m off -> r_loop r = l -> r_pstart r = ps ->
  r_rate r = (if back : bool then dneg x else x) -> fin64 x = true ->
  R64 x = (IZR num * bpow radix2 (- q))%R -> 0 <= q <= 52 -> 0 < num <= 2 ^ 52 ->
  ((R64 x + 1) * INR nch <= IZR (2 ^ 30))%R ->
  fin64 (r_rem r) = true -> R64 (r_rem r) = 0%R -> r_pos1 r = i0 * Z.of_nat nch ->
  head_ok (loop_of l ps ls lf nch) len (mkHead i0 0 back) ->
  delivers (with_loop r ls lf)
    (endless_stream (fun k => src_frame m off nch
       (hd_i (orbit (loop_of l ps ls lf nch) num (2 ^ q) (mkHead i0 0 back) k)))).
Proof.
  intros m off len nch r l ps ls lf x num q i0 back A HL HF NL PL SR LP PS RT F X Hq Hn B RF R0 PO HK.
  pose proof A as (H1 & H2 & H3 & H4 & H5 & H6).
  set (L := loop_of l ps ls lf nch) in *.
  assert (HD : 0 < 2 ^ q) by (apply Z.pow_pos_nonneg; lia).
  pose proof (loop_of_ok l ps ls lf nch len HL HF) as LK. fold L in LK.
  pose proof (loop_walk 0 nch L x num q (mkHead i0 0 back) len (array_fits _ _ _ _ A) LK HK F X Hq Hn B HD) as W.
  eapply delivers_ext; [|eapply (follows_delivers _ _ (with_loop r ls lf)); [apply (walk_follows m off _ _ _ _ W)|]].
  - intros k. unfold endless_stream. cbn [option_map]. now rewrite Z.mul_0_r, Z.add_0_r.
  - intros k i E. injection E as <-. apply (frame_in_array m off len); auto.
    rewrite orbit_pre. eapply turn_ok; eauto.
    eapply orbit_ok; eauto; lia.
  - cbn beta. cbn [pre].
    assert (SL : r_src (with_loop r ls lf) = SArr m off).
    { unfold with_loop, setLoopFinish, setLoopStart. cbn. now rewrite SR; cbn; rewrite SR. }
    split; [|exact SL].
    assert (E : with_loop r ls lf = r <| r_ls := ls |> <| r_lf := lf |>).
    { unfold with_loop, setLoopFinish, setLoopStart. cbn. rewrite SR; cbn; rewrite SR.
      rewrite !s32_id by (unfold in_s32; nia). reflexivity. }
    rewrite E. constructor; auto.
    + destruct PL; constructor; auto.
    + change (r_loop r = if loop_eqb l LPingpong then LPingpong else LRepeat). rewrite LP.
      destruct l; try reflexivity. congruence.
    + change (lp_lo L = match r_pstart r with PSample => 0 | _ => ls end). rewrite PS. reflexivity.
    + change (R64 (r_rem r) = (IZR 0 * bpow radix2 (- q))%R). rewrite R0. ring.
Qed.

Lemma grid_pos : forall x, grid_rate x -> (0 < R64 x)%R ->
  exists num q, R64 x = (IZR num * bpow radix2 (- q))%R /\ 0 <= q <= 52 /\ 0 < num <= 2 ^ 52.
Proof.
  intros x (F & num & q & E & Hq & Hn) P. exists num, q. split; [exact E|]. split; [auto|].
  split; [|lia]. apply lt_IZR. change (R64 x = (IZR num * bpow radix2 (- q))%R) in E.
  clear - E P. set (y := R64 x) in *. clearbody y. subst y. pose proof (bpow_gt_0 radix2 (- q)). nra.
Qed.

(* Forward start, any exact rate num/2^q *)
Lemma forward_loop : forall m off len nch r l ps pb ls lf num q, array_holds m off len nch ->
  basic_settings r l ps pb -> l <> LNone -> (ps = PArbitrary -> 0 <= pb <= len) ->
  0 <= ls < lf -> lf <= len ->
  is_finite (r_rate r) = true -> B2R (r_rate r) = (IZR num * bpow radix2 (- q))%R ->
  0 <= q <= 52 -> 0 < num <= 2 ^ 52 -> ((B2R (r_rate r) + 1) * INR nch <= IZR (2 ^ 30))%R ->
  exists r1, playRaw_array r m off len (Z.of_nat nch) = Ok r1 /\
    delivers (with_loop r1 ls lf)
      (endless_stream (fun k => src_frame m off nch
        (hd_i (orbit (loop_of l ps ls lf nch) num (2 ^ q)
                 (mkHead (match ps with PArbitrary => pb | _ => 0 end) 0 false) k)))).
Proof.
  intros m off len nch r l ps pb ls lf num q A Bs NL Hpb HL HF F X Hq Hn HR.
  assert (P : (0 <= R64 (r_rate r))%R).
  { change (R64 (r_rate r)) with (B2R (r_rate r)). rewrite X. apply Rmult_le_pos; [apply (IZR_le 0); lia|apply bpow_ge_0]. }
  destruct (playRaw_fwd m off len nch r l ps pb A Bs F P Hpb)
    as (r1 & E & PL & SR & RT & FS & LP & RM & LS & LF & PS & PO).
  destruct Bs as (B1 & B2 & B3 & B4 & B5 & B6 & B7).
  exists r1. split; [exact E|].
  eapply (loop_delivers m off len nch r1 l ps ls lf (r_rate r) num q _ false); eauto; try (now rewrite RM); try lia.
  unfold head_ok. cbn [hd_back hd_i]. destruct ps; try lia. now apply Hpb.
Qed.

(* Backward start *)
Lemma backward_loop : forall m off len nch r l ps pb ls lf num q p0, array_holds m off len nch ->
  basic_settings r l ps pb -> l <> LNone -> (ps = PArbitrary -> 0 <= pb <= len) ->
  0 <= ls < lf -> lf <= len ->
  is_finite (r_rate r) = true -> B2R (r_rate r) = (- (IZR num * bpow radix2 (- q)))%R ->
  0 <= q <= 52 -> 0 < num <= 2 ^ 52 -> ((- B2R (r_rate r) + 1) * INR nch <= IZR (2 ^ 30))%R ->
  p0 < len ->
  (match ps with
   | PSample => p0 * Z.of_nat nch = len - Z.of_nat nch
   | PLoop => nch = 1%nat /\ p0 = len - 1
   | PArbitrary => p0 = pb
   end) ->
  (l = LRepeat -> match ps with PSample => 0 | _ => ls end <= lf - Z.of_nat nch) ->
  exists r1, playRaw_array r m off len (Z.of_nat nch) = Ok r1 /\
    delivers (with_loop r1 ls lf)
      (endless_stream (fun k => src_frame m off nch
        (hd_i (orbit (loop_of l ps ls lf nch) num (2 ^ q) (mkHead p0 0 true) k)))).
Proof.
  intros m off len nch r l ps pb ls lf num q p0 A Bs NL Hpb HL HF F X Hq Hn HR Hp0 H0 HT.
  assert (P : (R64 (r_rate r) < 0)%R).
  { change (R64 (r_rate r)) with (B2R (r_rate r)). rewrite X. pose proof (bpow_gt_0 radix2 (- q)). pose proof (IZR_lt 0 num ltac:(lia)). nra. }
  destruct (playRaw_bwd m off len nch r l ps pb A Bs F P Hpb)
    as (r1 & E & PL & SR & RT & FS & LP & RM & LS & LF & PS & PO).
  pose proof A as (H1 & H2 & H3 & H4 & H5 & H6).
  destruct Bs as (B1 & B2 & B3 & B4 & B5 & B6 & B7).
  exists r1. split; [exact E|].
  eapply (loop_delivers m off len nch r1 l ps ls lf (dneg (r_rate r)) num q _ true); eauto; try (now rewrite RM); try lia.
  - rewrite RT. symmetry. apply Bopp_involutive.
  - now rewrite fin_neg.
  - rewrite R64_neg. change (R64 (r_rate r)) with (B2R (r_rate r)). rewrite X. ring.
  - now rewrite R64_neg.
  - rewrite PO. destruct ps; try lia. destruct H0 as [-> ->]. apply s32_id. unfold in_s32. lia.
  - unfold head_ok. cbn [hd_back hd_i]. split; [lia|]. destruct l; [congruence|right|now left].
    unfold loop_of. cbn. auto.
Qed.

Lemma d1_grid : B2R d1 = (IZR 1 * bpow radix2 (- 0))%R.
Proof. change (R64 d1 = (IZR 1 * bpow radix2 (- 0))%R). rewrite R64_d1. cbn. ring. Qed.

Lemma d1_bound : forall nch, Z.of_nat nch < 2 ^ 15 -> ((R64 d1 + 1) * INR nch <= IZR (2 ^ 30))%R.
Proof.
  intros nch H. rewrite R64_d1, INR_IZR_INZ. replace (1 + 1)%R with (IZR 2) by (cbn; lra).
  rewrite <- mult_IZR. apply IZR_le. lia.
Qed.

Lemma repeat_unity : forall m off len nch r ps pb ls lf, array_holds m off len nch ->
  basic_settings r LRepeat ps pb -> (ps = PArbitrary -> 0 <= pb <= len) ->
  r_rate r = d1 -> 0 <= ls < lf -> lf <= len ->
  exists r1, playRaw_array r m off len (Z.of_nat nch) = Ok r1 /\
    delivers (with_loop r1 ls lf)
      (endless_stream (fun k => src_frame m off nch
         (repeat_frame ls lf (match ps with PArbitrary => pb | _ => 0 end) k))).
Proof.
  intros m off len nch r ps pb ls lf A Bs Hpb RT HL HF.
  pose proof A as (H1 & H2 & H3 & H4 & H5 & H6).
  destruct (forward_loop m off len nch r LRepeat ps pb ls lf 1 0 A Bs ltac:(discriminate) Hpb HL HF) as (r1 & E & D);
    try lia; try (rewrite RT; auto using fin_d1, d1_grid, d1_bound; fail).
  exists r1. split; [exact E|]. eapply delivers_ext; [|exact D].
  intros k. unfold endless_stream, loop_of. cbn [loop_eqb]. change (2 ^ 0) with 1.
  rewrite orbit_repeat by lia. reflexivity.
Qed.

Lemma pingpong_unity : forall m off len nch r ps pb ls lf, array_holds m off len nch ->
  basic_settings r LPingpong ps pb -> (ps = PArbitrary -> 0 <= pb <= len) ->
  r_rate r = d1 -> 0 <= ls < lf -> lf <= len ->
  exists r1, playRaw_array r m off len (Z.of_nat nch) = Ok r1 /\
    delivers (with_loop r1 ls lf)
      (endless_stream (fun k => src_frame m off nch
         (triangle_frame (match ps with PSample => 0 | _ => ls end) lf (lf - Z.of_nat nch)
            (match ps with PArbitrary => pb | _ => 0 end) k))).
Proof.
  intros m off len nch r ps pb ls lf A Bs Hpb RT HL HF.
  pose proof A as (H1 & H2 & H3 & H4 & H5 & H6).
  destruct (forward_loop m off len nch r LPingpong ps pb ls lf 1 0 A Bs ltac:(discriminate) Hpb HL HF) as (r1 & E & D);
    try lia; try (rewrite RT; auto using fin_d1, d1_grid, d1_bound; fail).
  exists r1. split; [exact E|]. eapply delivers_ext; [|exact D].
  intros k. unfold endless_stream, loop_of. cbn [loop_eqb]. change (2 ^ 0) with 1.
  rewrite orbit_triangle; [reflexivity| |lia]. destruct ps; lia.
Qed.
