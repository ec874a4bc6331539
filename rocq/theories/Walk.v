(* The play position of an uninterpolated single-head reader does not depend on
   the source.  A [walk] describes the frame numbers visited; from it follows
   what is delivered from an array (here) or from a file (FileProofs). *)

From Coq Require Import ZArith Lia List Bool Reals Lra.
From RecordUpdate Require Import RecordUpdate.
From Flocq Require Import Core.Core IEEE754.BinarySingleNaN.
From Verif Require Import Machine Floats FloatFacts WavModel InterpModel CacheModel ReaderModel
  ReaderFacts ReaderSpec Sessions.
Import ListNotations.
Local Open Scope Z_scope.

(* An uninterpolated, single-head, playing reader of nch channels whose audio
   starts at sample h *)
Record plain (h : Z) (nch : nat) (r : reader) : Prop := mkPlain {
  pl_dual : r_dual r = false;
  pl_int : r_interp r = INone;
  pl_nch : r_nch r = Z.of_nat nch;
  pl_hdr : r_hdr r = h;
  pl_cfst : r_cfst r = 0;
  pl_playing : r_playing r = true }.

(* Audio of len frames starting at sample h is addressable *)
Definition fits (h len : Z) (nch : nat) : Prop :=
  0 <= h /\ 0 <= len /\ 2 * (h + len * Z.of_nat nch) < 2 ^ 31 /\ (1 <= nch)%nat /\ Z.of_nat nch < 2 ^ 15.

Lemma array_fits : forall m off len nch, array_holds m off len nch -> fits 0 len nch.
Proof. intros m off len nch (H1 & H2 & H3 & H4 & H5 & H6). repeat split; auto; lia. Qed.

Lemma spos_plain : forall h nch r n, plain h nch r ->
  in_s32 (h + n * Z.of_nat nch) -> spos r n = h + n * Z.of_nat nch.
Proof.
  intros h nch r n P H. unfold spos, sts. rewrite (pl_hdr _ _ _ P), (pl_nch _ _ _ P).
  rewrite s32_u32. apply s32_id. exact H.
Qed.

Lemma plain_src : forall h nch r s, plain h nch r -> plain h nch (r <| r_src := s |>).
Proof. intros h nch r s []. constructor; auto. Qed.

Lemma set_src_id : forall r, r <| r_src := r_src r |> = r.
Proof. intros []. reflexivity. Qed.
Lemma set_src_src : forall r s t, r <| r_src := s |> <| r_src := t |> = r <| r_src := t |>.
Proof. intros [] s t. reflexivity. Qed.

(* ---- fetching one frame ------------------------------------------------- *)

(* The fetches of one frame at position p *)
Fixpoint fetch_frame (todo : nat) (p ch : Z) (r : reader) : res (list Z * reader) :=
  match todo with
  | O => Ok ([], r)
  | S t =>
      '(v, r1) <- getAt r p 0 ch ;;
      '(vs, r2) <- fetch_frame t p (ch + 1) r1 ;;
      Ok (v :: vs, r2)
  end.

Lemma getAt_src : forall r p o ch v r1, getAt r p o ch = Ok (v, r1) ->
  exists s, r1 = r <| r_src := s |>.
Proof.
  intros r p o ch v r1 H. unfold getAt in H. apply bind_ok in H. destruct H as (i1 & _ & H).
  apply bind_ok in H. destruct H as (i & _ & H). unfold getSourceBufferValue in H.
  destruct (r_src r) as [|m off|f] eqn:E.
  - destruct (r_kind r); inversion H; subst. exists SNull. now rewrite <- E, set_src_id.
  - destruct (_ && _); inversion H; subst. exists (SArr m off). now rewrite <- E, set_src_id.
  - destruct (if_get f i) as [w f']. inversion H; subst. eauto.
Qed.

Lemma fetch_frame_src : forall todo p ch r vs r1, fetch_frame todo p ch r = Ok (vs, r1) ->
  exists s, r1 = r <| r_src := s |>.
Proof.
  induction todo as [|todo IH]; intros p ch r vs r1 H; cbn [fetch_frame] in H.
  - inversion H; subst. exists (r_src r1). now rewrite set_src_id.
  - apply bind_ok in H. destruct H as ([v r2] & E & H). apply bind_ok in H. destruct H as ([ws r3] & E2 & H).
    inversion H; subst. destruct (getAt_src _ _ _ _ _ _ E) as (s & ->).
    destruct (IH _ _ _ _ _ E2) as (t & ->). exists t. apply set_src_src.
Qed.

Lemma at_end_src : forall r s, at_end (r <| r_src := s |>) = at_end r.
Proof. reflexivity. Qed.

Lemma next_fetch : forall h nch r ch, plain h nch r -> at_end r = false ->
  readNextValue r ch = ('(v, r1) <- getAt r (r_pos1 r) 0 ch ;; Ok (Some v, r1)).
Proof.
  intros h nch r ch P E. unfold readNextValue. rewrite E. unfold fetch_value.
  rewrite (pl_dual _ _ _ P). cbn [negb orb]. rewrite (pl_int _ _ _ P).
  destruct (getAt _ _ _ _) as [[v r1]| |]; reflexivity.
Qed.

Lemma channels_fetch : forall h nch f todo ch r, plain h nch r -> at_end r = false ->
  read_channels (S f) todo ch r =
    ('(vs, r1) <- fetch_frame todo (r_pos1 r) ch r ;; Ok (Some vs, r1)).
Proof.
  intros h nch f. induction todo as [|todo IH]; intros ch r P E; auto.
  cbn [read_channels read_one fetch_frame]. rewrite (next_fetch h nch) by auto.
  destruct (getAt r (r_pos1 r) 0 ch) as [[v r1]| |] eqn:G; cbn [bind]; auto.
  destruct (getAt_src _ _ _ _ _ _ G) as (s & ->).
  rewrite IH by (auto using plain_src).
  change (r_pos1 (r <| r_src := s |>)) with (r_pos1 r).
  destruct (fetch_frame _ _ _ _) as [[vs r2]| |]; reflexivity.
Qed.

(* The turn-around / wrap-around steps taken at the end of the source *)
Inductive settles : nat -> reader -> reader -> Prop :=
| settle_here : forall r, at_end r = false -> settles O r r
| settle_step : forall n r r1 r2, at_end r = true -> on_end r = Ok (Some r1) ->
    settles n r1 r2 -> settles (S n) r r2.

Lemma settles_end : forall n r r2, settles n r r2 -> at_end r2 = false.
Proof. induction 1; auto. Qed.

Lemma settles_statics : forall n r r2, settles n r r2 -> same_statics r r2.
Proof.
  induction 1; [apply same_statics_refl|].
  eapply same_statics_trans; [eapply on_end_statics; eauto|auto].
Qed.

Lemma read_one_settles : forall n r r2, settles n r r2 ->
  forall f ch, read_one (n + f) ch r = read_one f ch r2.
Proof.
  induction 1 as [|n r r1 r2 E O _ IH]; intros f ch; auto.
  cbn [Nat.add read_one]. unfold readNextValue. rewrite E. cbn [bind].
  rewrite O. cbn [bind]. apply IH.
Qed.

Lemma on_end_src : forall r s,
  on_end (r <| r_src := s |>) =
  match on_end r with
  | Ok (Some r1) => Ok (Some (r1 <| r_src := s |>))
  | Ok None => Ok None
  | UB w => UB w
  | NoFuel => NoFuel
  end.
Proof.
  intros r s. unfold on_end.
  change (r_loop (r <| r_src := s |> <| r_cfst := 0 |>)) with (r_loop r).
  change (r_loop (r <| r_cfst := 0 |>)) with (r_loop r).
  destruct (r_loop r); [reflexivity| |].
  - change (r_rate (r <| r_src := s |> <| r_cfst := 0 |>)) with (r_rate r).
    change (r_rate (r <| r_cfst := 0 |>)) with (r_rate r).
    destruct (dle d0 (r_rate r)); [destruct r; reflexivity|].
    change (r_lf (r <| r_src := s |> <| r_cfst := 0 |>)) with (r_lf r).
    change (r_lf (r <| r_cfst := 0 |>)) with (r_lf r).
    change (r_nch (r <| r_src := s |> <| r_cfst := 0 |>)) with (r_nch r).
    change (r_nch (r <| r_cfst := 0 |>)) with (r_nch r).
    destruct (chk32 _); cbn [bind]; [destruct r|..]; reflexivity.
  - change (r_rate (r <| r_src := s |> <| r_cfst := 0 |>)) with (r_rate r).
    change (r_rate (r <| r_cfst := 0 |>)) with (r_rate r).
    destruct (dle d0 (r_rate r)); [|destruct r; reflexivity].
    change (r_lf (r <| r_src := s |> <| r_cfst := 0 |>)) with (r_lf r).
    change (r_lf (r <| r_cfst := 0 |>)) with (r_lf r).
    change (r_nch (r <| r_src := s |> <| r_cfst := 0 |>)) with (r_nch r).
    change (r_nch (r <| r_cfst := 0 |>)) with (r_nch r).
    destruct (chk32 _); cbn [bind]; [destruct r|..]; reflexivity.
Qed.

Lemma settles_src : forall n r r2 s, settles n r r2 ->
  settles n (r <| r_src := s |>) (r2 <| r_src := s |>).
Proof.
  induction 1 as [r E|n r r1 r2 E O _ IH]; [now constructor|].
  econstructor; [exact E| |exact IH]. rewrite on_end_src, O. reflexivity.
Qed.

Lemma advance_src : forall r s,
  advance (r <| r_src := s |>) =
  match advance r with Ok r1 => Ok (r1 <| r_src := s |>) | UB w => UB w | NoFuel => NoFuel end.
Proof.
  intros r s. unfold advance.
  change (r_rem (r <| r_src := s |>)) with (r_rem r). change (r_rate (r <| r_src := s |>)) with (r_rate r).
  change (r_nch (r <| r_src := s |>)) with (r_nch r). change (r_pos1 (r <| r_src := s |>)) with (r_pos1 r).
  change (r_pos2 (r <| r_src := s |>)) with (r_pos2 r). change (r_loop (r <| r_src := s |>)) with (r_loop r).
  change (r_cfst (r <| r_src := s |>)) with (r_cfst r).
  destruct (d_to_s32 _) as [d| |]; cbn [bind]; auto.
  destruct (chk32 (d * _)) as [st| |]; cbn [bind]; auto.
  destruct (chk32 (r_pos1 r + st)) as [p1| |]; cbn [bind]; auto.
  destruct (r_cfst r =? 0); [destruct r; reflexivity|].
  destruct (chk32 (if loop_eqb (r_loop r) LPingpong then r_pos2 r - st else r_pos2 r + st)) as [p2| |]; cbn [bind]; [destruct r| |]; reflexivity.
Qed.

(* One frame, for any source *)
Lemma plain_frame : forall h nch r r2 n, (1 <= nch)%nat ->
  r_dual r = false -> r_nch r = Z.of_nat nch -> settles n r r2 -> plain h nch r2 ->
  read_frame (S n) r =
    ('(vs, r3) <- fetch_frame nch (r_pos1 r2) 0 r2 ;; r4 <- advance r3 ;; Ok (Some vs, r4)).
Proof.
  intros h nch r r2 n N1 D N SS P. unfold read_frame. rewrite D. cbn [bind].
  rewrite N, Nat2Z.id. pose proof (settles_end _ _ _ SS) as E.
  destruct nch as [|nch']; [lia|].
  cbn [read_channels fetch_frame]. replace (S n) with (n + 1)%nat by lia.
  rewrite (read_one_settles n r r2 SS). cbn [read_one].
  rewrite (next_fetch h (S nch')) by auto.
  destruct (getAt r2 (r_pos1 r2) 0 0) as [[v r3]| |] eqn:G; cbn [bind]; auto.
  destruct (getAt_src _ _ _ _ _ _ G) as (s & ->).
  rewrite Nat.add_1_r.
  rewrite (channels_fetch h (S nch')) by (auto using plain_src).
  change (r_pos1 (r2 <| r_src := s |>)) with (r_pos1 r2).
  destruct (fetch_frame nch' _ _ _) as [[vs r4]| |]; cbn [bind option_map]; auto.
Qed.

Lemma frame_end : forall r f, r_dual r = false -> 1 <= r_nch r -> at_end r = true ->
  r_loop r = LNone -> read_frame (S f) r = Ok (None, r <| r_cfst := 0 |>).
Proof.
  intros r f D N E L. unfold read_frame. rewrite D. cbn [bind].
  destruct (Z.to_nat (r_nch r)) eqn:Q; [lia|]. cbn [read_channels read_one].
  unfold readNextValue. rewrite E. cbn [bind]. unfold on_end.
  change (r_loop (r <| r_cfst := 0 |>)) with (r_loop r). rewrite L. reflexivity.
Qed.

(* ---- walks ---------------------------------------------------------------- *)

(* In state I k the reader is about to deliver frame idx k of the audio starting
   at sample h (None: the end) *)
Definition walk (h : Z) (nch : nat) (I : nat -> reader -> Prop) (idx : nat -> option Z) : Prop :=
  (1 <= nch)%nat /\
  (forall k r s, I k r -> I k (r <| r_src := s |>)) /\
  forall k r, I k r ->
    plain h nch r /\
    match idx k with
    | Some i => exists n r2 r3, settles n r r2 /\ plain h nch r2 /\
        r_pos1 r2 = h + i * Z.of_nat nch /\ advance r2 = Ok r3 /\ I (S k) r3
    | None => at_end r = true /\ r_loop r = LNone /\ I k (r <| r_cfst := 0 |>)
    end.

(* The frame is inside the array *)
Definition frame_in (m : mem) (off : Z) (nch : nat) (i : Z) : Prop :=
  0 <= off + 2 * (i * Z.of_nat nch) /\ off + 2 * ((i + 1) * Z.of_nat nch) <= msize m.

Lemma arr_fetch : forall m off h nch r i todo ch, r_src r = SArr m off ->
  frame_in m (off + 2 * h) nch i -> - 2 ^ 31 <= h + i * Z.of_nat nch ->
  h + (i + 1) * Z.of_nat nch < 2 ^ 31 -> (ch + todo <= nch)%nat ->
  fetch_frame todo (h + i * Z.of_nat nch) (Z.of_nat ch) r =
    Ok (map (fun c => src_sample m (off + 2 * h) (i * Z.of_nat nch + Z.of_nat c)) (seq ch todo), r).
Proof.
  intros m off h nch r i todo ch S [F1 F2] L U. revert ch.
  induction todo as [|todo IH]; intros ch H; [reflexivity|]. cbn [fetch_frame seq map].
  unfold getAt. rewrite Z.mul_0_l, Z.add_0_r.
  rewrite chk32_ok by (unfold in_s32; lia). cbn [bind].
  rewrite chk32_ok by (unfold in_s32; lia). cbn [bind].
  unfold getSourceBufferValue. rewrite S.
  destruct (Z.leb_spec 0 (off + 2 * (h + i * Z.of_nat nch + Z.of_nat ch))); [|lia].
  destruct (Z.leb_spec (off + 2 * (h + i * Z.of_nat nch + Z.of_nat ch) + 2) (msize m)); [|lia].
  cbn [andb bind].
  replace (Z.of_nat ch + 1) with (Z.of_nat (Datatypes.S ch)) by lia. rewrite IH by lia. cbn [bind].
  do 3 f_equal. unfold src_sample. f_equal. lia.
Qed.

Lemma walk_follows : forall m off h nch I idx, walk h nch I idx ->
  (forall k i, idx k = Some i -> frame_in m (off + 2 * h) nch i /\ - 2 ^ 31 <= h + i * Z.of_nat nch /\
     h + (i + 1) * Z.of_nat nch < 2 ^ 31) ->
  follows (fun k r => I k r /\ r_src r = SArr m off)
    (fun k => option_map (src_frame m (off + 2 * h) nch) (idx k)).
Proof.
  intros m off h nch I idx (N1 & IS & W) HF k r [HI HS].
  destruct (W k r HI) as [P W']. split; [apply P|]. split; [rewrite (pl_nch _ _ _ P); lia|].
  destruct (idx k) as [i|] eqn:E; cbn [option_map].
  - destruct W' as (n & r2 & r3 & SS & P2 & HP & AD & HI3).
    destruct (HF k i E) as (F & L & U).
    assert (S2 : r_src r2 = SArr m off).
    { pose proof (settles_statics _ _ _ SS) as [_ X]. rewrite HS in X. inversion X; auto. }
    exists (S n), r3. split.
    + rewrite (plain_frame h nch r r2 n) by (auto; apply P).
      rewrite HP. pose proof (arr_fetch m off h nch r2 i nch O S2 F L U ltac:(lia)) as AF.
      change (Z.of_nat 0) with 0 in AF. rewrite AF. cbn [bind]. rewrite AD. reflexivity.
    + split; auto. pose proof (advance_statics _ _ AD) as [_ X]. rewrite S2 in X. inversion X; auto.
  - destruct W' as (EN & L & HI2). exists 1%nat. eexists. split.
    + apply frame_end; auto; try apply P. rewrite (pl_nch _ _ _ P); lia.
    + auto.
Qed.

(* ---- the position step ---------------------------------------------- *)

Local Open Scope R_scope.

(* The sum remainder + rate as the machine computes it *)
Definition step_sum (r : reader) : R := rnd64 (R64 (r_rem r) + R64 (r_rate r)).

Lemma advance_plain : forall r, fin64 (r_rem r) = true -> fin64 (r_rate r) = true ->
  Rabs (R64 (r_rem r)) <= 1 -> Rabs (R64 (r_rate r)) <= bpow radix2 40 ->
  r_cfst r = 0%Z ->
  let d := Ztrunc (step_sum r) in
  in_s32 d -> in_s32 (d * r_nch r) -> in_s32 (r_pos1 r + d * r_nch r) ->
  exists x, fin64 x = true /\ R64 x = step_sum r - IZR d /\ Rabs (R64 x) < 1 /\
    advance r = Ok (r <| r_rem := x |> <| r_pos1 := (r_pos1 r + d * r_nch r)%Z |>).
Proof.
  intros r F1 F2 B1 B2 C d D1 D2 D3.
  assert (B : Rabs (R64 (r_rem r) + R64 (r_rate r)) <= bpow radix2 41).
  { eapply Rle_trans; [apply Rabs_triang|].
    apply Rle_trans with (bpow radix2 0 + bpow radix2 40).
    - apply Rplus_le_compat; auto.
    - rewrite !bpow_IZR by lia. rewrite <- plus_IZR. apply IZR_le. lia. }
  destruct (dadd_ok (r_rem r) (r_rate r) F1 F2) as [A1 A2].
  { eapply Rle_trans; [exact B|]. apply bpow_le. lia. }
  fold (step_sum r) in A1.
  set (s := dadd (r_rem r) (r_rate r)) in *.
  destruct (d_of_Z_ok d) as [Z1 Z2]; [unfold in_s32 in D1; lia|].
  assert (FR : fmt64 (step_sum r - IZR d)).
  { apply fmt64_frac. unfold step_sum, rnd64. apply generic_format_round; typeclasses eauto. }
  destruct (dsub_ok s (d_of_Z d) A2 Z2) as [S1 S2].
  { rewrite A1, Z1. eapply Rle_trans; [apply Rlt_le, Ztrunc_frac|].
    change 1 with (bpow radix2 0). apply bpow_le. lia. }
  exists (dsub s (d_of_Z d)). split; auto.
  assert (X : R64 (dsub s (d_of_Z d)) = step_sum r - IZR d).
  { rewrite S1, A1, Z1. apply rnd64_id. exact FR. }
  split; auto. split; [rewrite X; apply Ztrunc_frac|].
  unfold advance. fold s. rewrite d_to_s32_ok; rewrite ?A1; auto. cbn [bind].
  fold d. rewrite chk32_ok by auto. cbn [bind]. rewrite chk32_ok by auto. cbn [bind].
  rewrite C. reflexivity.
Qed.

Lemma advance_keeps_plain : forall h nch r x p, plain h nch r ->
  plain h nch (r <| r_rem := x |> <| r_pos1 := p |>).
Proof. intros h nch r x p []. constructor; auto. Qed.
