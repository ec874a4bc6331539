(* setPlaybackRate with two play heads (C43). *)

From Coq Require Import ZArith Lia List Bool Reals Lra.
From RecordUpdate Require Import RecordUpdate.
From Flocq Require Import Core.Core IEEE754.BinarySingleNaN.
From Verif Require Import Machine Floats FloatFacts InterpModel CacheModel ReaderModel CacheFacts ReaderSpec ReaderFacts LoopProofs HistProofs HistFinal.
Import ListNotations.
Local Open Scope Z_scope.

Lemma rate_moves_dual : forall r x, r_dual r = true -> is_finite x = true ->
  0 <= r_lf r <= r_fsamples r -> 0 <= r_nch r ->
  0 <= r_hdr r -> frame_pos r (r_fsamples r) < 2 ^ 31 ->
  r_nch r < 2 ^ 31 -> r_fsamples r < 2 ^ 31 ->
  setPlaybackRate r x = Ok (r <| r_rate := x |> <| r_pos1 :=
    if deq (r_cf r) d0 then
      if Rlt_bool (B2R x) 0 then
        if r_pos1 r <=? r_hdr r
        then frame_pos r (match r_pstart r with PSample => r_fsamples r | _ => r_lf r end - 1)
        else r_pos1 r
      else Z.max (r_pos1 r) (r_hdr r)
    else r_pos1 r |>).
Proof.
  intros r x D F LF N H M N2 M2. unfold frame_pos in M.
  assert (SP : forall n, -1 <= n <= r_fsamples r -> spos (r <| r_rate := x |>) n = frame_pos r n).
  { intros n Hn. apply (spos_frame r). unfold frame_pos, in_s32. nia. }
  assert (ID : forall p, p = r_pos1 r -> r <| r_rate := x |> = r <| r_rate := x |> <| r_pos1 := p |>).
  { intros p ->. destruct r; reflexivity. }
  unfold setPlaybackRate. set (r0 := r <| r_rate := x |>) in *.
  change (r_dual r0) with (r_dual r). rewrite D. cbn [negb].
  change (r_pos1 r0) with (r_pos1 r). change (r_hdr r0) with (r_hdr r). change (r_cf r0) with (r_cf r).
  change (r_pstart r0) with (r_pstart r). change (r_fsamples r0) with (r_fsamples r).
  change (r_lf r0) with (r_lf r).
  destruct (deq (r_cf r) d0); [|f_equal; auto].
  rewrite dlt_R by (auto using fin_d0). rewrite R64_d0.
  destruct (Rlt_bool_spec (R64 x) 0) as [C|C].
  - destruct (r_pos1 r <=? r_hdr r); [|f_equal; auto].
    set (n := match r_pstart r with PSample => r_fsamples r | _ => r_lf r end - 1).
    assert (-1 <= n <= r_fsamples r) by (unfold n; destruct (r_pstart r); lia).
    rewrite chk32_ok by (unfold in_s32; lia). cbn [bind]. now rewrite SP.
  - rewrite (dge0_true x F C). cbn [andb].
    destruct (Z.ltb_spec (r_pos1 r) (r_hdr r)).
    + rewrite Z.max_r by lia. reflexivity.
    + rewrite Z.max_l by lia. f_equal; auto.
Qed.
