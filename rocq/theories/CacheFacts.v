(* Basic facts about the buffered file model: lookups, loading, preloading. *)

From Coq Require Import ZArith Lia List Bool.
From RecordUpdate Require Import RecordUpdate.
From Flocq Require Import IEEE754.BinarySingleNaN.
From Verif Require Import Machine Floats WavModel CacheModel.
Import ListNotations.
Local Open Scope Z_scope.

Lemma Ok_inj : forall {A} (a b : A), Ok a = Ok b -> a = b.
Proof. intros A a b H. now injection H. Qed.

(* Configurations of a sane size (the three real ones are) *)
Definition cfg_ok (c : ccfg) : Prop := 1 <= c_shift c <= 13 /\ (1 <= c_nbuf c <= 64)%nat.

Lemma cfg_sd_ok : cfg_ok cfg_sd. Proof. split; cbn; lia. Qed.
Lemma cfg_flash_ok : cfg_ok cfg_flash. Proof. split; cbn; lia. Qed.

Lemma BS_pos : forall c, cfg_ok c -> 2 <= BS c <= 8192.
Proof.
  intros c [H _]. unfold BS. split.
  - change 2 with (2 ^ 1) at 1. apply Z.pow_le_mono_r; lia.
  - change 8192 with (2 ^ 13). apply Z.pow_le_mono_r; lia.
Qed.

Lemma list_upd_length : forall {A} n (g : A -> A) l, length (list_upd n g l) = length l.
Proof. induction n; destruct l; cbn; auto. Qed.

Lemma list_upd_app : forall {A} (l : list A) x g, list_upd (length l) g (l ++ [x]) = l ++ [g x].
Proof. induction l; intros; cbn; [reflexivity|]. now rewrite IHl. Qed.

Lemma nth_error_last : forall {A} (l : list A) x, nth_error (l ++ [x]) (length l) = Some x.
Proof. intros. rewrite nth_error_app2 by lia. now rewrite Nat.sub_diag. Qed.

(* One round of preloading on a cache that holds exactly [bufn] buffers *)
Lemma preload_step : forall todo f i total fwd,
  preload_loop (S todo) (length (i_bufs f)) fwd f i total =
  let '(b', p, n) := loadBuffer f (mkBuf 0 0 StConstructed (i_garbage f (length (i_bufs f)))) i in
  let f2 := f <| i_bufs := i_bufs f ++ [b'] |> <| i_pos := p |> in
  if n <? BS (i_cfg f) then Ok (total + n, f2)
  else i' <- chk32 (if fwd then i + BS (i_cfg f) else i - BS (i_cfg f)) ;;
       preload_loop todo (length (i_bufs f2)) fwd f2 i' (total + n).
Proof.
  intros todo f i total fwd. cbn [preload_loop]. rewrite Nat.leb_refl. cbn [i_bufs set].
  rewrite nth_error_last.
  change (loadBuffer (f <| i_bufs := i_bufs f ++ [mkBuf 0 0 StConstructed (i_garbage f (length (i_bufs f)))] |>))
    with (loadBuffer f).
  destruct (loadBuffer f _ i) as [[b' p] n]. cbv zeta.
  destruct f; cbn. rewrite list_upd_app, app_length. cbn [length]. rewrite Nat.add_1_r. reflexivity.
Qed.

Lemma preload_total : forall todo f i total fwd,
  - 2 ^ 31 <= i - Z.of_nat todo * BS (i_cfg f) -> i + Z.of_nat todo * BS (i_cfg f) < 2 ^ 31 ->
  0 <= BS (i_cfg f) ->
  is_ok (preload_loop todo (length (i_bufs f)) fwd f i total).
Proof.
  induction todo as [|todo IH]; intros f i total fwd L U P; [eexists; reflexivity|].
  rewrite preload_step. destruct (loadBuffer f _ i) as [[b' p] n]. cbv zeta.
  destruct (n <? BS (i_cfg f)); [eexists; reflexivity|].
  rewrite chk32_ok by (unfold in_s32; destruct fwd; lia). cbn [bind].
  apply IH; cbn; destruct fwd; lia.
Qed.

Lemma preLoadBuffers_total : forall f i fwd, cfg_ok (i_cfg f) -> i_bufs f = [] ->
  - 2 ^ 30 <= i <= 2 ^ 30 + 2 ^ 15 -> is_ok (preLoadBuffers f i fwd).
Proof.
  intros f i fwd C E B. unfold preLoadBuffers.
  assert (X : O = length (i_bufs f)) by (rewrite E; reflexivity).
  rewrite X at 1. pose proof (BS_pos _ C). destruct C as [_ C].
  apply preload_total; nia.
Qed.
