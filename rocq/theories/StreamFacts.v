(* Facts about streams and sessions (specification side). *)

From Coq Require Import ZArith Lia List Bool Reals Lra.
From Flocq Require Import Core.Core IEEE754.BinarySingleNaN.
From Verif Require Import Machine Floats CacheModel ReaderModel ReaderSpec.
Import ListNotations.

Lemma pulls_ext : forall o1 o2, (forall k, o1 k = o2 k) -> forall n k, pulls o1 k n = pulls o2 k n.
Proof.
  intros o1 o2 E. induction n as [|n IH]; intros k; auto. cbn. rewrite E, IH. reflexivity.
Qed.

Lemma blocks_ext : forall o1 o2, (forall k, o1 k = o2 k) ->
  forall ns k, blocks_spec o1 k ns = blocks_spec o2 k ns.
Proof.
  intros o1 o2 E. induction ns as [|n ns IH]; intros k; auto. cbn.
  rewrite (pulls_ext o1 o2 E), IH. reflexivity.
Qed.

Lemma delivers_ext : forall r o1 o2, (forall k, o1 k = o2 k) -> delivers r o1 -> delivers r o2.
Proof.
  intros r o1 o2 E D ns. destruct (D ns) as (f & r' & H). exists f, r'.
  now rewrite <- (blocks_ext o1 o2 E).
Qed.

(* The blocks of a list *)
Fixpoint cut {A} (ns : list nat) (l : list A) : list (list A) :=
  match ns with
  | [] => []
  | n :: ns' => firstn n l :: cut ns' (skipn n l)
  end.

Lemma concat_cut : forall {A} ns (l : list A), concat (cut ns l) = firstn (list_sum ns) l.
Proof.
  induction ns as [|n ns IH]; intros l; cbn [cut concat list_sum fold_right].
  - destruct l; reflexivity.
  - change (fold_right Nat.add 0 ns) with (list_sum ns). rewrite IH.
    rewrite <- (firstn_skipn n l) at 3. rewrite firstn_app, firstn_firstn.
    destruct (Nat.le_gt_cases n (length l)) as [H|H].
    + rewrite firstn_length_le by lia. rewrite Nat.min_r by lia.
      now replace (n + list_sum ns - n)%nat with (list_sum ns) by lia.
    + rewrite (skipn_all2 l) by lia. rewrite !firstn_nil, !app_nil_r.
      f_equal. lia.
Qed.

Lemma pulls_list : forall l n k, pulls (nth_error l) k n = firstn n (skipn k l).
Proof.
  intros l. induction n as [|n IH]; intros k; [destruct (skipn k l); reflexivity|].
  cbn [pulls]. destruct (nth_error l k) as [v|] eqn:E.
  - rewrite IH. clear IH. revert k E. induction l as [|a l IHl]; intros k E; [destruct k; discriminate|].
    destruct k as [|k]; [cbn in *; injection E as <-; reflexivity|].
    cbn [nth_error] in E. change (skipn (S k) (a :: l)) with (skipn k l).
    rewrite <- (IHl k E). reflexivity.
  - apply nth_error_None in E. rewrite skipn_all2 by lia. destruct n; reflexivity.
Qed.

Lemma skipn_skipn : forall {A} (l : list A) a b, skipn a (skipn b l) = skipn (b + a) l.
Proof.
  induction l as [|x l IH]; intros a b; [now rewrite !skipn_nil|].
  destruct b; auto. cbn. apply IH.
Qed.

Lemma blocks_list : forall l ns k, blocks_spec (nth_error l) k ns = cut ns (skipn k l).
Proof.
  intros l. induction ns as [|n ns IH]; intros k; auto.
  cbn [blocks_spec cut]. rewrite pulls_list. f_equal. rewrite IH. f_equal.
  rewrite firstn_length, skipn_length.
  destruct (Nat.le_gt_cases n (length l - k)) as [H|H].
  - rewrite Nat.min_l by lia. now rewrite skipn_skipn.
  - rewrite Nat.min_r by lia.
    rewrite !skipn_all2; auto; rewrite ?skipn_length; lia.
Qed.

(* Delivering a finite list: the blocks returned are the list, cut *)
Lemma delivers_list : forall r l, delivers r (nth_error l) ->
  forall ns, exists fuel r', read_seq fuel r ns = Ok (cut ns l, r').
Proof.
  intros r l D ns. destruct (D ns) as (f & r' & E). exists f, r'.
  rewrite blocks_list in E. exact E.
Qed.

Lemma delivers_concat : forall r l, delivers r (nth_error l) ->
  forall ns, exists fuel bs r', read_seq fuel r ns = Ok (bs, r') /\
    concat bs = firstn (list_sum ns) l.
Proof.
  intros r l D ns. destruct (delivers_list r l D ns) as (f & r' & E).
  exists f, (cut ns l), r'. split; auto. apply concat_cut.
Qed.

Lemma nth_error_map_seq : forall {A} (f : nat -> A) n k,
  nth_error (map f (seq 0 n)) k = if Nat.ltb k n then Some (f k) else None.
Proof.
  intros A f n k. destruct (Nat.ltb_spec k n) as [H|H].
  - rewrite nth_error_map.
    rewrite (nth_error_nth' (seq 0 n) 0%nat) by (rewrite seq_length; lia).
    rewrite seq_nth by lia. reflexivity.
  - apply nth_error_None. rewrite map_length, seq_length. lia.
Qed.
