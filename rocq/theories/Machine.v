(* Machine integers and the result monad shared by all model files.

   Platform: Teensy (ILP32), GCC.  Every C++ operation whose result is undefined
   is modelled by the separate outcome [UB reason]; the outcome [NoFuel] means
   that a loop was cut off by the fuel given to the model. *)

From Coq Require Import ZArith Lia List Bool.
Import ListNotations.
Local Open Scope Z_scope.

(* ------------------------------------------------------------------ *)
(* Result monad.                                                       *)

(* Kinds of undefined behaviour distinguished by the model. *)
Inductive ub :=
| UbOverflow      (* signed integer overflow *)
| UbDivZero       (* integer division by zero *)
| UbOutOfBounds   (* access outside the user's array *)
| UbVector        (* access outside a std::vector / fixed member array *)
| UbNull          (* dereference of a null pointer *)
| UbFloatToInt    (* floating value not representable in the integer type *)
| UbVla           (* variable length array of negative size *)
| UbPrintf        (* non-pointer passed to a %s conversion *).

Inductive res (A : Type) :=
| Ok (a : A)
| UB (why : ub)
| NoFuel.
Arguments Ok {A} _.
Arguments UB {A} _.
Arguments NoFuel {A}.

Definition bind {A B} (x : res A) (k : A -> res B) : res B :=
  match x with
  | Ok a => k a
  | UB w => UB w
  | NoFuel => NoFuel
  end.

Declare Scope res_scope.
Delimit Scope res_scope with res.
Notation "x <- e ;; k" := (bind e (fun x => k))
  (at level 61, e at next level, right associativity) : res_scope.
Notation "' p <- e ;; k" := (bind e (fun p => k))
  (at level 61, p pattern, e at next level, right associativity) : res_scope.
Open Scope res_scope.

Definition is_ok {A} (x : res A) : Prop := exists a, x = Ok a.
Definition is_ub {A} (x : res A) : Prop := exists w, x = UB w.

Lemma bind_ok : forall {A B} (x : res A) (k : A -> res B) b,
  bind x k = Ok b -> exists a, x = Ok a /\ k a = Ok b.
Proof. intros A B [a|w|] k b H; simpl in H; try discriminate; eauto. Qed.

(* ------------------------------------------------------------------ *)
(* Fixed width integers.  Conversions to a signed type reduce modulo
   2^N (implementation-defined, GCC manual 4.5).                       *)

Definition u16 (z : Z) : Z := z mod 2 ^ 16.
Definition u32 (z : Z) : Z := z mod 2 ^ 32.
Definition u64 (z : Z) : Z := z mod 2 ^ 64.
Definition s16 (z : Z) : Z := (z + 2 ^ 15) mod 2 ^ 16 - 2 ^ 15.
Definition s32 (z : Z) : Z := (z + 2 ^ 31) mod 2 ^ 32 - 2 ^ 31.

Definition in_s16 (z : Z) : Prop := - 2 ^ 15 <= z < 2 ^ 15.
Definition in_s32 (z : Z) : Prop := - 2 ^ 31 <= z < 2 ^ 31.
Definition in_u32 (z : Z) : Prop := 0 <= z < 2 ^ 32.
Definition in_u16 (z : Z) : Prop := 0 <= z < 2 ^ 16.

Definition in_s16b (z : Z) : bool := (- 2 ^ 15 <=? z) && (z <? 2 ^ 15).
Definition in_s32b (z : Z) : bool := (- 2 ^ 31 <=? z) && (z <? 2 ^ 31).

(* Result of a signed 32 bit operation: undefined when out of range. *)
Definition chk32 (z : Z) : res Z := if in_s32b z then Ok z else UB UbOverflow.

(* C++ integer division truncates; x/0 and INT_MIN/-1 are undefined. *)
Definition sdiv32 (a b : Z) : res Z :=
  if b =? 0 then UB UbDivZero else chk32 (Z.quot a b).

Lemma in_s32b_spec : forall z, in_s32b z = true <-> in_s32 z.
Proof.
  intros z. unfold in_s32b, in_s32. rewrite andb_true_iff, Z.leb_le, Z.ltb_lt. tauto.
Qed.

Lemma in_s16b_spec : forall z, in_s16b z = true <-> in_s16 z.
Proof.
  intros z. unfold in_s16b, in_s16. rewrite andb_true_iff, Z.leb_le, Z.ltb_lt. tauto.
Qed.

Lemma chk32_ok : forall z, in_s32 z -> chk32 z = Ok z.
Proof. intros z H. unfold chk32. apply in_s32b_spec in H. now rewrite H. Qed.

Lemma chk32_inv : forall z a, chk32 z = Ok a -> a = z /\ in_s32 z.
Proof.
  intros z a. unfold chk32. destruct (in_s32b z) eqn:E; intros H; inversion H; subst.
  split; auto. now apply in_s32b_spec.
Qed.

Lemma s32_id : forall z, in_s32 z -> s32 z = z.
Proof. intros z [H1 H2]. unfold s32. rewrite Z.mod_small; lia. Qed.

Lemma s16_id : forall z, in_s16 z -> s16 z = z.
Proof. intros z [H1 H2]. unfold s16. rewrite Z.mod_small; lia. Qed.

Lemma u32_id : forall z, in_u32 z -> u32 z = z.
Proof. intros z H. unfold u32. apply Z.mod_small. exact H. Qed.

Lemma u16_id : forall z, in_u16 z -> u16 z = z.
Proof. intros z H. unfold u16. apply Z.mod_small. exact H. Qed.

Lemma s16_range : forall z, in_s16 (s16 z).
Proof.
  intros z. unfold s16, in_s16.
  pose proof (Z.mod_pos_bound (z + 2 ^ 15) (2 ^ 16) ltac:(lia)). lia.
Qed.

Lemma s32_range : forall z, in_s32 (s32 z).
Proof.
  intros z. unfold s32, in_s32.
  pose proof (Z.mod_pos_bound (z + 2 ^ 31) (2 ^ 32) ltac:(lia)). lia.
Qed.

Lemma u32_range : forall z, in_u32 (u32 z).
Proof. intros z. unfold u32, in_u32. apply Z.mod_pos_bound. lia. Qed.

Lemma s32_u32 : forall z, s32 (u32 z) = s32 z.
Proof.
  intros z. unfold s32, u32. f_equal.
  rewrite Zplus_mod_idemp_l. reflexivity.
Qed.

Lemma u32_s32 : forall z, u32 (s32 z) = u32 z.
Proof.
  intros z. unfold s32, u32.
  rewrite <- Zminus_mod_idemp_l, Zmod_mod, Zminus_mod_idemp_l.
  f_equal. lia.
Qed.

(* ------------------------------------------------------------------ *)
(* Little-endian views of byte functions.                              *)

Definition bytes := Z -> Z.

(* Bytes as the machine stores them: every value in 0..255. *)
Definition byte_ok (b : Z) : Prop := 0 <= b < 256.
Definition bytes_ok (m : bytes) : Prop := forall i, byte_ok (m i).

Definition le16u (m : bytes) (o : Z) : Z := m o + 256 * m (o + 1).
Definition le16 (m : bytes) (o : Z) : Z := s16 (le16u m o).
Definition le32u (m : bytes) (o : Z) : Z :=
  m o + 256 * m (o + 1) + 65536 * m (o + 2) + 16777216 * m (o + 3).

Lemma le16_range : forall m o, in_s16 (le16 m o).
Proof. intros. apply s16_range. Qed.

Lemma le32u_range : forall m o, bytes_ok m -> in_u32 (le32u m o).
Proof.
  intros m o H. unfold le32u, in_u32.
  pose proof (H o); pose proof (H (o + 1)); pose proof (H (o + 2)); pose proof (H (o + 3)).
  unfold byte_ok in *. lia.
Qed.

(* A block of memory owned by the caller: [msize] bytes. *)
Record mem := mkMem { msize : Z; mbyte : bytes }.

(* Functional update of maps indexed by Z. *)
Definition upd {A} (f : Z -> A) (k : Z) (v : A) : Z -> A :=
  fun i => if i =? k then v else f i.

Lemma upd_same : forall {A} (f : Z -> A) k v, upd f k v k = v.
Proof. intros. unfold upd. now rewrite Z.eqb_refl. Qed.

Lemma upd_other : forall {A} (f : Z -> A) k v i, i <> k -> upd f k v i = f i.
Proof. intros. unfold upd. destruct (Z.eqb_spec i k); congruence. Qed.
