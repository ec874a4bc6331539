(* C131-C133: fused multiply-add. *)

From Coq Require Import ZArith List Bool Reals.
From Verif Require Import Machine Floats FloatFacts InterpModel ReaderModel PlayerModel LifeSpec CubicProofs FadeSpec FadeProofs QuadProofs ContractModel ContractProofs ContractCases.
Import ListNotations.
Local Open Scope Z_scope.

Theorem C131_cubic : forall k a b c d x, in_s16 a -> in_s16 b -> in_s16 c -> in_s16 d -> fin32 x = true -> (1 <= R32 x <= 2)%R ->
  exists v, fastinterpolate_c k a b c d x = Ok v /\ in_s16 v /\
    forall f, cubic f -> f 0%R = IZR a -> f 1%R = IZR b -> f 2%R = IZR c -> f 3%R = IZR d -> (Rabs (IZR v - clampR (f (R32 x))) <= 1.125)%R.
Proof. exact cubic_fused. Qed.
Print Assumptions C131_cubic.
Example C131_case : fastinterpolate_c unfused 665 727 762 863 one32 = Ok 726 /\ fastinterpolate_c fused 665 727 762 863 one32 = Ok 727.
Proof. exact fused_differs. Qed.
Example C131_same : (forall a b c d x, fastinterpolate_c unfused a b c d x = fastinterpolate a b c d x) /\ (forall ga a gb b, mix16_c MixPlain ga a gb b = mix16 ga a gb b).
Proof. exact unfused_same. Qed.

Theorem C132_refuted : forall k, exists a b c d x v, in_s16 a /\ in_s16 b /\ in_s16 c /\ in_s16 d /\ fin32 x = true /\ R32 x = 1%R /\
  fastinterpolate_c k a b c d x = Ok v /\ v <> b.
Proof. exact never_exact_ex. Qed.
Print Assumptions C132_refuted.
Theorem C132_within_partial : forall k a b c d, in_s16 a -> in_s16 b -> in_s16 c -> in_s16 d -> forall x, fin32 x = true -> R32 x = 1%R ->
  exists v, fastinterpolate_c k a b c d x = Ok v /\ Z.abs (v - b) <= 1.
Proof. exact near_sample. Qed.
Print Assumptions C132_within_partial.

Theorem C133_mix : forall k c a b, gain_ok c -> s16_val a -> s16_val b ->
  exists v, mix16_c k c a (dsub d1 c) b = Ok v /\ s16_val v /\ (Rabs (IZR v - (R64 c * IZR a + (1 - R64 c) * IZR b)) <= 1 + / 34359738368)%R /\
    Z.min a b - 1 <= v <= Z.max a b + 1 /\ Z.min 0 (Z.min a b) <= v <= Z.max 0 (Z.max a b).
Proof. exact mix_fused. Qed.
Print Assumptions C133_mix.
Example C133_case : mix16_c MixLeft rate_7437 (-32768) (dsub d1 rate_7437) 32767 = Ok (-15971).
Proof. vm_compute. reflexivity. Qed.

Example model_as_recorded : exists l w, wops 200 kick_test (world0 (fun _ => KArray) 2) = Ok (l, w) /\ first_block l = recorded.
Proof. exact as_recorded. Qed.
