(* Fused arithmetic: cases (C131-C133), and a comparison of the model with a recording in the repository. *)

From Coq Require Import ZArith Lia List Bool Reals Lra.
From Flocq Require Import IEEE754.BinarySingleNaN.
From Verif Require Import Machine Floats FloatFacts InterpModel ReaderModel PlayerModel LifeSpec CubicProofs FadeSpec FadeProofs QuadProofs ContractModel ContractProofs.
Import ListNotations.
Local Open Scope Z_scope.

Definition unfused (i : nat) : fuse := mkFuse SubPlain false.
Definition fused (i : nat) : fuse := mkFuse SubScale true.

(* Without fusing these are the definitions of the model *)
Theorem unfused_same : (forall a b c d x, fastinterpolate_c unfused a b c d x = fastinterpolate a b c d x) /\
  (forall ga a gb b, mix16_c MixPlain ga a gb b = mix16 ga a gb b).
Proof.
  split.
  - intros. unfold fastinterpolate_c, fastinterpolate, fi_sum_c, fi_sum, fi_poly_c, fi_poly, unfused. cbn [fu_sub fu_add]. reflexivity.
  - intros. unfold mix16_c, mix16. reflexivity.
Qed.

(* Fusing makes a difference *)
Theorem fused_differs : fastinterpolate_c unfused 665 727 762 863 one32 = Ok 726 /\ fastinterpolate_c fused 665 727 762 863 one32 = Ok 727.
Proof. split; vm_compute; reflexivity. Qed.

(* Whatever is fused, the interpolator is off by one at some sample's own position *)
Theorem never_exact : forall k, fastinterpolate_c k 0 13484 0 0 one32 = Ok 13483.
Proof.
  intros k. unfold fastinterpolate_c, fi_sum_c. destruct (k 0%nat) as [[] []], (k 1%nat) as [[] []]; generalize (k 2%nat) (k 3%nat); intros [[] []] [[] []]; vm_compute; reflexivity.
Qed.
Theorem never_exact_ex : forall k, exists a b c d x v, in_s16 a /\ in_s16 b /\ in_s16 c /\ in_s16 d /\ fin32 x = true /\ R32 x = 1%R /\
  fastinterpolate_c k a b c d x = Ok v /\ v <> b.
Proof.
  intros k. exists 0, 13484, 0, 0, one32, 13483. repeat (split; [unfold in_s16; lia|]). split; [reflexivity|]. split; [|split; [apply never_exact|lia]].
  exact (proj2 one32_ok).
Qed.

(* ---- a recording ---- *)

(* The first 110 of the 3175 samples of test/resources/input/kick.raw *)
Definition kick : list Z := [
  665; 727; 762; 863; 961; 1066; 1197; 1445; 1654; 1839; 1950; 2018; 2115; 2194; 2226; 2280; 2326; 2266; 2129; 2049; 2085; 2160; 2243; 2339; 2453;
  2585; 2691; 2686; 2768; 2917; 3062; 3209; 3281; 3279; 3354; 3557; 3678; 3771; 3820; 3801; 3847; 4040; 4138; 4100; 4136; 4436; 5006; 5707; 6409;
  7057; 7671; 8277; 8913; 9675; 10573; 11432; 12159; 12762; 13484; 14858; 18212; 23453; 26601; 26409; 26148; 26150; 26066; 26012; 25912; 25861;
  25759; 25700; 25618; 25550; 25468; 25394; 25318; 25239; 25161; 25089; 25011; 24931; 24853; 24772; 24693; 24608; 24526; 24442; 24360; 24277; 24193;
  24109; 24019; 23936; 23854; 23782; 23578; 23062; 22529; 22201; 21869; 21492; 21065; 20611; 20103; 19551; 19048; 18524; 18018; 17498].
(* The first block of test/resources/reference/Array_fwd_0_7437_quadratic_mono_noloop.wav *)
Definition recorded : list Z := [
  0; 0; 0; 0; 0; 749; 804; 883; 955; 1031; 1114; 1237; 1425; 1588; 1735; 1860; 1941; 1994; 2054; 2126; 2186; 2214; 2244; 2286; 2323; 2301; 2221;
  2119; 2056; 2060; 2105; 2164; 2225; 2293; 2369; 2456; 2555; 2648; 2692; 2686; 2740; 2837; 2951; 3058; 3172; 3251; 3281; 3278; 3320; 3440; 3583;
  3670; 3744; 3798; 3818; 3802; 3818; 3918; 4059; 4132; 4117; 4094; 4155; 4375; 4752; 5236; 5766; 6290; 6784; 7253; 7706; 8156; 8614; 9120; 9704;
  10370; 11031; 11637; 12164; 12610; 13072; 13703; 14822; 17105; 20687; 24347; 26527; 26621; 26281; 26138; 26148; 26095; 26044; 25996; 25920; 25879;
  25821; 25749; 25706; 25648; 25592; 25540; 25479; 25423; 25368; 25311; 25252; 25193; 25137; 25084; 25026; 24966; 24908; 24849; 24789; 24730; 24670;
  24606; 24545; 24483; 24421; 24361; 24299; 24237; 24174; 24112; 24045; 23981].
Definition kick_mem : mem :=
  mkMem 220 (fun i => let v := nth (Z.to_nat (i / 2)) kick 0 mod 65536 in if Z.even i then v mod 256 else v / 256).
(* double playbackRate = 0.7437, test/audio/array/test_array_mono_loop_forward_playback.cpp:139 *)
Definition rate_7437 : b64 := binary_normalize 53 1024 prec53 emax1024 mode_NE 1674663521437719 (-51) false.
(* test/audio/array/test_array_mono_loop_forward_playback.cpp:146-152, one update *)
Definition kick_test : list wop :=
  [WCall 0 CBegin; WCall 0 (CInterp IQuadratic); WCall 0 (CRate rate_7437); WPlayRaw 0 kick_mem 0 110 1; WUpdate 0 Some].
Definition first_block (l : list wout) : list Z :=
  match last l WoNone with WoActs [(_, a)] => match sent a with (_, d, 0) :: _ => d | _ => [] end | _ => [] end.

(* The model delivers what was recorded *)
Theorem as_recorded : exists l w, wops 200 kick_test (world0 (fun _ => KArray) 2) = Ok (l, w) /\ first_block l = recorded.
Proof.
  assert (C : match wops 200 kick_test (world0 (fun _ => KArray) 2) with Ok (l, _) => if list_eq_dec Z.eq_dec (first_block l) recorded then true else false | _ => false end = true)
    by (vm_compute; reflexivity).
  destruct (wops 200 kick_test (world0 (fun _ => KArray) 2)) as [[l w]| |]; try discriminate C. exists l, w. split; [reflexivity|].
  destruct (list_eq_dec Z.eq_dec (first_block l) recorded); [assumption|discriminate C].
Qed.
