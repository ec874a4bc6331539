(* A run of several file players (C117). *)

From Coq Require Import ZArith Lia List Bool Reals Lra.
From Flocq Require Import Core.Core IEEE754.BinarySingleNaN.
From Verif Require Import Machine Floats FloatFacts WavModel WavSpec WavPlayProofs CacheModel CacheFacts CacheFinal ReaderModel ReaderSpec ResponderModel PlayerModel
  LifeSpec FileForward WavFinal PlayerCases SketchRuns ManySpec.
Import ListNotations.
Local Open Scope Z_scope.

Lemma wav_ex_any : wav_any (mkfile wav_ex).
Proof.
  destruct wav_ex_case as (_ & _ & _ & B & S & L & H & C & _). split; [exact B|]. split; [vm_compute; split; congruence|]. split; [exact H|]. split; [exact L|].
  split; [rewrite C; lia|]. intros tags n DC. destruct wav_ex_file as (_ & _ & _ & _ & _ & DC2 & _).
  destruct (data_chunk_unique _ _ _ _ _ B DC DC2) as [_ ->]. lia.
Qed.
Lemma rate_15 : onwards (ddiv (d_of_Z 3) (d_of_Z 2)).
Proof.
  split; [reflexivity|]. assert (E : R64 (ddiv (d_of_Z 3) (d_of_Z 2)) = (3 / 2)%R) by (unfold R64; cbn; unfold F2R; cbn; lra).
  rewrite E. assert (IZR (2 ^ 26) = 67108864%R) by reflexivity. lra.
Qed.

(* An SD player and a serial flash player: a WAV file and a raw file, a rate set while
   playing, a stop interrupted by updates of both, a missing file, a raw file on the
   player that played a WAV file *)
Definition kinds2 (i : nat) : rkind := if Nat.eqb i 0 then KSd else KFlash.
Definition several : list wop :=
  [WCall 0 (CInterp IQuadratic); play_wav 0; play_ramp 1 2000; WUpdate 0 give; WUpdate 1 give; WYield;
   WCall 1 (CRate (ddiv (d_of_Z 3) (d_of_Z 2))); WCall 1 (CLoopStart 12345); WUpdate 1 give; WUpdate 1 stingy; WYield; WYield;
   WStop 1 [(1%nat, give); (0%nat, give)]; WCall 1 CReload; WUpdate 1 give; play_none 1; play_ramp 0 5000; WUpdate 0 give; WCall 0 CBegin; WYield].
Lemma several_ok : Forall mild_op several.
Proof.
  assert (Z : bytes_ok (fun _ => 0)) by (intros i; split; cbn; lia).
  assert (W : mild_op (play_wav 0)). { split; [exact Z|]. split; [discriminate|]. intros fl E. injection E as <-. exact wav_ex_any. }
  assert (R : forall i n, 0 <= n < 2 ^ 30 -> mild_op (play_ramp i n)).
  { intros i n B. split; [exact Z|]. split; [lia|]. intros fl E. injection E as <-. exact B. }
  assert (M : mild_op (play_none 1)). { split; [exact Z|]. split; [discriminate|]. discriminate. }
  unfold several. repeat (constructor; [first [exact I | exact W | exact M | exact rate_15 | apply R; lia]|]). constructor.
Qed.
(* Starts and the result of each, and how many updates sent something *)
Definition starts_of (xs : list wout) : list bool := flat_map (fun x => match x with WoPlay _ b => [b] | _ => [] end) xs.
Lemma several_run : match wops 300 several (world0 kinds2 2) with Ok (xs, _) => (starts_of xs, length (filter is_sent xs)) | _ => ([], O) end
  = ([true; true; false; true], 6%nat).
Proof. vm_compute. reflexivity. Qed.
Lemma kinds2_ok : forall i, kinds2 i <> KArray.
Proof. intros i. unfold kinds2. destruct (Nat.eqb i 0); discriminate. Qed.
