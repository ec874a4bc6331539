(* Runs of players of all four kinds (C125, C126). *)

From Coq Require Import ZArith Lia List Bool Reals Lra.
From Flocq Require Import Core.Core IEEE754.BinarySingleNaN.
From Verif Require Import Machine Floats FloatFacts WavModel WavSpec WavPlayProofs CacheModel CacheFacts CacheFinal ReaderModel ReaderSpec ResponderModel PlayerModel
  LifeSpec FileForward WavFinal PlayerCases PolledSpec PolledCases SketchRuns ManySpec ManyCases FleetSpec FleetPolled.
Import ListNotations.
Local Open Scope Z_scope.

(* SD, slow array, LittleFS, serial flash, fast array *)
Definition kinds5 (i : nat) : rkind := match i with 0%nat => KSd | 1%nat | 4%nat => KArray | 2%nat => KLfs | _ => KFlash end.
Definition slow5 (i : nat) : bool := Nat.eqb i 1.

Lemma rate_half : onwards (ddiv (d_of_Z 1) (d_of_Z 2)) /\ (R64 (ddiv (d_of_Z 1) (d_of_Z 2)) <= 1)%R.
Proof.
  assert (E : R64 (ddiv (d_of_Z 1) (d_of_Z 2)) = (1 / 2)%R) by (unfold R64; cbn; unfold F2R; cbn; lra).
  assert (IZR (2 ^ 26) = 67108864%R) by reflexivity. split; [split; [reflexivity|]|]; rewrite E; lra.
Qed.
Lemma wav_ex_mem : mem_wav (mem_of wav_ex).
Proof.
  destruct wav_ex_array as (B & HI & HS & _ & DC & CH & HO). split; [exact B|]. split; [exact HI|]. split; [exact HS|]. exists 2%nat. split; [exact CH|]. split; [lia|].
  intros tags n D. destruct (data_chunk_unique _ _ _ _ _ B D DC) as [-> ->]. exact HO.
Qed.

Definition all_five : list wop :=
  [WCall 1 (CInterp IQuadratic); WCall 0 (CInterp IQuadratic); play_wav 2; play_arr 1 300; play_ramp 0 3000; play_ramp 3 2000; WPlayWav 4 (mem_of wav_ex);
   WUpdate 0 give; WUpdate 1 give; WUpdate 2 give; WUpdate 3 give; WUpdate 4 stingy; WYield; WCall 1 (CRate (ddiv (d_of_Z 1) (d_of_Z 2)));
   WCall 3 (CRate (ddiv (d_of_Z 3) (d_of_Z 2))); WUpdate 1 give; WUpdate 3 give; WStop 4 [(1%nat, give); (3%nat, give)]; WPlayWavLen 4 (mem_of wav_ex) 10 5; WUpdate 4 give;
   play_arr 4 200; WCall 4 (CLoopStart 12345); WCall 4 (CRate (ddiv (d_of_Z 3) (d_of_Z 2))); WUpdate 4 give; WYield; WYield; WCall 1 CReload; WUpdate 4 give; play_none 2; WUpdate 0 give].
Lemma all_five_ok : Forall (mild_any kinds5 slow5) all_five.
Proof.
  assert (Z : bytes_ok (fun _ => 0)) by (intros i; split; cbn; lia).
  assert (W : mild_any kinds5 slow5 (play_wav 2)). { split; [discriminate|]. split; [exact Z|]. split; [discriminate|]. intros fl E. injection E as <-. exact wav_ex_any. }
  assert (R : forall i n, kinds5 i <> KArray -> 0 <= n < 2 ^ 30 -> mild_any kinds5 slow5 (play_ramp i n)).
  { intros i n K B. split; [exact K|]. split; [exact Z|]. split; [lia|]. intros fl E. injection E as <-. exact B. }
  assert (P : forall i n, kinds5 i = KArray -> 0 <= n < 2 ^ 29 -> mild_any kinds5 slow5 (play_arr i n)).
  { intros i n K B. split; [exact K|]. exists 1%nat. split; [reflexivity|]. split; [lia|]. unfold array_holds. change (Z.of_nat 1) with 1. cbn [msize ramp_mem]. lia. }
  assert (N : mild_any kinds5 slow5 (play_none 2)). { split; [discriminate|]. split; [exact Z|]. split; [discriminate|]. discriminate. }
  assert (V : mild_any kinds5 slow5 (WPlayWav 4 (mem_of wav_ex))) by (split; [reflexivity|exact wav_ex_mem]).
  assert (L : mild_any kinds5 slow5 (WPlayWavLen 4 (mem_of wav_ex) 10 5)) by (split; [reflexivity|vm_compute; split; congruence]).
  assert (C1 : mild_any kinds5 slow5 (WCall 1 (CRate (ddiv (d_of_Z 1) (d_of_Z 2))))) by (split; [exact (proj1 rate_half)|intros _; exact (proj2 rate_half)]).
  assert (C2 : mild_any kinds5 slow5 (WCall 4 (CRate (ddiv (d_of_Z 3) (d_of_Z 2))))) by (split; [exact rate_15|discriminate]).
  assert (C3 : mild_any kinds5 slow5 (WCall 1 (CInterp IQuadratic))) by (split; [exact I|discriminate]).
  unfold all_five. repeat (constructor; [first [exact I | exact W | exact N | exact V | exact L | exact C1 | exact C2 | exact C3 | exact rate_15 | split; exact I
    | apply R; [discriminate|lia] | apply P; [reflexivity|lia] ]|]). constructor.
Qed.
Lemma all_five_run : match wops 300 all_five (world0 kinds5 2) with Ok (xs, _) => (starts_of xs, length (filter is_sent xs)) | _ => ([], O) end
  = ([true; true; true; true; true; true; true; false], 11%nat).
Proof. vm_compute. reflexivity. Qed.

(* In polled mode *)
Definition five_polled : list wop :=
  [play_wav 2; play_arr 1 300; play_ramp 0 3000; play_ramp 3 2000; WPlayWav 4 (mem_of wav_ex);
   WUpdate 0 give; WUpdate 1 give; WUpdate 2 give; WPoll; WUpdate 3 give; WPoll; WPoll; WCall 3 (CRate (ddiv (d_of_Z 3) (d_of_Z 2))); WUpdate 3 give; WPoll; WPoll; WPoll;
   WStop 0 [(1%nat, give)]; play_arr 4 200; WUpdate 4 give; WPoll; play_ramp 2 300; WUpdate 2 give; WForce true; WPoll; WPoll].
Lemma five_polled_ok : Forall (mild_polled kinds5 slow5) five_polled.
Proof.
  assert (Z : bytes_ok (fun _ => 0)) by (intros i; split; cbn; lia).
  assert (W : mild_polled kinds5 slow5 (play_wav 2)). { split; [discriminate|]. split; [exact Z|]. split; [discriminate|]. intros fl E. injection E as <-. exact wav_ex_any. }
  assert (R : forall i n, kinds5 i <> KArray -> 0 <= n < 2 ^ 30 -> mild_polled kinds5 slow5 (play_ramp i n)).
  { intros i n K B. split; [exact K|]. split; [exact Z|]. split; [lia|]. intros fl E. injection E as <-. exact B. }
  assert (P : forall i n, kinds5 i = KArray -> 0 <= n < 2 ^ 29 -> mild_polled kinds5 slow5 (play_arr i n)).
  { intros i n K B. split; [exact K|]. exists 1%nat. split; [reflexivity|]. split; [lia|]. unfold array_holds. change (Z.of_nat 1) with 1. cbn [msize ramp_mem]. lia. }
  assert (V : mild_polled kinds5 slow5 (WPlayWav 4 (mem_of wav_ex))) by (split; [reflexivity|exact wav_ex_mem]).
  unfold five_polled. repeat (constructor; [first [exact I | exact eq_refl | exact W | exact V | exact rate_15 | apply R; [discriminate|lia] | apply P; [reflexivity|lia] ]|]). constructor.
Qed.
Definition five_shape (x : res (list wout * world)) : option (list bool * nat) :=
  match x with Ok (xs, _) => Some (starts_of xs, length (filter is_sent xs)) | _ => None end.
Lemma five_polled_run : five_shape (wops 300 (WForce true :: five_polled) (world0 kinds5 2)) = Some ([true; true; true; true; true; true; true], 8%nat).
Proof. vm_compute. reflexivity. Qed.
Lemma five_polled_drained : forall fuel, drained fuel (WForce true :: five_polled) (world0 kinds5 2) (fun _ => false).
Proof.
  assert (D : drained 300 (WForce true :: five_polled) (world0 kinds5 2) (fun _ => false)) by (apply drainedb_ok; vm_compute; reflexivity).
  pose proof five_polled_run as R. revert D R. generalize (WForce true :: five_polled). generalize (world0 kinds5 2). intros w l D R.
  destruct (wops 300 l w) as [y| |] eqn:E; try discriminate. exact (drained_any _ _ _ _ _ D E).
Qed.
