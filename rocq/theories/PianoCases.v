(* Runs of the piano example (C118-C121). *)

From Coq Require Import ZArith Lia List Bool Reals Lra.
From Flocq Require Import Core.Core IEEE754.BinarySingleNaN.
From Verif Require Import Machine Floats FloatFacts WavModel WavSpec WavFinal CacheModel CacheFacts ReaderModel ResponderModel PlayerModel LifeSpec PlayerCases SketchModel ManySpec ManyCases
  PianoModel PianoSpec PianoScore.
Import ListNotations.
Local Open Scope Z_scope.

(* A stand-in for pow(): 3/4, 1 or 3/2, by the sign of the exponent *)
Definition pow_ex (_ y : b64) : b64 :=
  match y with B754_finite true _ _ _ => ddiv (d_of_Z 3) (d_of_Z 4) | B754_finite false _ _ _ => ddiv (d_of_Z 3) (d_of_Z 2) | _ => d1 end.
Lemma rate_34 : onwards (ddiv (d_of_Z 3) (d_of_Z 4)).
Proof.
  split; [reflexivity|]. assert (E : R64 (ddiv (d_of_Z 3) (d_of_Z 4)) = (3 / 4)%R) by (unfold R64; cbn; unfold F2R; cbn; lra).
  rewrite E. assert (IZR (2 ^ 26) = 67108864%R) by reflexivity. lra.
Qed.
Lemma rate_one : onwards d1.
Proof.
  split; [reflexivity|]. assert (E : R64 d1 = 1%R) by (unfold R64; cbn; unfold F2R; cbn; lra).
  rewrite E. assert (IZR (2 ^ 26) = 67108864%R) by reflexivity. lra.
Qed.
Lemma pow_ex_ok : pow_ok pow_ex.
Proof.
  intros sh H. assert (C : sh = -3 \/ sh = -2 \/ sh = -1 \/ sh = 0 \/ sh = 1 \/ sh = 2) by lia.
  generalize (semitone pow_ex). intros z. unfold pow_ex.
  destruct C as [->|[->|[->|[->|[-> | ->]]]]]; cbv iota; [exact rate_34|exact rate_34|exact rate_34|exact rate_one|exact rate_15|exact rate_15].
Qed.
(* One of the nine samples is on the card *)
Definition card_ex (idx : Z) : option file := if idx =? 4 then Some (mkfile wav_ex) else None.
Lemma card_ex_ok : card_ok card_ex.
Proof. intros idx fl E. unfold card_ex in E. destruct (idx =? 4); [|discriminate]. injection E as <-. exact wav_ex_any. Qed.

(* A pass at time now: an update of player 0 without enough memory in the first two gaps *)
Definition pass_at (now : Z) (env : nat -> bool) : ppass :=
  mkPass now now env (fun k => if Nat.ltb k 2 then [Some (0%nat, stingy)] else []) (fun _ => []) (fun _ => 0) (fun _ _ => 0).
Definition env01 (i : nat) : bool := Nat.ltb i 2.
Definition env1 (i : nat) : bool := Nat.eqb i 1.
(* Middle C, a sharp on the other voice at 250 ms, a note that is too low, the first off *)
Definition tune : list event := [On 0 60 90; Wait 0 250; On 1 62 127; On 2 32 90; Off 0].
Definition tune_passes : list ppass := [pass_at 0 env01; pass_at 1 env01; pass_at 250 env01; pass_at 251 env01; pass_at 252 env01; pass_at 253 env01; pass_at 254 env1; pass_at 255 env1].
Lemma tune_ok : Forall event_ok tune /\ Forall pass_ok tune_passes.
Proof.
  split; [apply events_okb_ok; vm_compute; reflexivity|]. assert (Z : bytes_ok (fun _ => 0)) by (intros i; split; cbn; lia).
  unfold tune_passes. repeat (constructor; [exact Z|]). constructor.
Qed.
Definition playing_of (w : world) : list bool := map (fun i => r_playing (w_rd w i)) (seq 0 3).
Lemma tune_run : match play_piano pow_ex card_ex (mem_of (score_bytes tune 0 [])) 300 2 tune_passes with Ok (acts, s) => Some (acts, playing_of (pn_world s)) | _ => None end
  = Some ([PNote 0 4 0; PWait; PNote 1 4 2; PSkip 2; POff 0; PEnd], [false; true; false]).
Proof. vm_compute. reflexivity. Qed.

Lemma tune_start : match play_piano pow_ex card_ex (mem_of (score_bytes tune 0 [])) 300 2 (firstn 1 tune_passes) with Ok (_, s) => playing_of (pn_world s) | _ => [] end
  = [true; false; false].
Proof. vm_compute. reflexivity. Qed.

(* Generator 8 of 16; the end of a score that asks for a restart *)
Lemma channel_refuted : exists card score fuel l, card_ok card /\ Forall pass_ok l /\ score = [144 + 8; 60; 90; 240] /\
  play_piano pow_ex card (mem_of score) fuel 2 l = UB UbOutOfBounds.
Proof.
  exists card_ex, [144 + 8; 60; 90; 240], 300%nat, [pass_at 0 env01]. split; [exact card_ex_ok|]. split; [|split; [reflexivity|vm_compute; reflexivity]].
  constructor; [|constructor]. intros i; split; cbn; lia.
Qed.
Lemma restart_refuted : exists card score fuel l, card_ok card /\ Forall pass_ok l /\ score = flat_map event_bytes [On 0 60 90; Wait 0 250] ++ [224] /\
  play_piano pow_ex card (mem_of score) fuel 2 l = UB UbOutOfBounds.
Proof.
  eexists card_ex, _, 300%nat, [pass_at 0 env01; pass_at 1 env01; pass_at 251 env01]. split; [exact card_ex_ok|]. split; [|split; [reflexivity|vm_compute; reflexivity]].
  repeat (constructor; [intros i; split; cbn; lia|]). constructor.
Qed.
