(* Cases for C08 and C77. *)

From Coq Require Import ZArith Lia List Bool Reals Lra.
From RecordUpdate Require Import RecordUpdate.
From Flocq Require Import Core.Core IEEE754.BinarySingleNaN.
From Verif Require Import Machine Floats FloatFacts WavModel InterpModel CacheModel CacheFacts ReaderModel ReaderSpec ReplayCases FadeCases DriftProofs.
Import ListNotations.
Local Open Scope Z_scope.

Fixpoint drive (fuel : nat) (r : reader) (l : list (b64 * Z)) : option (list (b64 * nat) * reader) :=
  match l with
  | [] => Some ([], r)
  | (x, n) :: l =>
      match setPlaybackRate r x with
      | Ok r1 => if (r_pos1 r1 =? r_pos1 r) && is_finite x then
          match r_read fuel r1 n with
          | Ok (fs, r2) => match drive fuel r2 l with Some (s, r3) => Some ((x, length fs) :: s, r3) | None => None end
          | _ => None
          end else None
      | _ => None
      end
  end.
Lemma drive_driven : forall fuel l r s r', drive fuel r l = Some (s, r') -> driven fuel r s r'.
Proof.
  intros fuel. induction l as [|[x n] l IH]; intros r s r' H; cbn [drive] in H.
  - injection H as <- <-. constructor.
  - destruct (setPlaybackRate r x) as [r1| |] eqn:E; try discriminate. destruct (Z.eqb_spec (r_pos1 r1) (r_pos1 r)); [|discriminate].
    destruct (is_finite x) eqn:F; [|discriminate]. cbn [andb] in H. destruct (r_read fuel r1 n) as [[fs r2]| |] eqn:E2; try discriminate.
    destruct (drive fuel r2 l) as [[s2 r3]|] eqn:D; [|discriminate]. injection H as <- <-. econstructor; eauto.
Qed.

(* 0.1, 3, 0.75, -1.3 frames per frame *)
Definition some_rates : list (b64 * Z) := [(d_of_f (f_of_d (ddiv d1 (d_of_Z 10))), 5); (d_of_Z 3, 2); (d_of_me 3 (-2), 4); (dneg (ddiv (d_of_Z 13) (d_of_Z 10)), 3)].
Definition drift_check (r : reader) : bool :=
  match drive 20 r some_rates with
  | Some (s, r') => match list_eq_dec Nat.eq_dec (map snd s) [5%nat; 2%nat; 4%nat; 3%nat] with left _ => r_pos1 r' =? 6 | _ => false end
  | None => false
  end.
Theorem drift_case : exists r s r', playRaw_array (at_rate d1 INone LNone) (ramp 16) 0 16 1 = Ok r /\ one_way r /\
  driven 20 r s r' /\ map snd s = [5%nat; 2%nat; 4%nat; 3%nat] /\ r_pos1 r' = 6.
Proof.
  assert (C : exists r, playRaw_array (at_rate d1 INone LNone) (ramp 16) 0 16 1 = Ok r /\ drift_check r && (negb (r_dual r) && loop_eqb (r_loop r) LNone && (r_nch r =? 1) && (is_finite (r_rem r) && deq (r_rem r) d0)) = true)
    by (apply case_of; vm_compute; reflexivity).
  destruct C as (r & E & C). apply andb_true_iff in C. destruct C as [C W]. unfold drift_check in C. destruct (drive 20 r some_rates) as [[s r']|] eqn:D; [|discriminate].
  destruct (list_eq_dec _ _ _) as [L|]; [|discriminate]. exists r, s, r'. split; [exact E|]. split; [|split; [now apply drive_driven in D|split; [exact L|now apply Z.eqb_eq]]].
  apply andb_true_iff in W. destruct W as [W W4]. apply andb_true_iff in W. destruct W as [W W3]. apply andb_true_iff in W. destruct W as [W1 W2].
  apply Z.eqb_eq in W3. unfold one_way. rewrite W3. split; [now apply negb_true_iff|]. split; [destruct (r_loop r); try discriminate; reflexivity|]. split; [lra|].
  apply andb_true_iff in W4. destruct W4 as [F W4]. split; [exact F|].
  rewrite deq_R in W4 by auto using fin_d0. rewrite R64_d0 in W4. destruct (Req_bool_spec (R64 (r_rem r)) 0) as [->|]; [|discriminate]. rewrite Rabs_R0. lra.
Qed.
(* 2^31 frames per frame *)
Theorem rate_too_big : exists r r1, playRaw_array (at_rate d1 INone LNone) (ramp 16) 0 16 1 = Ok r /\
  is_finite (d_of_Z (2 ^ 31)) = true /\ setPlaybackRate r (d_of_Z (2 ^ 31)) = Ok r1 /\ r_read 20 r1 1 = UB UbFloatToInt.
Proof.
  assert (C : exists r1, (r <- playRaw_array (at_rate d1 INone LNone) (ramp 16) 0 16 1 ;; setPlaybackRate r (d_of_Z (2 ^ 31))) = Ok r1 /\ conv_ub (r_read 20 r1 1) = true)
    by (apply case_of; vm_compute; reflexivity).
  destruct C as (r1 & E & C). apply bind_ok in E. destruct E as (r & E & E1). exists r, r1. split; [exact E|]. split; [reflexivity|]. split; [exact E1|]. now apply conv_ub_eq.
Qed.
