(* Histories of calls on an array player, for C13, C14, C15. *)

From Coq Require Import ZArith List Bool Reals.
From RecordUpdate Require Import RecordUpdate.
From Flocq Require Import Core.Core IEEE754.BinarySingleNaN.
From Verif Require Import Machine Floats CacheModel ReaderModel ReaderSpec.
Import ListNotations.
Local Open Scope Z_scope.

(* The calls *)
Inductive aop :=
| OpPlay (m : mem) (off len : Z) (nch : nat)    (* playRaw(array, len, nch) *)
| OpRestart                                     (* play() *)
| OpRead (n : nat)
| OpRate (x : b64)
| OpLoopType (l : loop_type)
| OpLoopStart (v : Z)
| OpLoopFinish (v : Z)
| OpPlayStart (p : play_start) (v : Z)
| OpStop
| OpClose.

(* Their effect; the frames delivered *)
Definition aop_run (fuel : nat) (o : aop) (r : reader) : res (list (list Z) * reader) :=
  match o with
  | OpPlay m off len nch => r' <- playRaw_array r m off len (Z.of_nat nch) ;; Ok ([], r')
  | OpRestart => r' <- r_play r ;; Ok ([], r')
  | OpRead n => r_read fuel r (Z.of_nat n)
  | OpRate x => r' <- setPlaybackRate r x ;; Ok ([], r')
  | OpLoopType l => Ok ([], setLoopType r l)
  | OpLoopStart v => Ok ([], setLoopStart r v)
  | OpLoopFinish v => Ok ([], setLoopFinish r v)
  | OpPlayStart p v => Ok ([], setPlayStart r p v)
  | OpStop => Ok ([], r_stop r)
  | OpClose => Ok ([], r_close r)
  end.

(* A start inside the sample, at a frame boundary *)
Definition start_inside (r : reader) (len : Z) (nch : nat) : Prop :=
  match r_pstart r with
  | PSample => dle d0 (r_rate r) = true \/ (Z.of_nat nch | len)
  | PLoop => True
  | PArbitrary => 0 <= r_pbstart r < len
  end.

(* Correct use: arrays as long as declared, loop bounds inside the sample, start
   position inside the sample, rates up to 2^14, no change to reverse while the
   head is past the end, and while the rate is zero at least nch frames before
   the loop finish *)
Definition parked (x : b64) (nch v : Z) : Prop := B2R x = 0%R -> nch <= v.

Definition aop_ok (o : aop) (r : reader) : Prop :=
  match o with
  | OpPlay m off len nch => array_holds m off len nch /\ start_inside r len nch /\
      parked (r_rate r) (Z.of_nat nch) len
  | OpRestart => r_src r <> SNull /\ start_inside r (r_fsamples r) (Z.to_nat (r_nch r))
  | OpRead n => True
  | OpRate x => is_finite x = true /\ (Rabs (B2R x) <= IZR (2 ^ 14))%R /\
      (dlt x d0 = true -> r_pos1 r <= 0 \/ r_pos1 r < r_fsamples r * r_nch r) /\
      parked x (r_nch r) (r_lf r)
  | OpLoopType l => True
  | OpLoopStart v => 0 <= v <= r_fsamples r
  | OpLoopFinish v => 0 <= v <= r_fsamples r /\ parked (r_rate r) (r_nch r) v
  | OpPlayStart p v => True
  | OpStop => True
  | OpClose => True
  end.

(* The states such histories lead to *)
Inductive reach : reader -> Prop :=
| reach_new : reach (new_reader KArray)
| reach_op : forall fuel o r out r', reach r -> aop_ok o r -> aop_run fuel o r = Ok (out, r') -> reach r'.

(* First frame of the loop when moving backwards *)
Definition low (r : reader) : Z := match r_pstart r with PSample => 0 | _ => r_ls r end.

(* A loop that can be played: not empty; and backwards the restart frame, which
   is nch frames before the finish, is in the loop *)
Definition loop_good (r : reader) : Prop :=
  r_loop r <> LNone /\ r_ls r < r_lf r /\
  (r_loop r = LRepeat -> dle d0 (r_rate r) = false -> low r <= r_lf r - r_nch r).

(* A frame of the source *)
Definition good_frame (m : mem) (off : Z) (nch : nat) (len : Z) (v : list Z) : Prop :=
  exists i, 0 <= i < len /\ v = src_frame m off nch i.

(* A whole history; the frames delivered by each call *)
Fixpoint aop_runs (fuel : nat) (os : list aop) (r : reader) : res (list (list (list Z)) * reader) :=
  match os with
  | [] => Ok ([], r)
  | o :: os' =>
      '(b, r1) <- aop_run fuel o r ;;
      '(bs, r2) <- aop_runs fuel os' r1 ;;
      Ok (b :: bs, r2)
  end.
