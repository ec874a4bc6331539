(* C06: block size does not change the sound. *)

From Coq Require Import ZArith List.
From Verif Require Import Machine Floats CacheModel ReaderModel ReaderFacts.
Import ListNotations.
Local Open Scope Z_scope.

(* Two successive reads are one longer read: same samples, same final state *)
Theorem C06_split : forall fuel r n m l1 r1 l2 r2,
  0 <= n -> 0 <= m ->
  r_read fuel r n = Ok (l1, r1) -> r_read fuel r1 m = Ok (l2, r2) ->
  exists fuel', r_read fuel' r (n + m) = Ok (l1 ++ l2, r2).
Proof. exact r_read_split. Qed.

(* One read can be cut anywhere *)
Theorem C06_unsplit : forall fuel r n m l r2,
  0 <= n -> 0 <= m ->
  r_read fuel r (n + m) = Ok (l, r2) ->
  exists fuel' l1 r1 l2, r_read fuel' r n = Ok (l1, r1) /\ r_read fuel' r1 m = Ok (l2, r2) /\
    l = l1 ++ l2.
Proof. exact r_read_unsplit. Qed.

(* The hypotheses hold on a ping-pong playback with linear interpolation at rate
   3/4 over an array of 5 samples: 4 frames, then 5 more across the turn. *)
Example C06_case :
  let m := mkMem 10 (fun i => 3 * i + 1) in
  let r0 := setInterpolationType (setLoopType (new_reader KArray) LPingpong) ILinear in
  (r1 <- setPlaybackRate r0 (d_of_me 3 (-2)) ;;
   r2 <- playRaw_array r1 m 0 5 1 ;;
   '(l1, r3) <- r_read 20 r2 4 ;;
   '(l2, r4) <- r_read 20 r3 5 ;;
   Ok (l1, l2)) =
  Ok ([[0]; [1025]; [1796]; [2952]], [[4109]; [5265]; [6422]; [7193]; [7193]]).
Proof. vm_compute. reflexivity. Qed.

Print Assumptions C06_split.
Print Assumptions C06_unsplit.
