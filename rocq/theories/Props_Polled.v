(* C96, C97: the end of a file with polled events. *)

From Coq Require Import ZArith Lia List Bool.
From Verif Require Import Machine ReaderModel ResponderModel PlayerModel LifeSpec PlayerCases PolledSpec PolledProofs PolledCases.
Import ListNotations.
Local Open Scope Z_scope.

(* ---- C96 ---- *)

(* setForceResponse(true) first, files on players below N.  From the update in which file player
   i runs out on, any history without calls on player i: after N calls of runPolled() it has
   stopped.  Assumed throughout: players are stopped or played only when the event of each
   was served, as told by runPolled() returning at most 0 since its last update *)
Theorem C96_polled : forall kinds flags N l1 fuel xs1 w i alloc frames r1 acts w1 l2 xs2 w2,
  Forall (wop_ok kinds) l1 -> Forall polled_mode l1 -> (forall o j, In o l1 -> plays_file o j -> (j < N)%nat) ->
  wops fuel (WForce true :: l1) (world0 kinds flags) = Ok (xs1, w) ->
  kinds i <> KArray -> r_playing (w_rd w i) = true ->
  r_read fuel (w_rd w i) 128 = Ok (frames, r1) -> (length frames < 128)%nat ->
  (forall c, alloc c <> None) -> w_update fuel i alloc w = Ok (acts, w1) ->
  Forall (wop_ok kinds) l2 -> Forall (leaves_p i) l2 -> wops fuel l2 w1 = Ok (xs2, w2) ->
  drained fuel (WForce true :: l1 ++ WUpdate i alloc :: l2) (world0 kinds flags) (fun _ => false) ->
  (N <= polls l2)%nat -> r_playing (w_rd w2 i) = false.
Proof. exact polled_stops. Qed.

Example C96_case : exists xs w, wops 200 (WForce true :: poll_hist) (world0 kinds3 2) = Ok (xs, w) /\
  Forall (wop_ok kinds3) poll_hist /\ Forall polled_mode poll_hist /\ (forall o j, In o poll_hist -> plays_file o j -> (j < 3)%nat) /\
  Forall (wop_ok kinds3) poll_rest /\ Forall (leaves_p 0) poll_rest /\ polls poll_rest = 3%nat /\
  drained 200 (WForce true :: poll_hist ++ WUpdate 0 give :: poll_rest) (world0 kinds3 2) (fun _ => false) /\
  r_playing (w_rd w 0) = true /\ (exists f r, r_read 200 (w_rd w 0) 128 = Ok (f, r) /\ (length f < 128)%nat) /\
  exists a w1 ys w2, w_update 200 0 give w = Ok (a, w1) /\ r_playing (w_rd w1 0) = true /\
    wops 200 poll_rest w1 = Ok (ys, w2) /\ r_playing (w_rd w2 0) = false.
Proof.
  destruct (wops_with (wops 200 (WForce true :: poll_hist) (world0 kinds3 2)) poll_check) as (xs & w & E & H); [vm_compute; reflexivity|].
  exists xs, w. split; [exact E|]. split; [repeat constructor|]. split; [repeat constructor|]. split; [|split; [repeat constructor|]].
  - intros o j I P. cbn [poll_hist In] in I. repeat (destruct I as [<-|I]; [cbn in P; try contradiction; subst j; lia|]). destruct I.
  - split; [repeat constructor; cbn; lia|]. split; [reflexivity|]. split; [exact poll_drained|]. exact (poll_check_inv xs w H).
Qed.

(* ---- C97 ---- *)

(* False without that assumption: player 0 is played anew while its reload is still pending, and
   player 1, at its end with the close requested, plays for ever, whatever the number of updates and polls *)
Theorem C97_refuted : exists xs w, wops 200 replayed (world0 sd_only 2) = Ok (xs, w) /\
  ~ drained 200 replayed (world0 sd_only 2) (fun _ => false) /\
  forall fuel l ys w', Forall idle_op l -> wops fuel l w = Ok (ys, w') -> exhausted (w_rd w' 1).
Proof. exact replay_never_ends. Qed.

(* Eight polls, say *)
Example C97_case : exists xs w, wops 200 (replayed ++ rounds) (world0 sd_only 2) = Ok (xs, w) /\ replayed_check xs w = true.
Proof. apply wops_with. vm_compute. reflexivity. Qed.

Print Assumptions C96_polled.
Print Assumptions C97_refuted.
