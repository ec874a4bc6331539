(* C36-C39, C58 and C59: masking of the event response, and the event queues. *)

From Coq Require Import ZArith Lia List Bool.
From RecordUpdate Require Import RecordUpdate.
From Verif Require Import Machine ResponderModel ResponderSpec ResponderProofs QueueProofs.
Import ListNotations.
Local Open Scope Z_scope.

(* ---- C36 ---- *)

(* After any properly nested history: at depth 0 exactly the checks there were before and
   those switched on since; deeper, the same without the event response. *)
Theorem C36_nested : forall s l, s_force s = false -> s_count s = 0 -> 0 <= s_flags s < 256 ->
  Forall mop_sane l -> nested l ->
  s_flags (mop_runs l s) = (if mdepth l =? 0 then wanted (s_flags s) l else mask_evr (wanted (s_flags s) l)) /\
  s_count (mop_runs l s) = mdepth l.
Proof. exact masked_inside. Qed.

(* Masking switches off the event response and nothing else *)
Theorem C36_mask : forall w n, 0 <= n < 8 -> Z.testbit (mask_evr w) n = Z.testbit w n && negb (n =? 2).
Proof. exact mask_bits. Qed.

Definition c36_hist : list mop := [MDisable; MAttach 0; MDisable; MOther 1; MEnable; MAttach 1; MEnable].
Example C36_case : nested c36_hist /\ Forall mop_sane c36_hist /\ mdepth c36_hist = 0 /\ wanted 2 c36_hist = 7 /\
  s_flags (mop_runs (removelast c36_hist) (sys0 2)) = 3.
Proof.
  split; [|split; [|repeat split; reflexivity]].
  - intros p q E. do 7 (destruct p as [|? p]; [cbn; lia|injection E as <- E]).
    destruct p as [|? p]; [cbn; lia|discriminate].
  - repeat constructor; lia.
Qed.

(* ---- C37 ---- *)

(* Any number of players attached for polling, any history of triggers and runPolled():
   the results and the events run are those of a queue. *)
Theorem C37_fifo : forall f ps l, Forall served l ->
  exists s', runs pop_run (map PPlay ps ++ l) (sys0 f) = Ok (fst (specs pop_spec (map PPlay ps ++ l) att_none), s').
Proof. exact polled_fifo. Qed.

(* Also with players stopped and replayed while idle, and the first in the queue detached *)
Theorem C37_calm : forall f l, calm_run l att_none ->
  exists s', runs pop_run l (sys0 f) = Ok (fst (specs pop_spec l att_none), s').
Proof. exact polled_queue. Qed.

Example C37_case : fst (specs pop_spec
    ([PPlay 0; PPlay 1; PPlay 2] ++ [PTrigger 2 1; PTrigger 0 1; PTrigger 2 2; PRun; PTrigger 1 1; PRun; PRun; PRun]) att_none)
  = [None; None; None; None; None; None; Some (1, Some (2%nat, 2)); None; Some (1, Some (0%nat, 1)); Some (0, Some (1%nat, 1)); Some (-1, None)].
Proof. reflexivity. Qed.

Example C37_calm_case : calm_run [PPlay 0; PPlay 1; PTrigger 0 1; PTrigger 1 1; PDetach 0; PRun; PStop 1; PPlay 0; PTrigger 0 2; PRun] att_none.
Proof. cbn. repeat split; auto. right. eauto. Qed.

(* ---- C38 ---- *)

(* Refuted: the second of two pending players is detached; its event is run all the same *)
Definition detach_second : list pop := [PPlay 0; PPlay 1; PTrigger 0 1; PTrigger 1 1; PDetach 1; PRun; PRun].
Definition outputs {S O R} (x : res (list R * S)) (o : O) : option (list R) := match x with Ok (l, _) => Some l | _ => None end.
Theorem C38_refuted :
  outputs (runs pop_run detach_second (sys0 EVR)) tt = Some [None; None; None; None; None; Some (1, Some (0%nat, 1)); Some (0, Some (1%nat, 1))] /\
  fst (specs pop_spec detach_second att_none) = [None; None; None; None; None; Some (0, Some (0%nat, 1)); Some (-1, None)].
Proof. split; vm_compute; reflexivity. Qed.

(* True of the player whose event is first: detaching it after any calm history removes
   its event and no other, whatever is triggered and run afterwards *)
Theorem C38_first_partial : forall f l1 l2 i st q, calm_run l1 att_none ->
  snd (snd (specs pop_spec l1 att_none)) = (i, st) :: q -> Forall served l2 ->
  exists s', runs pop_run (l1 ++ PDetach i :: l2) (sys0 f) = Ok (fst (specs pop_spec (l1 ++ PDetach i :: l2) att_none), s').
Proof. exact detach_first. Qed.

Example C38_first_case : let l1 := [PPlay 0; PPlay 1; PTrigger 1 1; PTrigger 0 1] in
  calm_run l1 att_none /\ snd (snd (specs pop_spec l1 att_none)) = [(1%nat, 1); (0%nat, 1)] /\
  fst (specs pop_spec (l1 ++ PDetach 1 :: [PRun; PRun]) att_none) = [None; None; None; None; None; Some (0, Some (0%nat, 1)); Some (-1, None)].
Proof. repeat split; reflexivity. Qed.

(* ---- C39 ---- *)

(* Refuted: two players have events pending; the first is stopped and triggered again.
   Once that is run the second player's event is lost, and however long players go on
   triggering and the sketch polling, the second is never run again. *)
Theorem C39_refuted : forall l, Forall served l ->
  exists o s', runs pop_run (stop_between ++ l) (sys0 EVR) = Ok (o, s') /\ ~ In 1%nat (events_run o).
Proof. exact stop_loses. Qed.

Example C39_owed : events_run (fst (specs pop_spec (stop_between ++ [PRun]) att_none)) = [1%nat; 0%nat].
Proof. reflexivity. Qed.

(* Refuted too: its own event is not cancelled.  A close requested by one playback closes
   the next one. *)
Theorem C39_own_refuted :
  outputs (runs pop_run [PPlay 0; PTrigger 0 2; PPlay 0; PRun] (sys0 EVR)) tt = Some [None; None; None; Some (0, Some (0%nat, 2))] /\
  fst (specs pop_spec [PPlay 0; PTrigger 0 2; PPlay 0; PRun] att_none) = [None; None; None; Some (-1, None)].
Proof. split; vm_compute; reflexivity. Qed.

(* True while a player is only stopped or replayed with nothing pending *)
Theorem C39_idle_partial : forall f l, calm_run l att_none ->
  exists s', runs pop_run l (sys0 f) = Ok (fst (specs pop_spec l att_none), s').
Proof. exact polled_queue. Qed.

(* ---- C58 ---- *)

(* In yield mode all of this holds, for every history over any number of players *)
Theorem C58_yield : forall f l, exists s', runs yop_run l (sys0 f) = Ok (fst (specs yop_spec l att_none), s').
Proof. exact yield_queue. Qed.

Example C58_case : fst (specs yop_spec
    [YAttach 0; YAttach 1; YAttach 2; YTrigger 0 1; YTrigger 1 1; YTrigger 2 1; YTrigger 1 2; YClear 0; YDetach 2; YTrigger 0 2; YRun; YRun; YRun] att_none)
  = [None; None; None; None; None; None; None; None; None; None; Some (Some (1%nat, 2)); Some (Some (0%nat, 2)); Some None].
Proof. reflexivity. Qed.

(* ---- C59 ---- *)

(* A player stopped while second in the yield queue keeps a stale _prev; played again in
   polled mode, servicing its first event dereferences a null pointer *)
Definition switch_modes : res (Z * option (nat * Z) * rsys) :=
  s1 <- triggerEvent 0 1 (attach 1 (attach 0 (sys0 EVR))) ;;
  s2 <- triggerEvent 1 1 s1 ;;
  s3 <- attachPolled 1 (clearEvent 1 s2) ;;
  s4 <- triggerEvent 1 1 s3 ;;
  runPolled s4.
Theorem C59_switch : switch_modes = UB UbNull.
Proof. vm_compute. reflexivity. Qed.

Print Assumptions C36_nested.
Print Assumptions C36_mask.
Print Assumptions C37_fifo.
Print Assumptions C37_calm.
Print Assumptions C38_refuted.
Print Assumptions C38_first_partial.
Print Assumptions C39_refuted.
Print Assumptions C39_own_refuted.
Print Assumptions C39_idle_partial.
Print Assumptions C58_yield.
Print Assumptions C59_switch.
