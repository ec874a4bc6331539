(* Specification vocabulary for the event responder: masking depth, and event queues
   as plain lists. *)

From Coq Require Import ZArith List Bool.
From RecordUpdate Require Import RecordUpdate.
From Verif Require Import Machine ResponderModel.
Import ListNotations.
Local Open Scope Z_scope.

(* ---- masking ---- *)

(* What may happen to the masks: nested disable/enable, a player attaching its
   response (attach() then updateResponse(), as playRaw and playWav do), and other code
   switching on other yield checks *)
Inductive mop := MDisable | MEnable | MAttach (i : nat) | MOther (bits : Z).

Definition mop_run (o : mop) (s : rsys) : rsys :=
  match o with
  | MDisable => disableResponse s
  | MEnable => enableResponse s
  | MAttach i => updateResponse (attach i s)
  | MOther b => s <| s_flags := Z.lor (s_flags s) b |>
  end.
Definition mop_runs (l : list mop) (s : rsys) : rsys := fold_left (fun s o => mop_run o s) l s.

(* Nesting depth *)
Definition mdepth1 (o : mop) : Z := match o with MDisable => 1 | MEnable => -1 | _ => 0 end.
Fixpoint mdepth (l : list mop) : Z := match l with [] => 0 | o :: l' => mdepth1 o + mdepth l' end.

(* Properly nested: no enable without its disable *)
Definition nested (l : list mop) : Prop := forall p q, l = p ++ q -> 0 <= mdepth p.

(* Bits are those of a uint8_t, and other code leaves the event responder's alone *)
Definition mop_sane (o : mop) : Prop :=
  match o with MOther b => 0 <= b < 256 /\ Z.testbit b 2 = false | _ => True end.

(* The checks that are wanted: those there were and those switched on since *)
Definition madds (o : mop) : Z := match o with MAttach _ => EVR | MOther b => b | _ => 0 end.
Fixpoint wanted (f : Z) (l : list mop) : Z :=
  match l with [] => f | o :: l' => wanted (Z.lor f (madds o)) l' end.

(* ---- queues ---- *)

(* Pending events: player and its latest request *)
Definition queue := list (nat * Z).
Definition pending (q : queue) (i : nat) : bool := existsb (fun e => Nat.eqb (fst e) i) q.
Definition q_trigger (q : queue) (i : nat) (st : Z) : queue :=
  if pending q i then map (fun e => if Nat.eqb (fst e) i then (i, st) else e) q
  else q ++ [(i, st)].
Definition q_remove (q : queue) (i : nat) : queue := filter (fun e => negb (Nat.eqb (fst e) i)) q.

(* The players attached, and their pending events *)
Definition att_queue := ((nat -> bool) * queue)%type.
Definition att_none : att_queue := (fun _ => false, []).
Definition att_set (a : nat -> bool) (i : nat) (b : bool) : nat -> bool :=
  fun j => if Nat.eqb j i then b else a j.

(* Polled mode: update() triggers, the sketch calls runPolled(), stop(), a play function
   (stop, then attachPolled) and detach() *)
Inductive pop := PTrigger (i : nat) (st : Z) | PRun | PStop (i : nat) | PPlay (i : nat) | PDetach (i : nat).

(* The documented behaviour: the result of runPolled() and the event run.  Stopping,
   replaying and detaching cancel the player's own event and no other. *)
Definition pop_spec (o : pop) (x : att_queue) : option (Z * option (nat * Z)) * att_queue :=
  let '(a, q) := x in
  match o with
  | PTrigger i st => (None, (a, if a i then q_trigger q i st else q))
  | PRun => match q with
            | [] => (Some (-1, None), (a, []))
            | e :: q' => (Some (match q' with [] => 0 | _ => 1 end, Some e), (a, q'))
            end
  | PStop i => (None, (a, q_remove q i))
  | PPlay i => (None, (att_set a i true, q_remove q i))
  | PDetach i => (None, (att_set a i false, q_remove q i))
  end.
Definition pop_run (o : pop) (s : rsys) : res (option (Z * option (nat * Z)) * rsys) :=
  match o with
  | PTrigger i st => s' <- triggerEvent i st s ;; Ok (None, s')
  | PRun => '(v, e, s') <- runPolled s ;; Ok (Some (v, e), s')
  | PStop i => Ok (None, clearEvent i s)
  | PPlay i => s' <- attachPolled i (clearEvent i s) ;; Ok (None, s')
  | PDetach i => s' <- detach i s ;; Ok (None, s')
  end.

Fixpoint runs {S O R} (step : O -> S -> res (R * S)) (l : list O) (s : S) : res (list R * S) :=
  match l with
  | [] => Ok ([], s)
  | o :: l' => '(a, s1) <- step o s ;; '(b, s2) <- runs step l' s1 ;; Ok (a :: b, s2)
  end.
Fixpoint specs {S O R} (step : O -> S -> R * S) (l : list O) (s : S) : list R * S :=
  match l with
  | [] => ([], s)
  | o :: l' => let '(a, s1) := step o s in let '(b, s2) := specs step l' s1 in (a :: b, s2)
  end.

(* No player is stopped or replayed with an event pending; detaching is fine for the
   player whose event is first *)
Definition calm (o : pop) (q : queue) : Prop :=
  match o with
  | PStop i | PPlay i => pending q i = false
  | PDetach i => pending q i = false \/ exists st q', q = (i, st) :: q'
  | _ => True
  end.
Fixpoint calm_run (l : list pop) (x : att_queue) : Prop :=
  match l with [] => True | o :: l' => calm o (snd x) /\ calm_run l' (snd (pop_spec o x)) end.

(* Only what the players and the sketch's polling do *)
Definition served (o : pop) : Prop := match o with PTrigger _ _ | PRun => True | _ => False end.

(* The players whose events were run, in order *)
Fixpoint events_run (o : list (option (Z * option (nat * Z)))) : list nat :=
  match o with
  | [] => []
  | Some (_, Some (i, _)) :: o' => i :: events_run o'
  | _ :: o' => events_run o'
  end.

(* Yield mode: YClear is what stop() does, YAttach what the play functions do *)
Inductive yop := YTrigger (i : nat) (st : Z) | YClear (i : nat) | YAttach (i : nat) | YDetach (i : nat) | YRun.

Definition yop_spec (o : yop) (x : att_queue) : option (option (nat * Z)) * att_queue :=
  let '(a, q) := x in
  match o with
  | YTrigger i st => (None, (a, if a i then q_trigger q i st else q))
  | YClear i => (None, (a, q_remove q i))
  | YAttach i => (None, (att_set a i true, q_remove q i))
  | YDetach i => (None, (att_set a i false, q_remove q i))
  | YRun => match q with [] => (Some None, (a, [])) | e :: q' => (Some (Some e), (a, q')) end
  end.
Definition yop_run (o : yop) (s : rsys) : res (option (option (nat * Z)) * rsys) :=
  match o with
  | YTrigger i st => s' <- triggerEvent i st s ;; Ok (None, s')
  | YClear i => Ok (None, clearEvent i s)
  | YAttach i => Ok (None, attach i s)
  | YDetach i => s' <- detach i s ;; Ok (None, s')
  | YRun => let '(e, s') := y_pop s in Ok (Some e, s')
  end.
