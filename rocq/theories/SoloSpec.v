(* Array players: what concerns one of them in a history of many players, and what it is
   to transmit. *)

From Coq Require Import ZArith List Bool.
From Verif Require Import Machine Floats WavModel CacheModel ReaderModel PlayerModel ReaderSpec LifeSpec StageSpec TapeSpec.
Import ListNotations.
Local Open Scope Z_scope.

(* What of an operation concerns player i: its own calls and updates.  Its updates in the
   middle of another player's stop() stand for themselves. *)
Definition own (i : nat) (o : wop) : list wop :=
  match o with
  | WPlayFile j _ _ _ _ _ | WPlayRaw j _ _ _ _ | WPlayWavLen j _ _ _ | WPlayWav j _ | WCall j _ | WUpdate j _ =>
      if Nat.eqb j i then [o] else []
  | WStop j mid =>
      let m := filter (fun e => Nat.eqb (fst e) i) mid in
      if Nat.eqb j i then [WStop j m] else map (fun e => WUpdate i (snd e)) m
  | WYield | WPoll | WForce _ => []
  end.

(* What is observed of player i: results of its play calls, and what its updates do *)
Definition seen1 (i : nat) (x : wout) : list (bool + list bact) :=
  match x with
  | WoPlay j b => if Nat.eqb j i then [inl b] else []
  | WoActs l => flat_map (fun e => if Nat.eqb (fst e) i then [inr (snd e)] else []) l
  | _ => []
  end.
Definition seen (i : nat) (xs : list wout) : list (bool + list bact) := flat_map (seen1 i) xs.

(* While it plays: updates of player i and changes of its rate; anything else on other
   players, serviced or polled in whatever way *)
Definition deck_op (i : nat) (o : wop) : Prop :=
  match o with
  | WPlayFile j _ _ _ _ _ | WPlayRaw j _ _ _ _ | WPlayWavLen j _ _ _ | WPlayWav j _ | WStop j _ => j <> i
  | WCall j c => j = i -> exists x, c = CRate x
  | _ => True
  end.

(* The updates of player i: does each get its blocks? *)
Definition chance1 (nch : nat) (o : wop) : list bool :=
  match o with WUpdate _ alloc => [forallb (fun c => got (alloc c)) (seq 0 nch)] | _ => [] end.
Definition chances (i nch : nat) (l : list wop) : list bool := flat_map (chance1 nch) (flat_map (own i) l).

(* What this is for the tape: blocks read and speeds set *)
Definition deck1 (nch : nat) (o : wop) : list tape_op :=
  match o with
  | WUpdate _ alloc => if forallb (fun c => got (alloc c)) (seq 0 nch) then [Block 128] else []
  | WCall _ (CRate x) => [Speed x]
  | _ => []
  end.
Definition deck (i nch : nat) (l : list wop) : list tape_op := flat_map (deck1 nch) (flat_map (own i) l).

(* Every update that gets its blocks sends the next 128 frames, zeros behind the last,
   for ever *)
Fixpoint aired (nch : nat) (got : list bool) (blocks : list (list (list Z))) : list (list (Z * list Z)) :=
  match got with
  | [] => []
  | false :: l => [] :: aired nch l blocks
  | true :: l => match blocks with [] => [] | b :: bs => sends nch b :: aired nch l bs end
  end.

(* The blocks of a stream *)
Definition steady (out : stream) (l : list tape_op) : list (list (list Z)) := blocks_spec out 0 (repeat 128%nat (length l)).

(* Any history in which player i never played a file led to w *)
Definition array_history (kinds : nat -> rkind) (flags : Z) (i : nat) (w : world) : Prop :=
  exists fuel l xs, Forall (wop_ok kinds) l /\ (forall o, In o l -> ~ plays_file o i) /\ wops fuel l (world0 kinds flags) = Ok (xs, w).

(* Calls of the sketch succeed in w and lead to w0.  In every run after them player i
   transmits the blocks, goes on playing, and its next update has a defined result. *)
Definition plays_deck (i : nat) (calls : list wop) (nch : nat) (ok : list tape_op -> Prop)
    (out : list tape_op -> list (list (list Z))) (w : world) : Prop :=
  exists ys w0, wops 0 calls w = Ok (ys, w0) /\ seen i ys = [inl true] /\
    forall fuel l xs w', Forall (deck_op i) l -> ok (deck i nch l) -> wops fuel l w0 = Ok (xs, w') ->
      heard i xs = aired nch (chances i nch l) (out (deck i nch l)) /\
      r_playing (w_rd w' i) = true /\
      forall alloc, exists fuel2 x, w_update fuel2 i alloc w' = Ok x.

(* Playing an array in a loop *)
Definition loop_calls (i : nat) (m : mem) (off len : Z) (nch : nat) (ls lf : Z) : list wop :=
  [WPlayRaw i m off len (Z.of_nat nch); WCall i (CLoopStart ls); WCall i (CLoopFinish lf)].
