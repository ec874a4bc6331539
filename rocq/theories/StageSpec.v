(* From the file to the audio outputs: what a player transmits, update by update. *)

From Coq Require Import ZArith List Bool.
From Verif Require Import Machine WavModel ReaderModel PlayerModel ReaderSpec LifeSpec.
Import ListNotations.
Local Open Scope Z_scope.

(* 128 samples of channel c, zeros behind the last frame *)
Definition padded (frames : list (list Z)) (c : nat) : list Z :=
  map (fun k => nth c (nth k frames []) 0) (seq 0 128).

(* What is sent for these frames: output and samples *)
Definition sends (nch : nat) (frames : list (list Z)) : list (Z * list Z) :=
  if Nat.eqb nch 1 then [(0, padded frames 0); (1, padded frames 0)]
  else map (fun c => (Z.of_nat c, padded frames c)) (seq 0 nch).

(* Successive updates after k frames of the stream; [true]: the update gets its blocks.
   Each of these takes the next 128 frames; the one that finds less is the last. *)
Fixpoint transmissions (out : stream) (nch k : nat) (got : list bool) : list (list (Z * list Z)) :=
  match got with
  | [] => []
  | false :: l => [] :: transmissions out nch k l
  | true :: l =>
      let frames := pulls out k 128 in
      sends nch frames ::
      (if Nat.eqb (length frames) 128 then transmissions out nch (k + 128) l else map (fun _ => []) l)
  end.

(* Still playing after these updates *)
Fixpoint going (out : stream) (k : nat) (got : list bool) : bool :=
  match got with
  | [] => true
  | false :: l => going out k l
  | true :: l => Nat.eqb (length (pulls out k 128)) 128 && going out (k + 128) l
  end.

(* What player i was observed to transmit, one entry per update *)
Definition heard1 (i : nat) (x : wout) : list (list (Z * list Z)) :=
  match x with
  | WoActs l => flat_map (fun e => if Nat.eqb (fst e) i then [map (fun t => (snd t, snd (fst t))) (sent (snd e))] else []) l
  | _ => []
  end.
Definition heard (i : nat) (xs : list wout) : list (list (Z * list Z)) := flat_map (heard1 i) xs.

(* Anything that does not concern player i: calls on other players, their updates, yield();
   files are played on players below N only, and polling is not switched on *)
Definition quiet (N i : nat) (o : wop) : Prop :=
  match o with
  | WPlayFile j _ _ _ _ _ => j <> i /\ (j < N)%nat
  | WPlayRaw j _ _ _ _ | WPlayWavLen j _ _ _ | WPlayWav j _ | WCall j _ | WUpdate j _ => j <> i
  | WStop j mid => j <> i /\ forall e, In e mid -> fst e <> i
  | WYield => True
  | WPoll | WForce _ => False
  end.

(* A round: an update of player i, and what happens until the next one: any quiet
   operations, among them N calls of yield() *)
Definition round : Type := (nat -> option nat) * list wop.
Definition round_ok (kinds : nat -> rkind) (N i : nat) (r : round) : Prop :=
  Forall (wop_ok kinds) (snd r) /\ Forall (quiet N i) (snd r) /\ (N <= yields (snd r))%nat.
Definition rounds_ops (i : nat) (l : list round) : list wop := flat_map (fun r => WUpdate i (fst r) :: snd r) l.

(* allocate() succeeds for all channels *)
Definition gets (nch : nat) (r : round) : bool := forallb (fun c => got (fst r c)) (seq 0 nch).

(* A sketch without polling, in which only players below N play files, led to w *)
Definition files_below (N : nat) (o : wop) : Prop := match o with WPlayFile j _ _ _ _ _ => (j < N)%nat | _ => True end.
Definition history (kinds : nat -> rkind) (flags : Z) (N : nat) (w : world) : Prop :=
  exists fuel l xs, 0 <= flags < 256 /\ Forall (wop_ok kinds) l /\ Forall yield_mode l /\ Forall (files_below N) l /\
    wops fuel l (world0 kinds flags) = Ok (xs, w).

(* play(file) on player i succeeds in w.  In every run of rounds after it, player i
   transmits the stream, stops at its end, and its next update has a defined result. *)
Definition plays_out (kinds : nat -> rkind) (N i : nat) (fl : file) (isWave : bool) (nraw : Z) (stack : bytes)
    (garbage : nat -> bytes) (nch : nat) (out : stream) (w : world) : Prop :=
  exists w0, p_play_file i (Some fl) isWave nraw stack garbage w = Ok (true, w0) /\
    forall fuel l xs w', Forall (round_ok kinds N i) l -> wops fuel (rounds_ops i l) w0 = Ok (xs, w') ->
      heard i xs = transmissions out nch 0 (map (gets nch) l) /\
      r_playing (w_rd w' i) = going out 0 (map (gets nch) l) /\
      forall alloc, exists fuel2 x, w_update fuel2 i alloc w' = Ok x.
