(* From the file to the audio outputs while the sketch changes the rate. *)

From Coq Require Import ZArith List Bool.
From Verif Require Import Machine Floats WavModel ReaderModel PlayerModel ReaderSpec LifeSpec StageSpec TapeSpec.
Import ListNotations.
Local Open Scope Z_scope.

(* As [quiet], or setPlaybackRate on any player *)
Definition tuned (N i : nat) (o : wop) : Prop := match o with WCall _ (CRate _) => True | _ => quiet N i o end.
Definition rate_of (i : nat) (o : wop) : list b64 := match o with WCall j (CRate x) => if Nat.eqb j i then [x] else [] | _ => [] end.
Definition reel_ok (kinds : nat -> rkind) (N i : nat) (r : round) : Prop :=
  Forall (wop_ok kinds) (snd r) /\ Forall (tuned N i) (snd r) /\ (N <= yields (snd r))%nat.

(* What the rounds are for player i: updates that get their blocks, and rates *)
Definition reel1 (i nch : nat) (r : round) : list tape_op :=
  (if gets nch r then [Block 128] else []) ++ map Speed (flat_map (rate_of i) (snd r)).
Definition reel (i nch : nat) (l : list round) : list tape_op := flat_map (reel1 i nch) l.

(* The blocks are sent one per update that gets its audio blocks; a short one is the last *)
Fixpoint shown (nch : nat) (got : list bool) (blocks : list (list (list Z))) : list (list (Z * list Z)) :=
  match got with
  | [] => []
  | false :: l => [] :: shown nch l blocks
  | true :: l =>
      match blocks with
      | [] => []
      | b :: bs => sends nch b :: (if Nat.eqb (length b) 128 then shown nch l bs else map (fun _ => []) l)
      end
  end.
Fixpoint still_on (got : list bool) (blocks : list (list (list Z))) : bool :=
  match got with
  | [] => true
  | false :: l => still_on l blocks
  | true :: l => match blocks with [] => true | b :: bs => Nat.eqb (length b) 128 && still_on l bs end
  end.

(* play(file) on player i succeeds in w.  In every run of rounds after it that is ok,
   player i transmits what the tape plays, stops at its end, and its next update has a
   defined result. *)
Definition plays_reel (kinds : nat -> rkind) (N i : nat) (fl : file) (isWave : bool) (nraw : Z) (stack : bytes)
    (garbage : nat -> bytes) (nch : nat) (ok : list tape_op -> Prop) (out : list tape_op -> list (list (list Z))) (w : world) : Prop :=
  exists w0, p_play_file i (Some fl) isWave nraw stack garbage w = Ok (true, w0) /\
    forall fuel l xs w', Forall (reel_ok kinds N i) l -> ok (reel i nch l) -> wops fuel (rounds_ops i l) w0 = Ok (xs, w') ->
      heard i xs = shown nch (map (gets nch) l) (out (reel i nch l)) /\
      r_playing (w_rd w' i) = still_on (map (gets nch) l) (out (reel i nch l)) /\
      forall alloc, exists fuel2 x, w_update fuel2 i alloc w' = Ok x.
