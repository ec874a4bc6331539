(* Specification vocabulary for playback that has got ahead of the buffers. *)

From Coq Require Import ZArith Lia List Bool.
From Verif Require Import Machine CacheModel ReaderModel ReaderSpec FileSpec RacePlay RaceSpec.
Import ListNotations.
Local Open Scope Z_scope.

(* Sample i is in a buffered block or at most L blocks after one *)
Definition within (L : nat) (r : reader) (i : Z) : Prop :=
  exists f b, r_src r = SFile f /\ In b (i_bufs f) /\ blk (i_cfg f) i <= b_index b + Z.of_nat L.

(* "However late reloads were and however updates interrupted them: one reload and,
   if the k-th frame, at sample pos k, is next and at most L blocks beyond the buffers
   then, L + 1 updates of at most B frames with a reload after each bring playback
   back.  Until then samples are missed at most, and from then on none is." *)
Definition recovers (B : nat) (r : reader) (pos : nat -> Z) (out : stream) : Prop :=
  forall ns outs r2, crun (r, None) ns outs (r2, None) ->
    let k := length (concat outs) in
    exists fuel r3, r_triggerReload fuel r2 = Ok r3 /\ misses r3 = misses r2 /\
    forall L ns', (out k <> None -> within L r3 (pos k)) -> length ns' = S L -> Forall (fun n => (1 <= n <= B)%nat) ns' ->
    exists fuel' bs r4, serviced fuel' r3 ns' = Ok (bs, r4) /\
      session_gaps (misses r4 - misses r3) (blocks_spec (fun j => out (k + j)%nat) 0 ns') bs /\
      file_delivers B r4 (fun j => out (k + length (concat bs) + j)%nat).
