(* Specification vocabulary for playback from files. *)

From Coq Require Import ZArith Lia List Bool Reals.
From RecordUpdate Require Import RecordUpdate.
From Flocq Require Import Core.Core IEEE754.BinarySingleNaN.
From Verif Require Import Machine Floats WavModel CacheModel CacheFacts CacheSpec ReaderModel ReaderSpec.
Import ListNotations.
Local Open Scope Z_scope.

(* Frame i of nch-channel audio that starts at sample h of the file *)
Definition file_frame (fl : file) (h : Z) (nch : nat) (i : Z) : list Z :=
  map (fun c => file_sample fl (h + i * Z.of_nat nch + Z.of_nat c)) (seq 0 nch).

(* len frames of such audio *)
Definition file_frames (fl : file) (h : Z) (nch : nat) (len : Z) : list (list Z) :=
  map (fun k => file_frame fl h nch (Z.of_nat k)) (seq 0 (Z.to_nat len)).

(* A file session: each read of a block is followed by a serviced reload *)
Fixpoint serviced (fuel : nat) (r : reader) (ns : list nat) : res (list (list (list Z)) * reader) :=
  match ns with
  | [] => Ok ([], r)
  | n :: ns' =>
      '(b, r1) <- r_read fuel r (Z.of_nat n) ;;
      r2 <- r_triggerReload fuel r1 ;;
      '(bs, r3) <- serviced fuel r2 ns' ;;
      Ok (b :: bs, r3)
  end.

(* Number of failed lookups so far *)
Definition misses (r : reader) : Z := match r_src r with SFile f => i_fails f | _ => 0 end.

(* "Every such session on r, with blocks of at most B frames, delivers the stream,
   and no sample is missed" *)
Definition file_delivers (B : nat) (r : reader) (out : stream) : Prop :=
  forall ns, Forall (fun n => (n <= B)%nat) ns ->
    exists fuel r', serviced fuel r ns = Ok (blocks_spec out 0 ns, r') /\ misses r' = misses r.

(* Two consecutive updates of at most B frames each span at most the buffered
   blocks minus one, at speed x with nch channels *)
Definition keeps_up (c : ccfg) (nch B : nat) (x : R) : Prop :=
  forall k k', (k <= k' < k + 2 * B)%nat ->
    (Zfloor (INR k' * x) - Zfloor (INR k * x) + 1) * Z.of_nat nch <= (Z.of_nat (c_nbuf c) - 1) * BS c.

(* Forward playback of file audio from frame p0 at speed x *)
Definition file_pitch (fl : file) (h len : Z) (nch : nat) (p0 : Z) (x : R) : stream :=
  fun k => let i := p0 + Zfloor (INR k * x) in
           if i <? len then Some (file_frame fl h nch i) else None.
