(* Specification vocabulary for playback, independent of the reader model
   (except for the type of a reading session, which runs it). *)

From Coq Require Import ZArith Lia List Bool Reals.
From Flocq Require Import Core.Core IEEE754.BinarySingleNaN.
From Verif Require Import Machine Floats CacheModel ReaderModel.
Import ListNotations.
Local Open Scope Z_scope.

(* 16-bit little-endian sample number i of the audio stored at byte [off] *)
Definition src_sample (m : mem) (off i : Z) : Z := le16 (mbyte m) (off + 2 * i).

(* Frame number k of interleaved nch-channel audio *)
Definition src_frame (m : mem) (off : Z) (nch : nat) (k : Z) : list Z :=
  map (fun c => src_sample m off (k * Z.of_nat nch + Z.of_nat c)) (seq 0 nch).

(* An output stream: the k-th frame delivered, None once playback has ended *)
Definition stream := nat -> option (list Z).

(* What a request for n frames should return when k have been delivered *)
Fixpoint pulls (out : stream) (k n : nat) : list (list Z) :=
  match n with
  | O => []
  | S n' => match out k with
            | None => []
            | Some v => v :: pulls out (S k) n'
            end
  end.

(* ... and for a sequence of requests *)
Fixpoint blocks_spec (out : stream) (k : nat) (ns : list nat) : list (list (list Z)) :=
  match ns with
  | [] => []
  | n :: ns' => let b := pulls out k n in b :: blocks_spec out (k + length b) ns'
  end.

(* A session: successive calls of read() with the given sizes *)
Fixpoint read_seq (fuel : nat) (r : reader) (ns : list nat)
  : res (list (list (list Z)) * reader) :=
  match ns with
  | [] => Ok ([], r)
  | n :: ns' =>
      '(b, r1) <- r_read fuel r (Z.of_nat n) ;;
      '(bs, r2) <- read_seq fuel r1 ns' ;;
      Ok (b :: bs, r2)
  end.

(* "Every session on r delivers the stream" *)
Definition delivers (r : reader) (out : stream) : Prop :=
  forall ns, exists fuel r', read_seq fuel r ns = Ok (blocks_spec out 0 ns, r').

(* The stream that plays the n source frames given by idx *)
Definition finite_stream (n : nat) (f : nat -> list Z) : stream :=
  fun k => if Nat.ltb k n then Some (f k) else None.
Definition endless_stream (f : nat -> list Z) : stream := fun k => Some (f k).

(* The array holds len frames of nch channels at byte offset off *)
Definition array_holds (m : mem) (off len : Z) (nch : nat) : Prop :=
  0 <= off /\ 0 <= len /\ off + 2 * (len * Z.of_nat nch) <= msize m
  /\ 2 * (len * Z.of_nat nch) < 2 ^ 31 /\ (1 <= nch)%nat /\ Z.of_nat nch < 2 ^ 15.

(* ---- constant-rate playback ------------------------------------------- *)

(* A rate whose multiples a double accumulates without rounding: num / 2^q *)
Definition grid_rate (x : b64) : Prop :=
  is_finite x = true /\
  exists num q, (B2R x = IZR num * bpow radix2 (- q))%R /\ 0 <= q <= 52 /\ Z.abs num <= 2 ^ 52.

(* A rate given as a float *)
Definition single_rate (x : b64) : Prop := exists f : b32, is_finite f = true /\ x = d_of_f f.

(* Forward playback from frame p0 at rate x: the k-th frame delivered is source
   frame p0 + floor(k x), until the source is exhausted *)
Definition pitch_stream (m : mem) (off len : Z) (nch : nat) (p0 : Z) (x : R) : stream :=
  fun k => let i := p0 + Zfloor (INR k * x) in
           if i <? len then Some (src_frame m off nch i) else None.

(* Settings of an object: single head, no interpolation, given loop type and
   start mode, no fraction of a frame pending *)
Definition basic_settings (r : reader) (l : loop_type) (ps : play_start) (pb : Z) : Prop :=
  r_dual r = false /\ r_interp r = INone /\ r_loop r = l /\ r_pstart r = ps /\ r_pbstart r = pb
  /\ is_finite (r_rem r) = true /\ B2R (r_rem r) = 0%R.

(* Backward playback from frame p0 at speed x: the k-th frame delivered is source
   frame p0 - floor(k x), until the beginning is passed *)
Definition back_stream (m : mem) (off : Z) (nch : nat) (p0 : Z) (x : R) : stream :=
  fun k => let i := p0 - Zfloor (INR k * x) in
           if i <? 0 then None else Some (src_frame m off nch i).

(* The whole source as a list of frames *)
Definition source_frames (m : mem) (off : Z) (nch : nat) (len : Z) : list (list Z) :=
  map (fun k => src_frame m off nch (Z.of_nat k)) (seq 0 (Z.to_nat len)).
