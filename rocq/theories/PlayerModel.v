(* Model of src/playresmp.h: class AudioPlayResmp, and of the players of
   playarrayresmp.h, playsdresmp.h, playlfsresmp.h, playserialflashresmp.h, which only
   choose the reader.

   AudioStream (Teensy audio library): allocate() returns a block or null, transmit()
   sends a reference to it to whatever is connected to the given output, release() gives
   the reference back.  update() is called from the audio interrupt; it is one step here.
   The calls of the sketch are one step each too: stop() is their first action and
   _playing = true their last, and update() does nothing in between (it returns at
   playresmp.h:177). *)

From Coq Require Import ZArith Lia List Bool.
From RecordUpdate Require Import RecordUpdate.
From Flocq Require Import IEEE754.BinarySingleNaN.
From Verif Require Import Machine Floats WavModel InterpModel CacheModel ReaderModel ResponderModel.
Import ListNotations.
Local Open Scope Z_scope.

(* AUDIO_BLOCK_SAMPLES *)
Definition ABS : Z := 128.

(* enum {evNothing,evReload,evClose}, playresmp.h:15 *)
Definition evReload : Z := 1.
Definition evClose : Z := 2.

(* What update() does with audio blocks, in order *)
Inductive bact :=
| BAlloc (b : nat)                              (* allocate() returned block b *)
| BFail                                         (* allocate() returned null *)
| BTransmit (b : nat) (data : list Z) (ch : Z)  (* transmit(b, ch), b holding data *)
| BRelease (b : nat).

Definition alloc_act (o : option nat) : bact := match o with Some b => BAlloc b | None => BFail end.
Definition release_act (o : option nat) : list bact := match o with Some b => [BRelease b] | None => [] end.
Definition got (o : option nat) : bool := match o with Some _ => true | None => false end.

(* The content of the block of channel [ch]: the samples stored by read(), then the
   memset of playresmp.h:196 *)
Definition block_data (frames : list (list Z)) (ch : nat) : list Z :=
  map (fun f => nth ch f 0) frames ++ repeat 0 (Z.to_nat ABS - length frames)%nat.

(* Transmissions, playresmp.h:195-202; [ch] counts the channels *)
Fixpoint transmits (blocks : list (option nat)) (frames : list (list Z)) (ch : nat) : list bact :=
  match blocks with
  | [] => []
  | o :: l => match o with Some b => [BTransmit b (block_data frames ch) (Z.of_nat ch)] | None => [] end
              ++ transmits l frames (S ch)
  end.
Definition second_output (blocks : list (option nat)) (frames : list (list Z)) : list bact :=
  match blocks with [Some b] => [BTransmit b (block_data frames 0) 1] | _ => [] end.

(* void update(), playresmp.h:166-218; [alloc c] is what allocate() returns for channel
   c.  Results: what was done with blocks, the event triggered if any, the reader.
   available() is isPlaying(), so the branch at line 208 is dead. *)
Definition p_update (fuel : nat) (alloc : nat -> option nat) (r : reader)
  : res (list bact * option Z * reader) :=
  if r_nch r =? -1 then Ok ([], None, r)
  else if r_nch r <? 0 then UB UbVla
  else if negb (r_playing r) then Ok ([], None, r)
  else
    let blocks := map alloc (seq 0 (Z.to_nat (r_nch r))) in
    let rel := flat_map release_act blocks in
    if forallb got blocks then
      '(frames, r') <- r_read fuel r ABS ;;
      Ok (map alloc_act blocks ++ transmits blocks frames 0 ++ second_output blocks frames ++ rel,
          Some (if Z.of_nat (length frames) =? ABS then evReload else evClose), r')
    else Ok (map alloc_act blocks ++ rel, None, r).

(* ---- several players and the event responder ---- *)

(* Player number i has reader [w_rd i] and responder i *)
Record world := mkWorld { w_rd : nat -> reader; w_sys : rsys }.
#[export] Instance eta_world : Settable _ := settable! mkWorld <w_rd; w_sys>.

Definition set_rd (w : world) (i : nat) (r : reader) : world :=
  w <| w_rd := fun j => if Nat.eqb j i then r else w_rd w j |>.
Definition on_sys (w : world) (g : rsys -> rsys) : world := w <| w_sys := g (w_sys w) |>.

(* stop(), playresmp.h:155-160 *)
Definition p_stop (i : nat) (w : world) : world :=
  let w1 := on_sys w disableResponse in
  let w2 := on_sys w1 (clearEvent i) in
  let w3 := set_rd w2 i (r_stop (w_rd w2 i)) in
  on_sys w3 enableResponse.

(* playRaw/playWav(filename), playresmp.h:49-75 *)
Definition p_play_file (i : nat) (fo : option file) (isWave : bool) (nraw : Z) (stack : bytes)
    (garbage : nat -> bytes) (w : world) : res (bool * world) :=
  let w1 := p_stop i (on_sys w disableResponse) in
  s2 <- (if s_force (w_sys w1) then attachPolled i (w_sys w1) else Ok (attach i (w_sys w1))) ;;
  let w3 := on_sys (w1 <| w_sys := s2 |>) updateResponse in
  '(ok, r) <- r_play_file (w_rd w3 i) fo isWave nraw stack garbage ;;
  Ok (ok, on_sys (set_rd w3 i r) enableResponse).

(* The array versions, playresmp.h:77-102, given the reader's function *)
Definition p_play_array (i : nat) (play : reader -> res (bool * reader)) (w : world) : res (bool * world) :=
  let w1 := p_stop i w in
  '(ok, r) <- play (w_rd w1 i) ;;
  Ok (ok, set_rd w1 i r).

(* event_response, playresmp.h:23-42; reader is never null (set in the constructors) *)
Definition event_response (fuel : nat) (i : nat) (status : Z) (w : world) : res world :=
  let w1 := on_sys w disableResponse in
  r <- (if status =? evReload then r_triggerReload fuel (w_rd w1 i)
        else if status =? evClose then Ok (r_close (w_rd w1 i))
        else Ok (w_rd w1 i)) ;;
  Ok (on_sys (set_rd w1 i r) enableResponse).

(* yield(): services one event of the yield list, if the check is on *)
Definition w_yield (fuel : nat) (w : world) : res world :=
  if Z.testbit (s_flags (w_sys w)) 2 then
    match y_pop (w_sys w) with
    | (None, _) => Ok w
    | (Some (i, st), s) => event_response fuel i st (w <| w_sys := s |>)
    end
  else Ok w.

(* runPolled(), AudioEventResponder.h:155-167: the value returned depends on the list
   after the function has run, but that does not change the list *)
Definition w_poll (fuel : nat) (w : world) : res (Z * world) :=
  '(v, e, s) <- runPolled (w_sys w) ;;
  match e with
  | None => Ok (v, w <| w_sys := s |>)
  | Some (i, st) => w' <- event_response fuel i st (w <| w_sys := s |>) ;; Ok (v, w')
  end.

(* update() of player i in the audio interrupt *)
Definition w_update (fuel : nat) (i : nat) (alloc : nat -> option nat) (w : world)
  : res (list bact * world) :=
  '(acts, ev, r) <- p_update fuel alloc (w_rd w i) ;;
  let w1 := set_rd w i r in
  match ev with
  | None => Ok (acts, w1)
  | Some st => s <- triggerEvent i st (w_sys w1) ;; Ok (acts, w1 <| w_sys := s |>)
  end.

(* Destroying a player: delete reader (playsdresmp.h:27-29); the readers' destructors are
   empty.  What remains allocated. *)
Definition p_destroy (r : reader) : Z := r_live r.
