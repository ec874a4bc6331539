(* The example sketches with a potentiometer: examples/array/array.ino,
   examples/sampleloader/sampleloader.ino, examples/sd_raw/sd_raw.ino,
   examples/sd_wav/sd_wav.ino, examples/LittleFS/littlefs_raw.ino and
   examples/SerialFlash/serialflash.ino.  Their setup() and loop() are the same but for the player and the call that starts it.

   Simplifications: Serial, the audio shield, AudioMemory and mounting the card have no
   effect on the player.  analogRead() and millis() return anything (analogRead 0 to
   1023).  The audio interrupt may come between any two calls on the player; inside the
   calls see CallModel.v. *)

From Coq Require Import ZArith List Bool.
From RecordUpdate Require Import RecordUpdate.
From Verif Require Import Machine Floats WavModel CacheModel ReaderModel ResponderModel PlayerModel LifeSpec.
Import ListNotations.
Local Open Scope Z_scope.

(* double getPlaybackRate(int16_t analog), array.ino:21-23, sd_raw.ino:22-24 and so on *)
Definition pot_rate (analog : Z) : b64 := ddiv (dsub (d_of_Z analog) (d_of_Z 512)) (d_of_Z 512).

(* What allocate() returns to one update *)
Definition grant : Type := nat -> option nat.

(* One pass of loop(), array.ino:41-60, sd_raw.ino:49-66: the value read from the
   potentiometer, updates before and after setPlaybackRate(), whether 500 ms have passed
   since the last start, the contents of fresh memory for the call that starts playback, and
   what happens in delay(10): calls of yield() (None) and updates. *)
Record turn := mkTurn {
  t_pot : Z;
  t_before : list grant;
  t_after : list grant;
  t_due : bool;
  t_stack : bytes;
  t_garbage : nat -> bytes;
  t_delay : list (option grant) }.

Definition update_ops (l : list grant) : list wop := map (WUpdate 0) l.
Definition delay_ops (l : list (option grant)) : list wop :=
  map (fun o => match o with Some g => WUpdate 0 g | None => WYield end) l.

(* The call that starts playback *)
Definition starter : Type := bytes -> (nat -> bytes) -> wop.
(* array.ino:48, sampleloader.ino:55 *)
Definition start_array (m : mem) (len : Z) : starter := fun _ _ => WPlayRaw 0 m 0 len 1.
(* sd_raw.ino:57, littlefs_raw.ino:78, serialflash.ino:62; the file may be missing *)
Definition start_raw (fo : option file) : starter := fun st g => WPlayFile 0 fo false 1 st g.
(* sd_wav.ino:59 *)
Definition start_wav (fo : option file) : starter := fun st g => WPlayFile 0 fo true 0 st g.

(* One pass of loop(); main() calls yield() after it *)
Definition sketch_turn (fuel : nat) (start : starter) (t : turn) (w : world) : res (list wout * world) :=
  '(x1, w1) <- wops fuel (update_ops (t_before t) ++ [WCall 0 (CRate (pot_rate (t_pot t)))] ++ update_ops (t_after t)) w ;;
  '(x2, w2) <- (if t_due t && negb (r_playing (w_rd w1 0)) then wops fuel [start (t_stack t) (t_garbage t)] w1 else Ok ([], w1)) ;;
  '(x3, w3) <- wops fuel (delay_ops (t_delay t) ++ [WYield]) w2 ;;
  Ok (x1 ++ x2 ++ x3, w3).

Fixpoint sketch_turns (fuel : nat) (start : starter) (l : list turn) (w : world) : res (list wout * world) :=
  match l with
  | [] => Ok ([], w)
  | t :: l' =>
      '(x1, w1) <- sketch_turn fuel start t w ;;
      '(x2, w2) <- sketch_turns fuel start l' w1 ;;
      Ok (x1 ++ x2, w2)
  end.

(* setup(), array.ino:25-39, sd_raw.ino:26-47 *)
Definition sketch_setup (fuel : nat) (k : rkind) (flags analog : Z) : res (list wout * world) :=
  wops fuel [WCall 0 (CInterp IQuadratic); WCall 0 (CRate (pot_rate analog))] (world0 (fun _ => k) flags).

(* The sketch, as long as these passes of loop() take *)
Definition sketch (fuel : nat) (k : rkind) (flags : Z) (start : starter) (analog : Z) (l : list turn) : res (list wout * world) :=
  '(x1, w1) <- sketch_setup fuel k flags analog ;;
  '(x2, w2) <- sketch_turns fuel start l w1 ;;
  Ok (x1 ++ x2, w2).
