(* The example examples/sd_play_all/sd_play_all.ino: it lists the WAV files of the root
   directory and plays one after the other.

   Simplifications: Serial, the audio shield and AudioMemory have no effect on the player.
   analogRead() and millis() return anything.  The entries of the root directory are files with
   different names; SD.open() finds a file by its name.  new succeeds.  The
   audio interrupt and yield() may come between any two calls on the player. *)

From Coq Require Import ZArith List Bool.
From RecordUpdate Require Import RecordUpdate.
From Verif Require Import Machine Floats WavModel CacheModel ReaderModel ResponderModel PlayerModel LifeSpec SketchModel PianoModel.
Import ListNotations.
Local Open Scope Z_scope.

Record entry := mkEntry { en_name : list Z; en_file : file }.

Fixpoint starts_with (pat s : list Z) : bool :=
  match pat, s with
  | [], _ => true
  | c :: pat', d :: s' => (c =? d) && starts_with pat' s'
  | _, _ => false
  end.
(* String::lastIndexOf and String::indexOf of the Teensy core: the last and the first place, or -1 *)
Fixpoint last_from (pat s : list Z) (i found : Z) : Z :=
  match s with [] => found | _ :: s' => last_from pat s' (i + 1) (if starts_with pat s then i else found) end.
Definition lastIndexOf (s pat : list Z) : Z := last_from pat s 0 (-1).
Fixpoint first_from (pat s : list Z) (i : Z) : Z :=
  match s with [] => -1 | _ :: s' => if starts_with pat s then i else first_from pat s' (i + 1) end.
Definition indexOf (s pat : list Z) : Z := first_from pat s 0.
(* ".WAV", ".wav", "_" *)
Definition dotWAV : list Z := [46; 87; 65; 86].
Definition dotwav : list Z := [46; 119; 97; 118].
Definition underscore : list Z := [95].

(* The condition at sd_play_all.ino:103 and 133 *)
Definition listed (e : entry) : bool :=
  let m := lastIndexOf (en_name e) dotWAV in
  let a := lastIndexOf (en_name e) dotwav in
  ((0 <? m) || (0 <? a)) && negb (indexOf (en_name e) underscore =? 0).

(* getNumWavFilesInDirectory, sd_play_all.ino:84-112 *)
Fixpoint count_files (d : list entry) (numWaveFiles : Z) : Z :=
  match d with
  | [] => numWaveFiles
  | e :: d' => count_files d' (if listed e then u16 (numWaveFiles + 1) else numWaveFiles)
  end.

(* populateFilenames, sd_play_all.ino:114-140, into an array of size names *)
Fixpoint populate (size : Z) (d : list entry) (index : Z) (names : Z -> list Z) : res (Z -> list Z) :=
  match d with
  | [] => Ok names
  | e :: d' =>
      if listed e then
        _ <- at_index size index ;;
        populate size d' (u16 (index + 1)) (upd names index (en_name e))
      else populate size d' index names
  end.

(* SD.open() *)
Fixpoint same_name (a b : list Z) : bool :=
  match a, b with [], [] => true | x :: a', y :: b' => (x =? y) && same_name a' b' | _, _ => false end.
Fixpoint open_name (d : list entry) (name : list Z) : option file :=
  match d with [] => None | e :: d' => if same_name (en_name e) name then Some (en_file e) else open_name d' name end.

(* The variables of the sketch *)
Record pall := mkPall { pa_world : world; pa_count : Z; pa_names : Z -> list Z; pa_index : Z; pa_last : Z }.
#[export] Instance eta_pall : Settable _ := settable! mkPall <pa_world; pa_count; pa_names; pa_index; pa_last>.

(* One pass of loop(): the potentiometer, millis(), what comes before and after
   setPlaybackRate() and in delay(10), and the content of fresh memory *)
Record apass := mkApass {
  ap_pot : Z;
  ap_now : Z;
  ap_gap : nat -> list (option (nat * grant));
  ap_stack : bytes;
  ap_garbage : nat -> bytes }.

Definition started (xs : list wout) : bool := existsb (fun x => match x with WoPlay _ b => b | _ => false end) xs.

Section PlayAll.
Variable dir : list entry.

(* loop(), sd_play_all.ino:59-82; main() calls yield() after it.  The files that playWav()
   tried to play are logged. *)
Definition all_pass (fuel : nat) (t : apass) (s : pall) : res (list (option file) * pall) :=
  '(_, w) <- wops fuel (bg_ops (ap_gap t 0) ++ [WCall 0 (CRate (pot_rate (ap_pot t)))] ++ bg_ops (ap_gap t 1)) (pa_world s) ;;
  '(tried, s) <-
    (if (u32 (pa_last s + 1000) <? ap_now t) && negb (r_playing (w_rd w 0)) then
       _ <- at_index (pa_count s) (pa_index s) ;;
       let fo := open_name dir (pa_names s (pa_index s)) in
       '(xs, w) <- wops fuel [WPlayFile 0 fo true 0 (ap_stack t) (ap_garbage t)] w ;;
       let last := if started xs then ap_now t else pa_last s in
       if pa_count s =? 0 then UB UbDivZero else
       Ok ([fo], s <| pa_world := w |> <| pa_last := last |> <| pa_index := u16 (pa_index s + 1) mod pa_count s |>)
     else Ok ([], s <| pa_world := w |>)) ;;
  '(_, w) <- wops fuel (bg_ops (ap_gap t 2) ++ [WYield]) (pa_world s) ;;
  Ok (tried, s <| pa_world := w |>).

Fixpoint all_passes (fuel : nat) (l : list apass) (s : pall) : res (list (option file) * pall) :=
  match l with
  | [] => Ok ([], s)
  | t :: l' =>
      '(a, s1) <- all_pass fuel t s ;;
      '(b, s2) <- all_passes fuel l' s1 ;;
      Ok (a ++ b, s2)
  end.

(* setup(), sd_play_all.ino:31-57 *)
Definition all_setup (fuel : nat) (flags analog : Z) : res pall :=
  '(_, w) <- wops fuel [WCall 0 (CInterp IQuadratic); WCall 0 (CRate (pot_rate analog))] (world0 (fun _ => KSd) flags) ;;
  let n := count_files dir 0 in
  names <- populate n dir 0 (fun _ => []) ;;
  Ok (mkPall w n names 0 0).

Definition play_all (fuel : nat) (flags analog : Z) (l : list apass) : res (list (option file) * pall) :=
  s <- all_setup fuel flags analog ;;
  all_passes fuel l s.
End PlayAll.
