(* The example examples/FileAccess/FileAccess.ino: it plays a WAV file from the card in a
   crossfaded loop, at four rates in turn, and copies the file at the same time.

   Simplifications: Serial, the audio shield and AudioMemory have no effect on the player.
   millis() and random() return anything in their range.  The buffer filled in setup() (lines
   152-162) is used only if the example is compiled for arrays.  SD.remove() removes; a
   read returns what the file still has; a write succeeds.  The audio interrupt and yield() may come
   between any two calls on the player and while files are accessed. *)

From Coq Require Import ZArith List Bool.
From RecordUpdate Require Import RecordUpdate.
From Verif Require Import Machine Floats WavModel CacheModel ReaderModel ResponderModel PlayerModel LifeSpec SketchModel PianoModel.
Import ListNotations.
Local Open Scope Z_scope.

(* copystate, FileAccess.ino:45; exists is never entered *)
Inductive cstate := CIdle | CCopying | CComplete | CError.
Record copier := mkCopier { cp_state : cstate; cp_pos : Z; cp_dst : list Z; cp_count : Z }.
#[export] Instance eta_copier : Settable _ := settable! mkCopier <cp_state; cp_pos; cp_dst; cp_count>.

Fixpoint file_bytes (fl : file) (pos : Z) (n : nat) : list Z :=
  match n with O => [] | S m => fbyte fl pos :: file_bytes fl (pos + 1) m end.

(* The switch in loopCopyUpdate, FileAccess.ino:73-119: whether sweep-copy.wav could be
   opened, and what random(1100) returned.  A finished copy is logged, as it is printed. *)
Definition copy_step (src : option file) (opens : bool) (rnd : Z) (c : copier) : res (list (list Z * Z) * copier) :=
  match cp_state c with
  | CIdle =>
      match src with
      | Some _ => if opens then Ok ([], mkCopier CCopying 0 [] 0) else Ok ([], c <| cp_state := CError |>)
      | None => Ok ([], c <| cp_state := CError |>)
      end
  | CCopying =>
      match src with
      | None => UB UbNull
      | Some fl =>
          let n := rnd + 100 in
          let got := Z.max 0 (Z.min n (fsize fl - cp_pos c)) in
          _ <- at_index 1201 got ;; (* at most 1200 bytes fit into buffer *)
          count <- chk32 (cp_count c + got) ;;
          let c1 := c <| cp_pos := cp_pos c + got |> <| cp_dst := cp_dst c ++ file_bytes fl (cp_pos c) (Z.to_nat got) |> <| cp_count := count |> in
          Ok ([], if got =? n then c1 else c1 <| cp_state := CComplete |>)
      end
  | CComplete => Ok ([(cp_dst c, cp_count c)], c <| cp_state := CIdle |>)
  | CError => Ok ([], c <| cp_state := CIdle |>)
  end.

(* rates, FileAccess.ino:165 *)
Definition rates (i : Z) : b64 :=
  if i =? 0 then d1 else if i =? 1 then ddiv (d_of_Z 3) (d_of_Z 2) else if i =? 2 then d_of_Z (-1) else d_of_Z 2.

(* The variables of the sketch *)
Record access := mkAccess { fa_world : world; fa_rate : Z; fa_last : Z; fa_copy : copier }.
#[export] Instance eta_access : Settable _ := settable! mkAccess <fa_world; fa_rate; fa_last; fa_copy>.

(* One pass of loop(): millis(), what comes between the calls (0 first of all, 1 to 4 around
   the calls that start playback, 5 in delay(10), 6 during the file access, 7 at the end),
   the inputs of copy_step, what interrupts stop(), and the content of fresh memory *)
Record fpass := mkFpass {
  fp_now : Z;
  fp_gap : nat -> list (option (nat * grant));
  fp_opens : bool;
  fp_rnd : Z;
  fp_mid : list (nat * grant);
  fp_stack : bytes;
  fp_garbage : nat -> bytes }.

(* What a pass shows: the rates of the starts, and the copies finished *)
Inductive fact := FStart (rate : Z) (ok : list wout) | FCopied (dst : list Z) (count : Z).

Section Access.
Variable src : option file.

(* loopCopyUpdate, FileAccess.ino:47-122 *)
Definition copy_update (fuel : nat) (t : fpass) (s : access) : res (list fact * access) :=
  let w := on_sys (fa_world s) disableResponse in
  '(done, c) <- copy_step src (fp_opens t) (fp_rnd t) (fa_copy s) ;;
  '(_, w) <- wops fuel (bg_ops (fp_gap t 6)) w ;;
  Ok (map (fun x => FCopied (fst x) (snd x)) done, s <| fa_world := on_sys w enableResponse |> <| fa_copy := c |>).

(* The start of playback, FileAccess.ino:173-189 *)
Definition access_start (fuel : nat) (t : fpass) (s : access) : res (list fact * access) :=
  if r_playing (w_rd (fa_world s) 0) then Ok ([], s) else
  let rate := if 3 <? fa_rate s + 1 then 0 else fa_rate s + 1 in
  _ <- at_index 4 rate ;;
  '(xs, w) <- wops fuel ([WCall 0 (CRate (rates rate))] ++ bg_ops (fp_gap t 1) ++ [WCall 0 (CLoopType LNone)] ++ bg_ops (fp_gap t 2) ++
    [WPlayFile 0 src true 0 (fp_stack t) (fp_garbage t)] ++ bg_ops (fp_gap t 3) ++ [WCall 0 (CLoopType LRepeat)] ++ bg_ops (fp_gap t 4) ++ [WCall 0 (CLoopStart 22050)]) (fa_world s) ;;
  Ok ([FStart rate xs], s <| fa_world := w |> <| fa_rate := rate |> <| fa_last := fp_now t |>).

(* loop(), FileAccess.ino:168-195, up to loopCopyUpdate() *)
Definition access_front (fuel : nat) (t : fpass) (s : access) : res (list fact * access) :=
  '(_, w) <- wops fuel (bg_ops (fp_gap t 0)) (fa_world s) ;;
  let s := s <| fa_world := w |> in
  '(a, s) <- (if u32 (fa_last s + 50) <? fp_now t then access_start fuel t s else Ok ([], s)) ;;
  '(_, w) <- wops fuel (bg_ops (fp_gap t 5)) (fa_world s) ;;
  Ok (a, s <| fa_world := w |>).

(* loop(); main() calls yield() after it *)
Definition access_pass (fuel : nat) (t : fpass) (s : access) : res (list fact * access) :=
  '(a, s) <- access_front fuel t s ;;
  '(b, s) <- copy_update fuel t s ;;
  '(_, w) <- wops fuel ((if u32 (fa_last s + 1900) <? fp_now t then [WStop 0 (fp_mid t)] else []) ++ bg_ops (fp_gap t 7) ++ [WYield]) (fa_world s) ;;
  Ok (a ++ b, s <| fa_world := w |>).

Fixpoint access_passes (fuel : nat) (l : list fpass) (s : access) : res (list fact * access) :=
  match l with
  | [] => Ok ([], s)
  | t :: l' =>
      '(a, s1) <- access_pass fuel t s ;;
      '(b, s2) <- access_passes fuel l' s1 ;;
      Ok (a ++ b, s2)
  end.

(* setup(), FileAccess.ino:125-163 *)
Definition access_setup (fuel : nat) (flags : Z) : res access :=
  '(_, w) <- wops fuel [WCall 0 (CInterp IQuadratic); WCall 0 (CDual true); WCall 0 (CFade 500)] (world0 (fun _ => KSd) flags) ;;
  Ok (mkAccess w 0 0 (mkCopier CIdle 0 [] 0)).

Definition file_access (fuel : nat) (flags : Z) (l : list fpass) : res (list fact * access) :=
  s <- access_setup fuel flags ;;
  access_passes fuel l s.
End Access.
