(* Histories of several players sharing the event responder, and the specification
   vocabulary of the player properties (C30, C33-C35, C40, C60, C61). *)

From Coq Require Import ZArith List Bool.
From RecordUpdate Require Import RecordUpdate.
From Flocq Require Import IEEE754.BinarySingleNaN.
From Verif Require Import Machine Floats WavModel CacheModel ReaderModel ResponderModel PlayerModel CacheSpec.
Import ListNotations.
Local Open Scope Z_scope.

(* Control calls, playresmp.h:44-47, 104-143, 163 *)
Inductive call :=
| CRate (x : b64)
| CLoopType (l : loop_type)
| CLoopStart (v : Z)
| CLoopFinish (v : Z)
| CDual (b : bool)
| CFade (n : Z)
| CStart (p : play_start) (v : Z)
| CInterp (i : interp)
| CBegin
| CReload.

Definition call_run (fuel : nat) (c : call) (r : reader) : res reader :=
  match c with
  | CRate x => setPlaybackRate r x
  | CLoopType l => Ok (setLoopType r l)
  | CLoopStart v => Ok (setLoopStart r v)
  | CLoopFinish v => Ok (setLoopFinish r v)
  | CDual b => Ok (setUseDualPlaybackHead r b)
  | CFade n => Ok (setCrossfadeDuration r n)
  | CStart p v => Ok (setPlayStart r p v)
  | CInterp i => Ok (setInterpolationType r i)
  | CBegin => Ok (r_begin r)
  | CReload => r_triggerReload fuel r
  end.

(* What can happen: the sketch's calls, updates in the audio interrupt with any
   allocation outcome, yield() and runPolled().  WStop carries the updates that
   interrupt stop() between its clearEvent() and its reader->stop(). *)
Inductive wop :=
| WPlayFile (i : nat) (fo : option file) (isWave : bool) (nraw : Z) (stack : bytes) (garbage : nat -> bytes)
| WPlayRaw (i : nat) (m : mem) (off len nch : Z)
| WPlayWavLen (i : nat) (m : mem) (off len : Z)
| WPlayWav (i : nat) (m : mem)
| WStop (i : nat) (mid : list (nat * (nat -> option nat)))
| WCall (i : nat) (c : call)
| WUpdate (i : nat) (alloc : nat -> option nat)
| WYield
| WPoll
| WForce (b : bool).

(* What is observed: results of play calls and runPolled(), and the block actions of
   updates with the player they belong to *)
Inductive wout := WoNone | WoPlay (i : nat) (ok : bool) | WoActs (l : list (nat * list bact)) | WoPoll (v : Z).

Fixpoint w_updates (fuel : nat) (l : list (nat * (nat -> option nat))) (w : world)
  : res (list (nat * list bact) * world) :=
  match l with
  | [] => Ok ([], w)
  | (i, alloc) :: l' =>
      '(acts, w1) <- w_update fuel i alloc w ;;
      '(more, w2) <- w_updates fuel l' w1 ;;
      Ok ((i, acts) :: more, w2)
  end.

(* stop() interrupted by updates; p_stop when there are none *)
Definition w_stop (fuel : nat) (i : nat) (mid : list (nat * (nat -> option nat))) (w : world)
  : res (list (nat * list bact) * world) :=
  '(acts, w2) <- w_updates fuel mid (on_sys (on_sys w disableResponse) (clearEvent i)) ;;
  Ok (acts, on_sys (set_rd w2 i (r_stop (w_rd w2 i))) enableResponse).

Definition always {A} (r : res A) : res (bool * A) := x <- r ;; Ok (true, x).

Definition wop_run (fuel : nat) (o : wop) (w : world) : res (wout * world) :=
  match o with
  | WPlayFile i fo isWave nraw stack garbage =>
      '(b, w') <- p_play_file i fo isWave nraw stack garbage w ;; Ok (WoPlay i b, w')
  | WPlayRaw i m off len nch =>
      '(b, w') <- p_play_array i (fun r => always (playRaw_array r m off len nch)) w ;; Ok (WoPlay i b, w')
  | WPlayWavLen i m off len =>
      '(b, w') <- p_play_array i (fun r => always (playWav_array_len r m off len)) w ;; Ok (WoPlay i b, w')
  | WPlayWav i m => '(b, w') <- p_play_array i (fun r => playWav_array r m) w ;; Ok (WoPlay i b, w')
  | WStop i mid => '(a, w') <- w_stop fuel i mid w ;; Ok (WoActs a, w')
  | WCall i c => r <- call_run fuel c (w_rd w i) ;; Ok (WoNone, set_rd w i r)
  | WUpdate i alloc => '(a, w') <- w_update fuel i alloc w ;; Ok (WoActs [(i, a)], w')
  | WYield => w' <- w_yield fuel w ;; Ok (WoNone, w')
  | WPoll => '(v, w') <- w_poll fuel w ;; Ok (WoPoll v, w')
  | WForce b => Ok (WoNone, on_sys w (setForceResponse b))
  end.

(* Array data is played by array players: for the others these calls do not compile *)
Definition wop_ok (kinds : nat -> rkind) (o : wop) : Prop :=
  match o with
  | WPlayRaw i _ _ _ _ | WPlayWavLen i _ _ _ | WPlayWav i _ => kinds i = KArray
  | _ => True
  end.

(* Players just constructed, flags as the Teensy core leaves them *)
Definition world0 (kinds : nat -> rkind) (flags : Z) : world :=
  mkWorld (fun i => new_reader (kinds i)) (sys0 flags).

Inductive wreach (kinds : nat -> rkind) (flags : Z) : world -> Prop :=
| wr_new : wreach kinds flags (world0 kinds flags)
| wr_op : forall fuel o w x w', wreach kinds flags w -> wop_ok kinds o ->
    wop_run fuel o w = Ok (x, w') -> wreach kinds flags w'.

(* A whole history, with the observations *)
Fixpoint wops (fuel : nat) (l : list wop) (w : world) : res (list wout * world) :=
  match l with
  | [] => Ok ([], w)
  | o :: l' =>
      '(x, w1) <- wop_run fuel o w ;;
      '(xs, w2) <- wops fuel l' w1 ;;
      Ok (x :: xs, w2)
  end.

(* No play call of player i succeeded; player i did nothing in its updates *)
Definition not_started (i : nat) (x : wout) : Prop := match x with WoPlay j true => j <> i | _ => True end.
Definition silent (i : nat) (x : wout) : Prop :=
  match x with WoActs l => forall a, In (i, a) l -> a = [] | _ => True end.

(* ---- audio blocks ---- *)

Fixpoint allocated (l : list bact) : list nat :=
  match l with [] => [] | BAlloc b :: l' => b :: allocated l' | _ :: l' => allocated l' end.
Fixpoint released (l : list bact) : list nat :=
  match l with [] => [] | BRelease b :: l' => b :: released l' | _ :: l' => released l' end.
(* Block, content and output of each transmission *)
Fixpoint sent (l : list bact) : list (nat * list Z * Z) :=
  match l with [] => [] | BTransmit b d ch :: l' => (b, d, ch) :: sent l' | _ :: l' => sent l' end.

(* The references held: taken by allocate(), given back by release(); a block is only
   sent or released while held *)
Fixpoint holding (h : list nat) (l : list bact) : option (list nat) :=
  match l with
  | [] => Some h
  | BAlloc b :: l' => holding (h ++ [b]) l'
  | BFail :: l' => holding h l'
  | BTransmit b _ _ :: l' => if in_dec Nat.eq_dec b h then holding h l' else None
  | BRelease b :: l' => match h with c :: h' => if Nat.eqb b c then holding h' l' else None | [] => None end
  end.

(* ---- end of the source ---- *)

(* Past the end, not looping *)
Definition exhausted (r : reader) : Prop :=
  r_playing r = true /\ at_end r = true /\ r_loop r = LNone /\ r_dual r = false /\ 0 < r_nch r.

(* Does not touch player i: no play, stop or control call of it; yield mode *)
Definition leaves (i : nat) (o : wop) : Prop :=
  match o with
  | WPlayFile j _ _ _ _ _ | WPlayRaw j _ _ _ _ | WPlayWavLen j _ _ _ | WPlayWav j _ | WStop j _ | WCall j _ => j <> i
  | WUpdate _ _ | WYield => True
  | WPoll | WForce _ => False
  end.
Definition is_yield (o : wop) : bool := match o with WYield => true | _ => false end.
Definition yields (l : list wop) : nat := length (filter is_yield l).

(* Yield mode: the sketch never forces polling *)
Definition yield_mode (o : wop) : Prop := match o with WPoll | WForce _ => False | _ => True end.

(* Plays a file on player i *)
Definition plays_file (o : wop) (i : nat) : Prop := match o with WPlayFile j _ _ _ _ _ => j = i | _ => False end.
