(* Model of src/IndexableFile.h: class indexedbuffer and class
   IndexableFile<BUFFER_SIZE, MAX_NUM_BUFFERS, TFile>.

   Simplifications, common to all definitions of this file:
   - the std::vector of pointers is a list of buffer values (the pointers are
     pairwise distinct);
   - AudioNoInterrupts/AudioInterrupts brackets are not represented: operations
     here are sequential (interruption of a load is modelled in RaceModel.v);
   - the counter [fails] is unbounded;
   - the PSRAM flag only selects the allocator and is dropped;
   - member [bufs] (line 333/360) is write-only and dropped. *)

From Coq Require Import ZArith Lia List Bool.
From RecordUpdate Require Import RecordUpdate.
From Flocq Require Import IEEE754.BinarySingleNaN.
From Verif Require Import Machine Floats WavModel.
Import ListNotations.
Local Open Scope Z_scope.

(* loop_type.h:8-12 *)
Inductive loop_type := LNone | LRepeat | LPingpong.

Definition loop_eqb (a b : loop_type) : bool :=
  match a, b with
  | LNone, LNone | LRepeat, LRepeat | LPingpong, LPingpong => true
  | _, _ => false
  end.

(* IndexableFile.h:51 (and the constructor's '.', line 18) *)
Inductive bstatus := StConstructed | StLoaded | StUnused | StRead.

Definition is_read (s : bstatus) : bool := match s with StRead => true | _ => false end.
Definition is_unused (s : bstatus) : bool := match s with StUnused => true | _ => false end.

(* class indexedbuffer, IndexableFile.h:14-38: [b_data] are the bytes of the
   sample buffer, uninitialised (arbitrary) until written. *)
Record ibuf := mkBuf {
  b_index : Z;       (* uint32_t *)
  b_size : Z;        (* int16_t: bytes loaded *)
  b_status : bstatus;
  b_data : bytes }.
#[export] Instance eta_ibuf : Settable _ := settable! mkBuf <b_index; b_size; b_status; b_data>.

(* Template parameters and platform: BUFFER_SIZE = 2^c_shift samples,
   MAX_NUM_BUFFERS, seek policy, and TEENSYDUINO (line 347). *)
Record ccfg := mkCfg {
  c_shift : Z;
  c_nbuf : nat;
  c_keep : bool;
  c_teensy : bool }.

Definition BS (c : ccfg) : Z := 2 ^ c_shift c.

(* ResamplingSdReader.h:18-19, ResamplingLfsReader.h, ResamplingSerialFlashReader.h *)
Definition cfg_sd : ccfg := mkCfg 11 7 true true.
Definition cfg_lfs : ccfg := mkCfg 11 7 true true.
Definition cfg_flash : ccfg := mkCfg 7 2 false true.

(* class IndexableFile, IndexableFile.h:46-484.  [i_garbage n] is the initial
   content of the n-th buffer allocated. *)
Record ifile := mkIF {
  i_cfg : ccfg;
  i_file : file;
  i_pos : Z;                       (* file position *)
  i_fails : Z;
  i_prev : b32;                    (* prevPlaybackRate *)
  i_loop : loop_type;
  i_lsb : Z;                       (* _loop_start_blocks *)
  i_lfb : Z;                       (* _loop_finish_blocks *)
  i_bufs : list ibuf;
  i_garbage : nat -> bytes }.
#[export] Instance eta_ifile : Settable _ :=
  settable! mkIF <i_cfg; i_file; i_pos; i_fails; i_prev; i_loop; i_lsb; i_lfb; i_bufs; i_garbage>.

(* Constructor, IndexableFile.h:62-71, plus _file = file (IndexableSDFile.h:20) *)
Definition if_new (c : ccfg) (f : file) (pos : Z) (garbage : nat -> bytes) : ifile :=
  mkIF c f pos 0 f0 LNone 0 0 [] garbage.

(* i >> buffer_to_index_shift on int: arithmetic shift (GCC) *)
Definition blk (c : ccfg) (i : Z) : Z := i / BS c.

(* setLoopType/Start/Finish, IndexableFile.h:452-454 *)
Definition if_setLoopType (f : ifile) (l : loop_type) : ifile := f <| i_loop := l |>.
Definition if_setLoopStart (f : ifile) (l : Z) : ifile := f <| i_lsb := blk (i_cfg f) l |>.
Definition if_setLoopFinish (f : ifile) (l : Z) : ifile := f <| i_lfb := blk (i_cfg f) l |>.

(* find_with_index(uint32_t i), IndexableFile.h:474-483: marks the buffers it
   passes as unused (unless read); on a match returns its position. *)
Fixpoint find_with_index (i : Z) (l : list ibuf) : option nat * list ibuf :=
  match l with
  | [] => (None, [])
  | x :: l' =>
      if (b_index x =? i) && (0 <? b_size x) then (Some O, l)
      else
        let x' := if is_read (b_status x) then x else x <| b_status := StUnused |> in
        let '(r, l2) := find_with_index i l' in
        (option_map S r, x' :: l2)
  end.

Fixpoint list_upd {A} (n : nat) (g : A -> A) (l : list A) : list A :=
  match l, n with
  | [], _ => []
  | x :: l', O => g x :: l'
  | x :: l', S n' => x :: list_upd n' g l'
  end.

(* int16_t &operator[](int i), IndexableFile.h:418-431 (read access) *)
Definition if_get (f : ifile) (i : Z) : Z * ifile :=
  let c := i_cfg f in
  let '(m, bufs) := find_with_index (u32 (blk c i)) (i_bufs f) in
  match m with
  | None => (0, f <| i_bufs := bufs |> <| i_fails := i_fails f + 1 |>)
  | Some n =>
      let v := match nth_error bufs n with
               | Some b => le16 (b_data b) (2 * (i mod BS c))
               | None => 0
               end in
      (v, f <| i_bufs := list_upd n (fun b => b <| b_status := StRead |>) bufs |>)
  end.

(* loadBuffer(buf, i), IndexableFile.h:337-363: returns the new buffer, the new
   file position and the number of bytes read. *)
Definition loadBuffer (f : ifile) (b : ibuf) (i : Z) : ibuf * Z * Z :=
  let c := i_cfg f in
  let basePos := u32 i - u32 i mod BS c in
  let seekPos := u32 (basePos * 2) in
  let p := fseek (c_keep c) (i_file f) (i_pos f) seekPos in
  let n := fread_len (i_file f) p (BS c * 2) in
  let d := fread (i_file f) p (BS c * 2) (b_data b) in
  let p' := p + n in
  let p'' := if negb (c_teensy c) && (fsize (i_file f) <=? p') then 0 else p' in
  (mkBuf (u32 (blk c i)) (s16 n) StLoaded d, p'', n).

(* Loop of preLoadBuffers, IndexableFile.h:378-404: [bufn] counts up to
   MAX_NUM_BUFFERS, [todo] = MAX_NUM_BUFFERS - bufn. *)
Fixpoint preload_loop (todo : nat) (bufn : nat) (forwards : bool) (f : ifile) (i total : Z)
  : res (Z * ifile) :=
  match todo with
  | O => Ok (total, f)
  | S todo' =>
      let f1 :=
        if Nat.leb (length (i_bufs f)) bufn
        then f <| i_bufs := i_bufs f ++ [mkBuf 0 0 StConstructed (i_garbage f bufn)] |>
        else f in
      match nth_error (i_bufs f1) bufn with
      | None => UB UbVector
      | Some b =>
          let '(b', p, n) := loadBuffer f1 b i in
          let f2 := f1 <| i_bufs := list_upd bufn (fun _ => b') (i_bufs f1) |> <| i_pos := p |> in
          if n <? BS (i_cfg f) then Ok (total + n, f2)
          else
            i' <- chk32 (if forwards then i + BS (i_cfg f) else i - BS (i_cfg f)) ;;
            preload_loop todo' (S bufn) forwards f2 i' (total + n)
      end
  end.

(* preLoadBuffers(i, bufInPSRAM, forwards), IndexableFile.h:369-407.  The
   increment after the last buffer (i += BUFFER_SIZE) is included, hence the
   overflow check there too. *)
Definition preLoadBuffers (f : ifile) (i : Z) (forwards : bool) : res (Z * ifile) :=
  preload_loop (c_nbuf (i_cfg f)) 0 forwards f i 0.

(* resetStatus, IndexableFile.h:237-245 *)
Definition if_resetStatus (f : ifile) : ifile :=
  f <| i_bufs := map (fun b => b <| b_status := StLoaded |>) (i_bufs f) |>.

(* findMaxBuffer()->index / findMinBuffer()->index, IndexableFile.h:267-330
   (both branches of includeLoopEnds are identical). *)
Fixpoint max_index (m : Z) (l : list ibuf) : Z :=
  match l with
  | [] => m
  | x :: l' => max_index (if m <? b_index x then b_index x else m) l'
  end.
Fixpoint min_index (m : Z) (l : list ibuf) : Z :=
  match l with
  | [] => m
  | x :: l' => min_index (if b_index x <? m then b_index x else m) l'
  end.

(* enum bufferAction_e, IndexableFile.h:49 *)
Inductive baction := NopBuffer | MoveBuffer | ReverseBuffer.

(* _buffers[MAX_NUM_BUFFERS - 1], unchecked vector access *)
Definition last_slot (f : ifile) : res ibuf :=
  match nth_error (i_bufs f) (c_nbuf (i_cfg f) - 1) with
  | Some b => Ok b
  | None => UB UbVector
  end.

(* One decision of the reload loop, IndexableFile.h:113-193: the next block
   index (int), whether to load it, and what to do with the vector.
   [b0] is _buffers[0]. *)
Definition reload_decide (f : ifile) (rate : b32) (b0 : ibuf) : res (Z * bool * baction) :=
  if fle f0 rate then
    let nextIdx := s32 (u32 (max_index (b_index b0) (i_bufs f) + 1)) in
    match i_loop f with
    | LNone => Ok (nextIdx, true, MoveBuffer)
    | LRepeat =>
        if i_lfb f <? nextIdx then
          lb <- last_slot f ;;
          let nextLast := s32 (b_index lb) in
          nl1 <- chk32 (nextLast + 1) ;;
          Ok (if nl1 =? nextIdx then i_lsb f else nl1, true, MoveBuffer)
        else Ok (nextIdx, true, MoveBuffer)
    | LPingpong =>
        if i_lfb f <? nextIdx then
          lb <- last_slot f ;;
          Ok (nextIdx, false, if is_read (b_status lb) then ReverseBuffer else NopBuffer)
        else Ok (nextIdx, true, MoveBuffer)
    end
  else
    let nextIdx := s32 (u32 (min_index (b_index b0) (i_bufs f) - 1)) in
    match i_loop f with
    | LNone => Ok (nextIdx, negb (nextIdx <? 0), MoveBuffer)
    | LRepeat =>
        if nextIdx <? i_lsb f then
          lb <- last_slot f ;;
          let nextLast := s32 (b_index lb) in
          nl1 <- chk32 (nextLast - 1) ;;
          Ok (if nl1 =? nextIdx then i_lfb f else nl1, true, MoveBuffer)
        else Ok (nextIdx, true, MoveBuffer)
    | LPingpong =>
        if nextIdx <? i_lsb f then
          lb <- last_slot f ;;
          Ok (nextIdx, false, if is_read (b_status lb) then ReverseBuffer else NopBuffer)
        else Ok (nextIdx, true, MoveBuffer)
    end.

(* One iteration of the while loop of triggerReload, IndexableFile.h:111-231:
   [None] = the loop condition is false; [Some (go_on, f')]. The left shift of a
   signed int (line 194) is taken modulo 2^32 (GCC). *)
Definition reload_step (f : ifile) (rate : b32) : res (option (bool * ifile)) :=
  match i_bufs f with
  | [] => Ok None
  | b0 :: rest =>
      if negb (is_unused (b_status b0)) then Ok None
      else
        '(nextIdx, doLoad, act) <- reload_decide f rate b0 ;;
        let sample := s32 (nextIdx * BS (i_cfg f)) in
        let '(b0', p) :=
          if (doLoad : bool) then let '(b', p, _) := loadBuffer f b0 sample in (b', p)
          else (b0, i_pos f) in
        let f1 := f <| i_bufs := b0' :: rest |> <| i_pos := p |> in
        match act with
        | ReverseBuffer =>
            Ok (Some (true, f1 <| i_bufs := rev (b0' :: rest) |> <| i_prev := fneg (i_prev f) |>))
        | MoveBuffer => Ok (Some (true, f1 <| i_bufs := rest ++ [b0'] |>))
        | NopBuffer => Ok (Some (false, f1))
        end
  end.

Fixpoint reload_loop (fuel : nat) (f : ifile) (rate : b32) : res ifile :=
  match fuel with
  | O => NoFuel
  | S fuel' =>
      o <- reload_step f rate ;;
      match o with
      | None => Ok f
      | Some (true, f') => reload_loop fuel' f' rate
      | Some (false, f') => Ok f'
      end
  end.

(* Direction used by the reload loop, IndexableFile.h:98-109 *)
Definition reload_rate (f : ifile) (rate : b32) : b32 :=
  if loop_eqb (i_loop f) LPingpong &&
     ((fle f0 rate && flt (i_prev f) f0) || (flt rate f0 && fle f0 (i_prev f)))
  then i_prev f else rate.

(* void triggerReload(float playbackRate), IndexableFile.h:96-235 *)
Definition triggerReload (fuel : nat) (f : ifile) (rate : b32) : res ifile :=
  f' <- reload_loop fuel f (reload_rate f rate) ;;
  let f2 := if_resetStatus f' in
  Ok (if feq f0 (i_prev f2) then f2 <| i_prev := rate |> else f2).

(* close(), IndexableFile.h:433-450: buffers freed, vector cleared.  (The file
   handle is closed only when bytes remain; not represented.) *)
Definition if_close (f : ifile) : ifile := f <| i_bufs := [] |>.
