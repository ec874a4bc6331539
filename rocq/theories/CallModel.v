(* The sketch's calls on a reader, step by step: src/ResamplingReader.h,
   ResamplingArrayReader.h and ResamplingSdReader.h as in ReaderModel.v, but with every
   point at which update() may interrupt the call.

   - A member is read or written at once (also the doubles), in the order of the text:
     the compiler is not assumed to move accesses across each other.
   - Reads of members that update() does not write are put together with the step that
     uses them; _bufferPosition1, _bufferPosition2, _crossfade and _playbackRate, which it
     writes, are read in a step of their own ([look]).
   - What a call does to the file object while nothing plays (opening it, its loop
     settings, preloading) is one step each. *)

From Coq Require Import ZArith Lia List Bool.
From RecordUpdate Require Import RecordUpdate.
From Flocq Require Import IEEE754.BinarySingleNaN.
From Verif Require Import Machine Floats WavModel InterpModel CacheModel ReaderModel.
Import ListNotations.
Local Open Scope Z_scope.

(* A call: finished with a result, or an access to the members and what follows, which
   may depend on what was read in that access *)
Inductive prog :=
| Done (b : bool)
| Step (g : reader -> res reader) (k : reader -> prog).

(* Without interruptions *)
Fixpoint prog_run (p : prog) (r : reader) : res (bool * reader) :=
  match p with
  | Done b => Ok (b, r)
  | Step g k => r1 <- g r ;; prog_run (k r1) r1
  end.

(* One call after another *)
Fixpoint pseq (p : prog) (q : prog) : prog :=
  match p with
  | Done _ => q
  | Step g k => Step g (fun r => pseq (k r) q)
  end.

(* Reading members, writing members, computing a local value *)
Definition look (k : reader -> prog) : prog := Step Ok k.
Definition write (g : reader -> reader) (k : prog) : prog := Step (fun r => Ok (g r)) (fun _ => k).
Definition local {A} (x : res A) (k : A -> prog) : prog :=
  match x with
  | Ok a => k a
  | UB u => Step (fun _ => UB u) (fun _ => Done false)
  | NoFuel => Step (fun _ => NoFuel) (fun _ => Done false)
  end.

(* Setters, ResamplingReader.h:644-657, 674-677 *)
Definition dual_steps (b : bool) : prog := write (fun r => setUseDualPlaybackHead r b) (Done true).
Definition fade_steps (n : Z) : prog := write (fun r => setCrossfadeDuration r n) (Done true).
Definition interp_steps (i : interp) : prog := write (fun r => setInterpolationType r i) (Done true).
Definition start_steps (p : play_start) (v : Z) : prog :=
  write (fun r => r <| r_pstart := p |>) (write (fun r => r <| r_pbstart := s32 v |>) (Done true)).

(* setLoopType, ResamplingReader.h:565-570: the file object first *)
Definition src_loop_type (l : loop_type) (r : reader) : reader :=
  match r_src r with SFile f => r <| r_src := SFile (if_setLoopType f l) |> | _ => r end.
Definition loop_type_steps (l : loop_type) : prog :=
  write (src_loop_type l) (write (fun r => r <| r_loop := l |>) (Done true)).

(* setLoopStart, ResamplingReader.h:631-635: the file object last *)
Definition src_loop_start (r : reader) : reader :=
  match r_src r with SFile f => r <| r_src := SFile (if_setLoopStart f (spos r (r_ls r))) |> | _ => r end.
Definition loop_start_steps (v : Z) : prog :=
  write (fun r => r <| r_ls := s32 v |>) (write src_loop_start (Done true)).

(* setLoopFinish, ResamplingReader.h:637-642 *)
Definition src_loop_finish (r : reader) : reader :=
  match r_src r with SFile f => r <| r_src := SFile (if_setLoopFinish f (spos r (r_lf r))) |> | _ => r end.
Definition loop_finish_steps (v : Z) : prog :=
  write (fun r => r <| r_lf := s32 v |>) (write src_loop_finish (Done true)).

(* _bufferPosition1 = _samples_to_start(n) *)
Definition seek_steps (n : reader -> res Z) : prog :=
  Step (fun r => x <- n r ;; Ok (r <| r_pos1 := spos r x |>)) (fun _ => Done true).
Definition from_finish (r : reader) : res Z :=
  chk32 (match r_pstart r with PSample => r_fsamples r | _ => r_lf r end - 1).

(* setPlaybackRate, ResamplingReader.h:517-552: the rate is written first, then the
   position is compared with the header (and _crossfade with 0 before that), and at last
   the position may be written *)
Definition rate_steps (f : b64) : prog :=
  write (fun r => r <| r_rate := f |>)
    (look (fun r =>
       if negb (r_dual r) then
         if dlt f d0 then
           if r_pos1 r <=? r_hdr r then seek_steps from_finish else Done true
         else if dle d0 f && (r_pos1 r <? r_hdr r) then
           seek_steps (fun r => Ok (match r_pstart r with PSample => 0 | _ => r_ls r end))
         else Done true
       else if deq (r_cf r) d0 then
         look (fun r =>
           if dlt f d0 then
             if r_pos1 r <=? r_hdr r then seek_steps from_finish else Done true
           else if dle d0 f && (r_pos1 r <? r_hdr r) then
             write (fun r => r <| r_pos1 := r_hdr r |>) (Done true)
           else Done true)
       else Done true)).

(* loop(numSamples), ResamplingReader.h:558-563 *)
Definition loop_steps (num : Z) : prog :=
  look (fun r => let one := dlt (r_cf r) d1 in
  look (fun r => let p := if one then r_pos1 r else r_pos2 r in
  Step (fun r => q <- sdiv32 p (r_nch r) ;; Ok (r <| r_ls := q |>)) (fun r =>
  let q := r_ls r in
  write (fun r => r <| r_lf := s32 (u32 (q + num)) |>)
  (write (fun r => r <| r_loop := LRepeat |>) (Done true))))).

(* stop(), ResamplingReader.h:208-213 *)
Definition stop_steps : prog :=
  look (fun r => if r_playing r then write r_stop (Done true) else Done true).

(* begin(), ResamplingReader.h:27-39 *)
Definition begin_steps : prog :=
  write r_stop
  (write (fun r => r <| r_cf := d0 |>)
  (write (fun r => r <| r_pos1 := match r_pstart r with PSample => r_hdr r | _ => r_ls r end |>)
  (write (fun r => r <| r_fsize := 0 |>) (Done true)))).

(* close(): ResamplingArrayReader.h:36-40; ResamplingSdReader.h:53-68 *)
Definition drop_src (r : reader) : reader :=
  match r_kind r with
  | KArray => r
  | _ => r <| r_src := SNull |> <| r_live := r_live r - src_blocks (r_src r) |>
  end.
Definition drop_fname (r : reader) : reader :=
  match r_kind r with
  | KArray => r
  | _ => r <| r_fname := false |> <| r_live := r_live r - (if r_fname r then 1 else 0) |>
  end.
Definition close_steps : prog :=
  pseq stop_steps (write drop_src (write drop_fname (Done true))).

(* reset(), ResamplingReader.h:580-622 *)
Definition reset_points (r : reader) : reader :=
  r <| r_npts := fun c => if (0 <=? c) && (c <? 8) then 0 else r_npts r c |>.
Definition reset_pos (r : reader) : res reader :=
  p <- (if dle d0 (r_rate r) then
          match r_pstart r with
          | PSample => Ok (spos r 0)
          | PLoop => Ok (spos r (r_ls r))
          | PArbitrary => Ok (spos r (r_pbstart r))
          end
        else
          match r_pstart r with
          | PSample => chk32 (Z.quot (r_fsize r) 2 - r_nch r)
          | PLoop => n <- chk32 (r_lf r - r_nch r) ;; Ok (spos r n)
          | PArbitrary => Ok (spos r (r_pbstart r))
          end) ;;
  Ok (r <| r_pos1 := p |>).
Definition reset_steps (k : prog) : prog :=
  write reset_points
  (Step reset_pos (fun _ =>
  write (fun r => r <| r_cf := d0 |>)
  (write (fun r => r <| r_cfst := 0 |>) k))).

(* _playing = true; return true *)
Definition go : prog := write (fun r => r <| r_playing := true |>) (Done true).

(* play(), ResamplingReader.h:200-206 *)
Definition again_steps : prog := pseq stop_steps (reset_steps go).

(* playRaw(array, length, numChannels), ResamplingReader.h:41-56 *)
Definition raw_steps (m : mem) (off len nch : Z) : prog :=
  write (fun r => r <| r_src := SArr m off |>)
  (pseq stop_steps
  (write (fun r => r <| r_hdr := 0 |>)
  (write (fun r => r <| r_fsize := s32 (u32 (len * 2)) |>)
  (write (fun r => r <| r_ls := 0 |>)
  (write (fun r => r <| r_lf := s32 len |>)
  (write (fun r => r <| r_fsamples := s32 len |>)
  (write (fun r => setNumChannels r nch)
  (reset_steps go)))))))).

(* playWav(array), ResamplingReader.h:66-93 *)
Definition wav_steps (m : mem) : prog :=
  let rd := rd_mem m 0 in
  local (readWaveHeaderFromBuffer rd (has_nul (mbyte m) 0 (Z.to_nat (msize m))) hdr0) (fun '(ok, h) =>
  if negb ok then Done false else
  local (readInfoTags rd 36) (fun tags =>
  match tags with
  | None => Done false
  | Some n =>
      local (readDataHeader rd (u32 (36 + n))) (fun dh =>
      match dh with
      | None => Done false
      | Some db =>
          if u32 (h_channels h) =? 0 then local (UB UbDivZero : res unit) (fun _ => Done false)
          else raw_steps m (u32 (36 + n + 8)) (db / u32 (h_channels h) / 2) (u16 (h_channels h))
      end)
  end)).

(* The header part of play(filename, true), ResamplingReader.h:114-144; [k] follows with
   the position in the file *)
Definition header_steps (keep : bool) (f : file) (stack : bytes) (k : Z -> prog) : prog :=
  let b := fread f 0 36 stack in
  let p := fread_len f 0 36 in
  local (readWaveHeaderFromBuffer (rd_buf b) (has_nul b 0 36) hdr0) (fun '(_, h) =>
  if negb (h_bits h =? 16) then Done false else
  write (fun r => setNumChannels r (u16 (h_channels h)))
  (let b1 := fread f p 8 b in
   let p1 := p + fread_len f p 8 in
   local (readInfoTags (rd_buf b1) 0) (fun tags =>
   match tags with
   | None => Done false
   | Some n =>
       let p2 := fseek keep f p1 (u32 (36 + n)) in
       let b2 := fread f p2 8 b1 in
       let p3 := p2 + fread_len f p2 8 in
       local (readDataHeader (rd_buf b2) 0) (fun dh =>
       match dh with
       | None => Done false
       | Some db =>
           write (fun r => r <| r_hdr := u32 (44 + n) / 2 |>)
           (write (fun r => r <| r_fsamples := db / 2 |>) (k p3))
       end)
   end))).

(* preLoadBuffers, ResamplingReader.h:172-175 *)
Definition preload_step (r : reader) : res reader :=
  match r_src r with
  | SFile g =>
      '(_, g') <- preLoadBuffers g (r_pos1 r) (dle d0 (r_rate r)) ;;
      Ok (r <| r_src := SFile g' |>
            <| r_live := r_live r + 2 * (Z.of_nat (length (i_bufs g')) - Z.of_nat (length (i_bufs g))) |>)
  | _ => UB UbNull
  end.

(* The rest of play(filename), ResamplingReader.h:146-178 *)
Definition open_steps (f : file) (p : Z) (garbage : nat -> bytes) : prog :=
  look (fun r =>
  if u32 (r_fsize r) <=? u32 (r_hdr r * 2) then
    write r_stop (write drop_name (Done false))
  else
    Step (fun r => fs <- sdiv32 (r_fsamples r) (r_nch r) ;; Ok (r <| r_fsamples := fs |>)) (fun r =>
    write (fun r => match r_loop r with LNone => r <| r_ls := 0 |> | _ => r end)
    (write (fun r => match r_loop r with LNone => r <| r_lf := r_fsamples r |> | _ => r end)
    (write (fun r => r <| r_src := SFile (if_new (r_cfg r) f p garbage) |> <| r_live := r_live r + 2 |>)
    (write copy_loop
    (reset_steps (Step preload_step (fun _ => go)))))))).

(* play(filename, isWave, numChannelsIfRaw), ResamplingReader.h:95-180; [k], [c]: the class
   and its template arguments *)
Definition file_steps (k : rkind) (c : ccfg) (fo : option file) (isWave : bool) (nraw : Z) (stack : bytes)
    (garbage : nat -> bytes) : prog :=
  pseq close_steps
  ((if isWave then fun q => q else write (fun r => setNumChannels r nraw))
  (write (fun r => r <| r_fname := true |> <| r_live := r_live r + 1 |>)
  match (match k with KArray => None | _ => fo end) with
  | None => write drop_name (Done false)
  | Some f =>
      write (fun r => r <| r_fsize := s32 (fsize f) |>)
      (if isWave then header_steps (c_keep c) f stack (fun p => open_steps f p garbage)
       else write (fun r => r <| r_fsamples := Z.quot (r_fsize r) 2 |>) (open_steps f 0 garbage))
  end)).
