(* Model of src/ResamplingReader.h and of the four concrete readers
   ResamplingArrayReader.h, ResamplingSdReader.h, ResamplingLfsReader.h,
   ResamplingSerialFlashReader.h.

   Simplifications common to the file:
   - InterpolationData.x is write-only in the reader and dropped;
   - Serial output, PSRAM flag (allocator choice) dropped;
   - output pointers: a call of read() returns the list of frames it stored,
     a frame being the list of the channels' samples.  Samples of an incomplete
     last frame (end reached in the middle of a frame) are dropped; the end test
     does not depend on the channel so there are none. *)

From Coq Require Import ZArith Lia List Bool.
From RecordUpdate Require Import RecordUpdate.
From Flocq Require Import IEEE754.BinarySingleNaN.
From Verif Require Import Machine Floats WavModel InterpModel CacheModel.
Import ListNotations.
Local Open Scope Z_scope.

(* loop_type.h:14-18 *)
Inductive play_start := PSample | PLoop | PArbitrary.

(* interpolation.h:11-15 *)
Inductive interp := INone | ILinear | IQuadratic.

(* Which concrete reader class *)
Inductive rkind := KArray | KSd | KLfs | KFlash.

(* TArray *_sourceBuffer: null, the user's memory at a byte offset, or an
   IndexableFile object *)
Inductive source :=
| SNull
| SArr (m : mem) (off : Z)
| SFile (f : ifile).

(* The four ordinates of InterpolationData[4] of a channel *)
Record quad := mkQuad { y0 : Z; y1 : Z; y2 : Z; y3 : Z }.
#[export] Instance eta_quad : Settable _ := settable! mkQuad <y0; y1; y2; y3>.

(* Data members, ResamplingReader.h:727-755.  [r_live] is a ghost: the number of
   heap blocks currently owned or lost (file name 1; IndexableFile 1 + its file
   name 1 + two per buffer). *)
Record reader := mkReader {
  r_kind : rkind;
  r_cfg : ccfg;
  r_playing : bool;
  r_fsize : Z;                 (* _file_size *)
  r_hdr : Z;                   (* _header_offset *)
  r_rate : b64;                (* _playbackRate *)
  r_rem : b64;                 (* _remainder *)
  r_loop : loop_type;
  r_pstart : play_start;
  r_pos1 : Z;
  r_pos2 : Z;
  r_cf : b64;                  (* _crossfade *)
  r_dual : bool;
  r_cfdur : Z;                 (* _crossfadeDurationInSamples *)
  r_cfst : Z;                  (* _crossfadeState *)
  r_pbstart : Z;               (* _playback_start *)
  r_ls : Z;                    (* _loop_start *)
  r_lf : Z;                    (* _loop_finish *)
  r_fsamples : Z;              (* _file_samples *)
  r_nch : Z;                   (* _numChannels, int16 *)
  r_fname : bool;              (* _filename != nullptr *)
  r_src : source;
  r_interp : interp;
  r_npts : Z -> Z;             (* _numInterpolationPoints[8] *)
  r_pts : Z -> quad;           (* _interpolationPoints[8][4].y *)
  r_live : Z }.
#[export] Instance eta_reader : Settable _ :=
  settable! mkReader <r_kind; r_cfg; r_playing; r_fsize; r_hdr; r_rate; r_rem; r_loop;
    r_pstart; r_pos1; r_pos2; r_cf; r_dual; r_cfdur; r_cfst; r_pbstart; r_ls; r_lf;
    r_fsamples; r_nch; r_fname; r_src; r_interp; r_npts; r_pts; r_live>.

(* Template arguments, e.g. ResamplingSdReader.h:15-23 *)
Definition cfg_of (k : rkind) : ccfg :=
  match k with KFlash => cfg_flash | KLfs => cfg_lfs | _ => cfg_sd end.

(* Member initialisers, ResamplingReader.h:728-755 (_file_size has none; the
   players call begin() in their constructor, which sets it) *)
Definition reader_init (k : rkind) : reader :=
  mkReader k (cfg_of k) false 0 0 d1 d0 LNone PSample 0 0 d0 false 256 0 0 0 0 0 (-1)
    false SNull INone (fun _ => 0) (fun _ => mkQuad 0 0 0 0) 0.

(* void begin(), ResamplingReader.h:27-39 *)
Definition r_begin (r : reader) : reader :=
  r <| r_playing := false |>
    <| r_cf := d0 |>
    <| r_pos1 := match r_pstart r with PSample => r_hdr r | _ => r_ls r end |>
    <| r_fsize := 0 |>.

(* A freshly constructed player's reader (playsdresmp.h:19-24 etc.) *)
Definition new_reader (k : rkind) : reader := r_begin (reader_init k).

(* _samples_to_start, ResamplingReader.h:626-629: unsigned 32-bit arithmetic *)
Definition sts (r : reader) (samples : Z) : Z := u32 (r_hdr r + samples * r_nch r).
(* ... converted to int32_t / assigned to int *)
Definition spos (r : reader) (samples : Z) : Z := s32 (sts r samples).

(* stop(), ResamplingReader.h:208-213 *)
Definition r_stop (r : reader) : reader := r <| r_playing := false |>.

(* setNumChannels(uint16_t), ResamplingReader.h:663-668 *)
Definition setNumChannels (r : reader) (n : Z) : reader := r <| r_nch := s16 n |>.

(* Heap blocks owned by a source object *)
Definition src_blocks (s : source) : Z :=
  match s with SFile f => 2 + 2 * Z.of_nat (length (i_bufs f)) | _ => 0 end.

(* close(): ResamplingArrayReader.h:36-40; ResamplingSdReader.h:53-68 (Lfs and
   SerialFlash identical) *)
Definition r_close (r : reader) : reader :=
  match r_kind r with
  | KArray => r_stop r
  | _ =>
      let live := r_live r - src_blocks (r_src r) - (if r_fname r then 1 else 0) in
      r_stop r <| r_src := SNull |> <| r_fname := false |> <| r_live := live |>
  end.

(* setLoopType, ResamplingReader.h:565-570; array specialisation 799 *)
Definition setLoopType (r : reader) (l : loop_type) : reader :=
  let r1 := match r_src r with
            | SFile f => r <| r_src := SFile (if_setLoopType f l) |>
            | _ => r
            end in
  r1 <| r_loop := l |>.

(* setLoopStart, ResamplingReader.h:631-635; array specialisation 801 *)
Definition setLoopStart (r : reader) (v : Z) : reader :=
  let r1 := r <| r_ls := s32 v |> in
  match r_src r1 with
  | SFile f => r1 <| r_src := SFile (if_setLoopStart f (spos r1 (r_ls r1))) |>
  | _ => r1
  end.

(* setLoopFinish, ResamplingReader.h:637-642; array specialisation 803 *)
Definition setLoopFinish (r : reader) (v : Z) : reader :=
  let r1 := r <| r_lf := s32 v |> in
  match r_src r1 with
  | SFile f => r1 <| r_src := SFile (if_setLoopFinish f (spos r1 (r_lf r1))) |>
  | _ => r1
  end.

(* Small setters, ResamplingReader.h:644-650, 652-657, 670-677 *)
Definition setUseDualPlaybackHead (r : reader) (b : bool) : reader := r <| r_dual := b |>.
Definition setCrossfadeDuration (r : reader) (n : Z) : reader := r <| r_cfdur := u32 n |>.
Definition setInterpolationType (r : reader) (i : interp) : reader := r <| r_interp := i |>.
Definition setHeaderSizeInBytes (r : reader) (n : Z) : reader := r <| r_hdr := s32 (u32 n / 2) |>.
Definition setPlayStart (r : reader) (p : play_start) (v : Z) : reader :=
  r <| r_pstart := p |> <| r_pbstart := s32 v |>.

(* reset(), ResamplingReader.h:580-622 *)
Definition r_reset (r : reader) : res reader :=
  p <- (if dle d0 (r_rate r) then
          match r_pstart r with
          | PSample => Ok (spos r 0)
          | PLoop => Ok (spos r (r_ls r))
          | PArbitrary => Ok (spos r (r_pbstart r))
          end
        else
          match r_pstart r with
          | PSample => chk32 (Z.quot (r_fsize r) 2 - r_nch r)
          | PLoop => n <- chk32 (r_lf r - r_nch r) ;; Ok (spos r n)
          | PArbitrary => Ok (spos r (r_pbstart r))
          end) ;;
  Ok (r <| r_npts := fun c => if (0 <=? c) && (c <? 8) then 0 else r_npts r c |>
        <| r_pos1 := p |>
        <| r_cf := d0 |>
        <| r_cfst := 0 |>).

(* bool play(), ResamplingReader.h:200-206 *)
Definition r_play (r : reader) : res reader :=
  r1 <- r_reset (r_stop r) ;; Ok (r1 <| r_playing := true |>).

(* bool playRaw(TArray*, uint32_t length, uint16_t numChannels),
   ResamplingReader.h:41-56, for the array reader; returns true always *)
Definition playRaw_array (r : reader) (m : mem) (off len nch : Z) : res reader :=
  let r1 := r_stop (r <| r_src := SArr m off |>) in
  let r2 := r1 <| r_hdr := 0 |>
               <| r_fsize := s32 (u32 (len * 2)) |>
               <| r_ls := 0 |>
               <| r_lf := s32 len |>
               <| r_fsamples := s32 len |> in
  r3 <- r_reset (setNumChannels r2 nch) ;;
  Ok (r3 <| r_playing := true |>).

(* playRaw(TArray*, uint16_t), ResamplingReader.h:58-60: the middle argument is
   the literal [false], i.e. length 0 *)
Definition playRaw_array2 (r : reader) (m : mem) (off nch : Z) : res reader :=
  playRaw_array r m off 0 nch.

(* playWav(TArray*, uint32_t length), ResamplingReader.h:62-64: calls
   playRaw(array, true), i.e. one channel, length 0; the length is ignored *)
Definition playWav_array_len (r : reader) (m : mem) (off len : Z) : res reader :=
  playRaw_array2 r m off 1.

(* playWav(TArray *a), ResamplingReader.h:66-93.  Misaligned int16 pointers (odd
   tag size) are tolerated (Cortex-M). *)
Definition playWav_array (r : reader) (m : mem) : res (bool * reader) :=
  let rd := rd_mem m 0 in
  '(ok, h) <- readWaveHeaderFromBuffer rd (has_nul (mbyte m) 0 (Z.to_nat (msize m))) hdr0 ;;
  if negb (ok : bool) then Ok (false, r) else
  tags <- readInfoTags rd 36 ;;
  match tags with
  | None => Ok (false, r)
  | Some n =>
      dh <- readDataHeader rd (u32 (36 + n)) ;;
      match dh with
      | None => Ok (false, r)
      | Some db =>
          if u32 (h_channels h) =? 0 then UB UbDivZero
          else
            r' <- playRaw_array r m (u32 (36 + n + 8)) (db / u32 (h_channels h) / 2)
                    (u16 (h_channels h)) ;;
            Ok (true, r')
      end
  end.

(* The header part of play(filename, isWave=true), ResamplingReader.h:110-144.
   [stack]: initial content of [char buffer[36]].  Result: None when the file is
   refused, else the file position; and the reader. *)
Definition play_header (r : reader) (f : file) (stack : bytes) : res (option Z * reader) :=
  let keep := c_keep (r_cfg r) in
  let b := fread f 0 36 stack in
  let p := fread_len f 0 36 in
  '(_, h) <- readWaveHeaderFromBuffer (rd_buf b) (has_nul b 0 36) hdr0 ;;
  if negb (h_bits h =? 16) then Ok (None, r)
  else
    let r := setNumChannels r (u16 (h_channels h)) in
    let b1 := fread f p 8 b in
    let p1 := p + fread_len f p 8 in
    tags <- readInfoTags (rd_buf b1) 0 ;;
    match tags with
    | None => Ok (None, r)
    | Some n =>
        let p2 := fseek keep f p1 (u32 (36 + n)) in
        let b2 := fread f p2 8 b1 in
        let p3 := p2 + fread_len f p2 8 in
        dh <- readDataHeader (rd_buf b2) 0 ;;
        match dh with
        | None => Ok (None, r)
        | Some db =>
            Ok (Some p3, r <| r_hdr := u32 (44 + n) / 2 |> <| r_fsamples := db / 2 |>)
        end
    end.

(* delete [] _filename; _filename = nullptr *)
Definition drop_name (r : reader) : reader :=
  r <| r_fname := false |> <| r_live := r_live r - 1 |>.

(* Default loop bounds and the source object, ResamplingReader.h:155-163 *)
Definition open_src (r : reader) (fs : Z) (f : file) (p : Z) (garbage : nat -> bytes) : reader :=
  let r1 := match r_loop r with
            | LNone => r <| r_fsamples := fs |> <| r_ls := 0 |> <| r_lf := fs |>
            | _ => r <| r_fsamples := fs |>
            end in
  r1 <| r_src := SFile (if_new (r_cfg r) f p garbage) |> <| r_live := r_live r + 2 |>.

(* Copy the loop settings to the source object, ResamplingReader.h:164-166 *)
Definition copy_loop (r : reader) : reader :=
  let r1 := setLoopType r (r_loop r) in
  let r2 := setLoopStart r1 (r_ls r1) in
  setLoopFinish r2 (r_lf r2).

(* reset, preload and start, ResamplingReader.h:168-180 *)
Definition start_file (r : reader) : res (bool * reader) :=
  r1 <- r_reset r ;;
  match r_src r1 with
  | SFile g =>
      '(_, g') <- preLoadBuffers g (r_pos1 r1) (dle d0 (r_rate r1)) ;;
      Ok (true, r1 <| r_src := SFile g' |>
                   <| r_live := r_live r1 + 2 * (Z.of_nat (length (i_bufs g'))
                                                - Z.of_nat (length (i_bufs g))) |>
                   <| r_playing := true |>)
  | _ => UB UbNull
  end.

(* The rest of play(filename), ResamplingReader.h:148-180, for file position p.
   [garbage]: initial content of newly allocated sample buffers. *)
Definition play_open (r : reader) (f : file) (p : Z) (garbage : nat -> bytes)
  : res (bool * reader) :=
  if u32 (r_fsize r) <=? u32 (r_hdr r * 2) then
    Ok (false, drop_name (r <| r_playing := false |>))
  else
    fs <- sdiv32 (r_fsamples r) (r_nch r) ;;
    start_file (copy_loop (open_src r fs f p garbage)).

(* bool play(const char *filename, bool isWave, uint16_t numChannelsIfRaw),
   ResamplingReader.h:95-180.
   [fo]: what open() returns (ResamplingArrayReader::open always fails). *)
Definition r_play_file (r : reader) (fo : option file) (isWave : bool) (nraw : Z)
    (stack : bytes) (garbage : nat -> bytes) : res (bool * reader) :=
  let r := r_close r in
  let r := if isWave then r else setNumChannels r nraw in
  let r := r <| r_fname := true |> <| r_live := r_live r + 1 |> in
  match (match r_kind r with KArray => None | _ => fo end) with
  | None => Ok (false, drop_name r)
  | Some f =>
      let r := r <| r_fsize := s32 (fsize f) |> in
      '(o, r) <- (if isWave then play_header r f stack
                  else Ok (Some 0, r <| r_fsamples := Z.quot (r_fsize r) 2 |>)) ;;
      match o with
      | None => Ok (false, r)
      | Some p => play_open r f p garbage
      end
  end.

(* triggerReload(), ResamplingReader.h:190; array specialisation 797.  The
   double rate is narrowed to the float parameter. *)
Definition r_triggerReload (fuel : nat) (r : reader) : res reader :=
  match r_src r with
  | SFile f => f' <- triggerReload fuel f (f_of_d (r_rate r)) ;; Ok (r <| r_src := SFile f' |>)
  | _ => Ok r
  end.

(* getSourceBufferValue(long): ResamplingArrayReader.h:22-24,
   ResamplingSdReader.h:35-39 (null check), ResamplingLfsReader.h:31-33 and
   ResamplingSerialFlashReader.h (no null check) *)
Definition getSourceBufferValue (r : reader) (i : Z) : res (Z * reader) :=
  match r_src r with
  | SArr m off =>
      let a := off + 2 * i in
      if (0 <=? a) && (a + 2 <=? msize m) then Ok (le16 (mbyte m) a, r)
      else UB UbOutOfBounds
  | SFile f => let '(v, f') := if_get f i in Ok (v, r <| r_src := SFile f' |>)
  | SNull => match r_kind r with KSd => Ok (0, r) | _ => UB UbNull end
  end.

(* _getSourceBufferValue(pos, offset, channel), ResamplingReader.h:759-760 *)
Definition getAt (r : reader) (pos offset ch : Z) : res (Z * reader) :=
  i1 <- chk32 (pos + offset * r_nch r) ;;
  i <- chk32 (i1 + ch) ;;
  getSourceBufferValue r i.

(* Access to the per-channel member arrays of size MAX_CHANNELS = 8 *)
Definition chan_ok (ch : Z) : res unit :=
  if (0 <=? ch) && (ch <? 8) then Ok tt else UB UbVector.

(* _addInterpolationPoint, ResamplingReader.h:762-785 *)
Definition addPoint (r : reader) (ch y : Z) : res reader :=
  match r_interp r with
  | INone => Ok r
  | ILinear =>
      _ <- chan_ok ch ;;
      let q := r_pts r ch in
      let n := r_npts r ch in
      Ok (r <| r_pts := upd (r_pts r) ch (mkQuad (y1 q) y (y2 q) (y3 q)) |>
            <| r_npts := upd (r_npts r) ch (if n <? 2 then n + 1 else n) |>)
  | IQuadratic =>
      _ <- chan_ok ch ;;
      let q := r_pts r ch in
      let n := r_npts r ch in
      Ok (r <| r_pts := upd (r_pts r) ch (mkQuad (y1 q) (y2 q) (y3 q) y) |>
            <| r_npts := upd (r_npts r) ch (if n <? 4 then n + 1 else n) |>)
  end.

(* End-of-source test of readNextValue, ResamplingReader.h:368-391 *)
Definition at_end (r : reader) : bool :=
  if r_dual r then false
  else if dle d0 (r_rate r) then
    match r_loop r with
    | LNone => spos r (r_fsamples r) <=? r_pos1 r
    | _ => spos r (r_lf r) <=? r_pos1 r
    end
  else if dlt (r_rate r) d0 then
    match r_pstart r with
    | PSample => r_pos1 r <? r_hdr r
    | _ => r_pos1 r <? spos r (r_ls r)
    end
  else false.

(* a*x + b*y narrowed to int16 (lines 402, 435, 455-456) *)
Definition mix16 (ga : b64) (a : Z) (gb : b64) (b : Z) : res Z :=
  d_to_s16 (dadd (dmul ga (d_of_Z a)) (dmul gb (d_of_Z b))).

(* The raw value of the sample, ResamplingReader.h:393-403 *)
Definition fetch_value (r : reader) (ch : Z) : res (Z * reader) :=
  if negb (r_dual r) || (r_cfst r =? 0) then getAt r (r_pos1 r) 0 ch
  else if deq (r_cf r) d0 then getAt r (r_pos2 r) 0 ch
  else
    '(v1, r1) <- getAt r (r_pos1 r) 0 ch ;;
    '(v2, r2) <- getAt r1 (r_pos2 r) 0 ch ;;
    v <- mix16 (dsub d1 (r_cf r)) v2 (r_cf r) v1 ;;
    Ok (v, r2).

(* Linear interpolation, ResamplingReader.h:405-441 *)
Definition linear_value (r : reader) (ch v : Z) : res (Z * reader) :=
  let ar := dabs (r_rem r) in
  let rate := r_rate r in
  if dlt d0 ar then
    r1 <-
      (if dlt d0 rate then
         if dlt (dsub (r_rem r) rate) d0 then
           r' <- (if r_dual r then Ok r else
                    _ <- chan_ok ch ;;
                    if (r_npts r ch <? 2) && dlt d1 rate then
                      pm <- chk32 (r_pos1 r - r_nch r) ;;
                      h2 <- chk32 (r_hdr r * 2) ;;
                      if h2 <? pm then
                        '(w, r2) <- getAt r (r_pos1 r) (-1) ch ;;
                        Ok (r2 <| r_pts := upd (r_pts r2) ch (r_pts r2 ch <| y1 := w |>) |>)
                      else Ok r
                    else Ok r) ;;
           addPoint r' ch v
         else Ok r
       else if dlt rate d0 then
         if dlt d0 (dsub (r_rem r) rate) then
           r' <- (if r_dual r then Ok r else
                    _ <- chan_ok ch ;;
                    if (r_npts r ch <? 2) && dlt rate (dneg d1) then
                      '(w, r2) <- getAt r (r_pos1 r) 1 ch ;;
                      Ok (r2 <| r_pts := upd (r_pts r2) ch (r_pts r2 ch <| y1 := w |>) |>)
                    else Ok r) ;;
           addPoint r' ch v
         else Ok r
       else Ok r) ;;
    _ <- chan_ok ch ;;
    if 1 <? r_npts r1 ch then
      w <- mix16 ar (y1 (r_pts r1 ch)) (dsub d1 ar) (y0 (r_pts r1 ch)) ;;
      Ok (w, r1)
    else Ok (v, r1)
  else
    r1 <- addPoint r ch v ;;
    Ok (y0 (r_pts r1 ch), r1).

(* The loop "for (i = n; i > 0; i--)" pushing points, ResamplingReader.h:451-460
   (forward, [fwd]=true) and 469-477 (reverse) *)
Fixpoint push_points (i : nat) (fwd : bool) (r : reader) (ch : Z) : res reader :=
  match i with
  | O => Ok r
  | S i' =>
      let k := Z.of_nat i in
      let o1 := if fwd then 1 - k else k - 1 in
      '(v, r1) <- getAt r (r_pos1 r) o1 ch ;;
      '(y, r2) <-
        (if r_dual r && negb (r_cfst r =? 0) then
           let o2 := if loop_eqb (r_loop r) LPingpong then - o1 else o1 in
           '(w, r2) <- getAt r1 (r_pos2 r) o2 ch ;;
           y <- d_to_s16 (dadd (dmul (d_of_Z v) (r_cf r)) (dmul (d_of_Z w) (dsub d1 (r_cf r)))) ;;
           Ok (y, r2)
         else Ok (v, r1)) ;;
      r3 <- addPoint r2 ch y ;;
      push_points i' fwd r3 ch
  end.

(* Quadratic interpolation, ResamplingReader.h:442-494 (lines 494-508 are dead) *)
Definition quadratic_value (r : reader) (ch v : Z) : res (Z * reader) :=
  let ar := dabs (r_rem r) in
  let rate := r_rate r in
  r1 <-
    (if dlt d0 rate then
       let d := dsub (r_rem r) rate in
       if dlt d d0 then
         n <- d_to_s32 (dneg (dfloor d)) ;;
         push_points (Z.to_nat (Z.min n 4)) true r ch
       else Ok r
     else if dlt rate d0 then
       let d := dsub (r_rem r) rate in
       if dlt d0 d then
         n <- d_to_s32 (dceil d) ;;
         push_points (Z.to_nat (Z.min n 4)) false r ch
       else Ok r
     else Ok r) ;;
  _ <- chan_ok ch ;;
  if 4 <=? r_npts r1 ch then
    let q := r_pts r1 ch in
    w <- fastinterpolate (y0 q) (y1 q) (y2 q) (y3 q) (f_of_d (dadd d1 ar)) ;;
    Ok (w, r1)
  else Ok (0, r1).

(* bool readNextValue(int16_t *value, uint16_t channel),
   ResamplingReader.h:367-514; None = return false *)
Definition readNextValue (r : reader) (ch : Z) : res (option Z * reader) :=
  if at_end r then Ok (None, r)
  else
    '(v, r1) <- fetch_value r ch ;;
    '(w, r2) <- match r_interp r with
                | INone => Ok (v, r1)
                | ILinear => linear_value r1 ch v
                | IQuadratic => quadratic_value r1 ch v
                end ;;
    Ok (Some w, r2).

(* What read() does when readNextValue failed, ResamplingReader.h:253-288;
   None = return count *)
Definition on_end (r : reader) : res (option reader) :=
  let r := r <| r_cfst := 0 |> in
  match r_loop r with
  | LNone => Ok None
  | LRepeat =>
      if dle d0 (r_rate r) then Ok (Some (r <| r_pos1 := spos r (r_ls r) |>))
      else n <- chk32 (r_lf r - r_nch r) ;; Ok (Some (r <| r_pos1 := spos r n |>))
  | LPingpong =>
      if dle d0 (r_rate r) then
        n <- chk32 (r_lf r - r_nch r) ;;
        Ok (Some (r <| r_pos1 := spos r n |> <| r_rate := dneg (r_rate r) |>))
      else
        Ok (Some (r <| r_pos1 := match r_pstart r with
                                 | PSample => r_hdr r
                                 | _ => spos r (r_ls r)
                                 end |>
                    <| r_rate := dneg (r_rate r) |>))
  end.

(* while (!readOK) ..., ResamplingReader.h:236-290 *)
Fixpoint read_one (fuel : nat) (ch : Z) (r : reader) : res (option Z * reader) :=
  match fuel with
  | O => NoFuel
  | S fuel' =>
      '(o, r1) <- readNextValue r ch ;;
      match o with
      | Some v => Ok (Some v, r1)
      | None =>
          e <- on_end r1 ;;
          match e with
          | None => Ok (None, r1 <| r_cfst := 0 |>)
          | Some r2 => read_one fuel' ch r2
          end
      end
  end.

(* for (channel...) , ResamplingReader.h:234-291 *)
Fixpoint read_channels (ifuel : nat) (todo : nat) (ch : Z) (r : reader)
  : res (option (list Z) * reader) :=
  match todo with
  | O => Ok (Some [], r)
  | S todo' =>
      '(o, r1) <- read_one ifuel ch r ;;
      match o with
      | None => Ok (None, r1)
      | Some v =>
          '(o2, r2) <- read_channels ifuel todo' (ch + 1) r1 ;;
          Ok (option_map (cons v) o2, r2)
      end
  end.

(* _updateCrossfade, ResamplingReader.h:311-364 *)
Definition updateCrossfade (r : reader) : res reader :=
  let pp := loop_eqb (r_loop r) LPingpong in
  let r1 :=
    if dle d0 (r_rate r) then
      if (r_cfst r =? 0) && (spos r (r_lf r - r_cfdur r) <=? r_pos1 r) then
        r <| r_pos2 := spos r (if pp then r_lf r else r_ls r) |> <| r_cfst := 1 |>
      else r
    else
      if (r_cfst r =? 0) && (r_pos1 r <=? spos r (r_ls r + r_cfdur r)) then
        r <| r_pos2 := spos r (if pp then r_ls r else r_lf r) |> <| r_cfst := 1 |>
      else r in
  if r_cfst r1 =? 1 then
    let finish :=
      let r2 := r1 <| r_pos1 := r_pos2 r1 |> <| r_cfst := 0 |> in
      if pp then r2 <| r_rate := dneg (r_rate r2) |> else r2 in
    let gain (x : Z) :=
      if u32 (r_nch r1) =? 0 then UB UbDivZero
      else Ok (r1 <| r_cf := dsub d1 (ddiv (d_of_Z (u32 x / u32 (r_nch r1))) (d_of_Z (r_cfdur r1))) |>) in
    if xorb pp (dlt d0 (r_rate r1)) then
      if spos r1 (r_ls r1 + r_cfdur r1) <? r_pos2 r1 then Ok finish
      else gain (r_pos2 r1 - sts r1 (r_ls r1))
    else
      if r_pos2 r1 <? spos r1 (r_lf r1 - r_cfdur r1) then Ok finish
      else gain (sts r1 (r_lf r1) - r_pos2 r1)
  else Ok r1.

(* Step of the play position after a frame, ResamplingReader.h:294-305 *)
Definition advance (r : reader) : res reader :=
  let s := dadd (r_rem r) (r_rate r) in
  delta <- d_to_s32 s ;;
  step <- chk32 (delta * r_nch r) ;;
  p1 <- chk32 (r_pos1 r + step) ;;
  let r1 := r <| r_rem := dsub s (d_of_Z delta) |> <| r_pos1 := p1 |> in
  if r_cfst r =? 0 then Ok r1
  else
    p2 <- chk32 (if loop_eqb (r_loop r) LPingpong then r_pos2 r - step else r_pos2 r + step) ;;
    Ok (r1 <| r_pos2 := p2 |>).

(* One iteration of while (count < nsamples), ResamplingReader.h:227-306 *)
Definition read_frame (ifuel : nat) (r : reader) : res (option (list Z) * reader) :=
  r1 <- (if r_dual r then updateCrossfade r else Ok r) ;;
  '(o, r2) <- read_channels ifuel (Z.to_nat (r_nch r1)) 0 r1 ;;
  match o with
  | None => Ok (None, r2)
  | Some vs => r3 <- advance r2 ;; Ok (Some vs, r3)
  end.

(* The outer loop; [n] = nsamples - count.  With zero channels count never
   advances. *)
Fixpoint read_loop (ifuel fuel : nat) (r : reader) (n : Z) : res (list (list Z) * reader) :=
  if n <=? 0 then Ok ([], r)
  else
    match fuel with
    | O => NoFuel
    | S fuel' =>
        '(o, r1) <- read_frame ifuel r ;;
        match o with
        | None => Ok ([], r1)
        | Some vs =>
            if r_nch r =? 0 then read_loop ifuel fuel' r1 n
            else '(l, r2) <- read_loop ifuel fuel' r1 (n - 1) ;; Ok (vs :: l, r2)
        end
    end.

(* unsigned int read(void **buf, uint16_t nsamples), ResamplingReader.h:217-308 *)
Definition r_read (fuel : nat) (r : reader) (n : Z) : res (list (list Z) * reader) :=
  if negb (r_playing r) then Ok ([], r)
  else if r_nch r <? 0 then UB UbVla
  else read_loop fuel fuel r n.

(* void setPlaybackRate(double f), ResamplingReader.h:517-552 *)
Definition setPlaybackRate (r0 : reader) (f : b64) : res reader :=
  let r := r0 <| r_rate := f |> in
  if negb (r_dual r) then
    if dlt f d0 then
      if r_pos1 r <=? r_hdr r then
        n <- chk32 (match r_pstart r with PSample => r_fsamples r | _ => r_lf r end - 1) ;;
        Ok (r <| r_pos1 := spos r n |>)
      else Ok r
    else
      if dle d0 f && (r_pos1 r <? r_hdr r) then
        Ok (r <| r_pos1 := spos r (match r_pstart r with PSample => 0 | _ => r_ls r end) |>)
      else Ok r
  else if deq (r_cf r) d0 then
    if dlt f d0 then
      if r_pos1 r <=? r_hdr r then
        n <- chk32 (match r_pstart r with PSample => r_fsamples r | _ => r_lf r end - 1) ;;
        Ok (r <| r_pos1 := spos r n |>)
      else Ok r
    else
      if dle d0 f && (r_pos1 r <? r_hdr r) then Ok (r <| r_pos1 := r_hdr r |>)
      else Ok r
  else Ok r.

(* float playbackRate(), ResamplingReader.h:554-556 *)
Definition playbackRate (r : reader) : b32 := f_of_d (r_rate r).

(* void loop(uint32_t numSamples), ResamplingReader.h:558-563 *)
Definition r_loop_from_here (r : reader) (num : Z) : res reader :=
  let p := if dlt (r_cf r) d1 then r_pos1 r else r_pos2 r in
  q <- sdiv32 p (r_nch r) ;;
  Ok (r <| r_ls := q |> <| r_lf := s32 (u32 (q + num)) |> <| r_loop := LRepeat |>).

(* lengthMillis, ResamplingReader.h:685-688 and ResamplingSdReader.h:94-96;
   b2m is the constant B2M (line 679) for the platform's sample rate *)
Definition lengthMillis (b2m : Z) (r : reader) : Z :=
  u32 (u64 (u64 (r_fsize r) * b2m) / 2 ^ 32).

(* double -> uint32_t *)
Definition d_to_u32 (x : b64) : res Z :=
  match d_trunc x with
  | Some z => if (0 <=? z) && (z <? 2 ^ 32) then Ok z else UB UbFloatToInt
  | None => UB UbFloatToInt
  end.

(* positionMillis, ResamplingReader.h:680-683 (array reader) and
   ResamplingSdReader.h:80-92 (Lfs, SerialFlash identical) *)
Definition positionMillis (b2m : Z) (r : reader) : res Z :=
  match r_kind r with
  | KArray => Ok (lengthMillis b2m r)
  | _ =>
      if r_fsize r =? 0 then Ok 0
      else
        let at_ (p : Z) :=
          d_to_u32 (ddiv (dmul (d_of_Z p) (d_of_Z (lengthMillis b2m r)))
                         (d_of_Z (Z.quot (r_fsize r) 2))) in
        if negb (r_dual r) then at_ (r_pos1 r)
        else if dlt (r_cf r) (d_of_me 1 (-1)) then at_ (r_pos1 r) else at_ (r_pos2 r)
  end.
