(* Model of src/waveheaderparser.h: class WaveHeaderParser.

   The C++ functions index a [const char*]; here they get a function
   [rd : Z -> res Z] giving the byte at an offset (UB when outside the object it
   points into).  Reads happen in C++ evaluation order, with short circuits. *)

From Coq Require Import ZArith Lia List Bool.
From Verif Require Import Machine.
Import ListNotations.
Local Open Scope Z_scope.

(* struct wav_header, waveheaderparser.h:13-29.  [int] fields hold s32 values,
   [short] fields s16 values; default member initialisers are 0. *)
Record wav_header := mkHdr {
  h_riff : list Z;           (* 00-03 *)
  h_chunk_size : Z;          (* 04-07 *)
  h_wave : list Z;           (* 08-11 *)
  h_fmt : list Z;            (* 12-15 *)
  h_fmt_size : Z;            (* 16-19 *)
  h_format : Z;              (* 20-21 *)
  h_channels : Z;            (* 22-23 *)
  h_rate : Z;                (* 24-27 *)
  h_byte_rate : Z;           (* 28-31 *)
  h_align : Z;               (* 32-33 *)
  h_bits : Z }.              (* 34-35 *)

Definition hdr0 : wav_header :=
  mkHdr [0;0;0;0] 0 [0;0;0;0] [0;0;0;0] 0 0 0 0 0 0 0.

(* ASCII codes used by the parser. *)
Definition cR := 82. Definition cI := 73. Definition cF := 70. Definition cW := 87.
Definition cA := 65. Definition cV := 86. Definition cE := 69. Definition cf := 102.
Definition cm := 109. Definition ct := 116. Definition csp := 32. Definition cL := 76.
Definition cS := 83. Definition cT := 84. Definition cd := 100. Definition ca := 97.

(* buffer[o]==c0 && buffer[o+1]==c1 && ... with short circuit evaluation
   (the code writes the negation with ||, which short-circuits identically). *)
Definition tag4 (rd : Z -> res Z) (o c0 c1 c2 c3 : Z) : res bool :=
  b0 <- rd o ;;
  if negb (b0 =? c0) then Ok false else
  b1 <- rd (o + 1) ;;
  if negb (b1 =? c1) then Ok false else
  b2 <- rd (o + 2) ;;
  if negb (b2 =? c2) then Ok false else
  b3 <- rd (o + 3) ;;
  Ok (b3 =? c3).

(* b[o+3]<<24 | b[o+2]<<16 | b[o+1]<<8 | b[o], as unsigned 32 bit
   (the shift into the sign bit of int is defined by GCC). *)
Definition rd32 (rd : Z -> res Z) (o : Z) : res Z :=
  b3 <- rd (o + 3) ;; b2 <- rd (o + 2) ;; b1 <- rd (o + 1) ;; b0 <- rd o ;;
  Ok (b0 + 256 * b1 + 65536 * b2 + 16777216 * b3).

(* b[o+1]<<8 | b[o] *)
Definition rd16 (rd : Z -> res Z) (o : Z) : res Z :=
  b1 <- rd (o + 1) ;; b0 <- rd o ;; Ok (b0 + 256 * b1).

(* for (i<4) dst[i] = buffer[i+o] *)
Definition copy4 (rd : Z -> res Z) (o : Z) : res (list Z) :=
  b0 <- rd o ;; b1 <- rd (o + 1) ;; b2 <- rd (o + 2) ;; b3 <- rd (o + 3) ;;
  Ok [b0; b1; b2; b3].

(* bool readWaveHeaderFromBuffer(const char *buffer, wav_header &header),
   waveheaderparser.h:84-137.
   [cstr_ok]: a NUL byte is found inside the object when it is printed with
   "%s" at line 86; otherwise the print runs off the object.  The "%s" at
   lines 100 and 107 are given a char, not a pointer: always UB.  The "%d" of
   line 114 given an unsigned long is harmless on ILP32 and ignored.
   Serial output itself is not modelled.
   Returns the boolean and the (possibly partially filled) header. *)
Definition readWaveHeaderFromBuffer (rd : Z -> res Z) (cstr_ok : bool) (h : wav_header)
  : res (bool * wav_header) :=
  riff <- tag4 rd 0 cR cI cF cF ;;
  if negb riff then
    (if cstr_ok then Ok (false, h) else UB UbOutOfBounds)
  else
  t <- copy4 rd 0 ;;
  chunk <- rd32 rd 4 ;;
  w <- copy4 rd 8 ;;
  wave <- tag4 rd 8 cW cA cV cE ;;
  if negb wave then UB UbPrintf else
  f <- copy4 rd 12 ;;
  fmt <- tag4 rd 12 cf cm ct csp ;;
  if negb fmt then UB UbPrintf else
  fsz <- rd32 rd 16 ;;
  if negb (fsz =? 16) then
    Ok (false, mkHdr t (s32 chunk) w f (s32 fsz) (h_format h) (h_channels h)
                 (h_rate h) (h_byte_rate h) (h_align h) (h_bits h))
  else
  af <- rd16 rd 20 ;;
  nc <- rd16 rd 22 ;;
  sr <- rd32 rd 24 ;;
  br <- rd32 rd 28 ;;
  al <- rd16 rd 32 ;;
  bd <- rd16 rd 34 ;;
  Ok (true, mkHdr t (s32 chunk) w f (s32 fsz) (s16 af) (s16 nc) (s32 sr) (s32 br)
              (s16 al) (s16 bd)).

(* bool readInfoTags(unsigned char *buffer, size_t offset, unsigned &infoTagsSize),
   waveheaderparser.h:139-159.  [None] is the return value false (the out
   parameter is then left unset). *)
Definition readInfoTags (rd : Z -> res Z) (o : Z) : res (option Z) :=
  l <- tag4 rd o cL cI cS cT ;;
  if (l : bool) then (n <- rd32 rd (o + 4) ;; Ok (Some (u32 (n + 8))))
  else
  d <- tag4 rd o cd ca ct ca ;;
  if (d : bool) then Ok (Some 0) else Ok None.

(* bool readDataHeader(unsigned char *buffer, size_t offset, wav_data_header &),
   waveheaderparser.h:161-174.  [None] is false, [Some n] gives data_bytes.
   (The copied tag characters are never used.) *)
Definition readDataHeader (rd : Z -> res Z) (o : Z) : res (option Z) :=
  _ <- copy4 rd o ;;
  d <- tag4 rd o cd ca ct ca ;;
  if negb (d : bool) then Ok None
  else (n <- rd32 rd (o + 4) ;; Ok (Some n)).

(* Reading bytes of a local buffer: always in bounds. *)
Definition rd_buf (b : bytes) : Z -> res Z := fun o => Ok (b o).

(* Reading bytes of caller memory starting at byte offset [base]. *)
Definition rd_mem (m : mem) (base : Z) : Z -> res Z :=
  fun o => if (0 <=? base + o) && (base + o <? msize m) then Ok (mbyte m (base + o))
           else UB UbOutOfBounds.

(* Does a NUL byte occur among b[o..o+n-1]? *)
Fixpoint has_nul (b : bytes) (o : Z) (n : nat) : bool :=
  match n with
  | O => false
  | S n' => (b o =? 0) || has_nul b (o + 1) n'
  end.

(* ---- files ---------------------------------------------------------- *)

(* A file: size in bytes and contents. *)
Record file := mkFile { fsize : Z; fbyte : bytes }.

(* Number of bytes a read of n bytes at position pos delivers. *)
Definition fread_len (f : file) (pos n : Z) : Z := Z.max 0 (Z.min n (fsize f - pos)).

(* file.read(buffer, n): the bytes delivered overwrite the start of the buffer,
   the rest of it keeps its contents. *)
Definition fread (f : file) (pos n : Z) (b : bytes) : bytes :=
  let k := fread_len f pos n in
  fun o => if (0 <=? o) && (o <? k) then fbyte f (pos + o) else b o.

(* file.seek(target): drivers differ for targets past the end; [keep]=true
   (SdFat, LittleFS wrapper) leaves the position, [keep]=false moves it. *)
Definition fseek (keep : bool) (f : file) (pos target : Z) : Z :=
  if (target <=? fsize f) then target else if keep then pos else target.

(* bool readWaveHeader(filename, header, File&), waveheaderparser.h:74-82 *)
Definition readWaveHeader_file (f : file) (pos : Z) (stack : bytes) (h : wav_header)
  : res (bool * wav_header) :=
  if negb (fread_len f pos 36 =? 36) then Ok (false, h)
  else
    let b := fread f pos 36 stack in
    readWaveHeaderFromBuffer (rd_buf b) (has_nul b 0 36) h.

(* bool readWaveHeader(filename, header, wav_data_header),
   waveheaderparser.h:38-72.  [fo] is the result of SD.open. *)
Definition readWaveHeader (keep : bool) (fo : option file) (stack stack8 : bytes) (h : wav_header)
  : res (bool * wav_header * option Z) :=
  match fo with
  | None => Ok (false, h, None)
  | Some f =>
      '(r, h') <- readWaveHeader_file f 0 stack h ;;
      if negb (r : bool) then Ok (false, h', None) else
      let p1 := fseek keep f 36 36 in
      if negb (fread_len f p1 8 =? 8) then Ok (false, h', None) else
      let b := fread f p1 8 stack8 in
      tags <- readInfoTags (rd_buf b) 0 ;;
      match tags with
      | None => Ok (false, h', None)
      | Some n =>
          let p2 := fseek keep f (p1 + 8) (u32 (36 + n)) in
          if negb (fread_len f p2 8 =? 8) then Ok (false, h', None) else
          let b2 := fread f p2 8 b in
          d <- readDataHeader (rd_buf b2) 0 ;;
          match d with
          | None => Ok (false, h', None)
          | Some k => Ok (true, h', Some k)
          end
      end
  end.
