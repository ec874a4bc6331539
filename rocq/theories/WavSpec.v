(* Specification of the canonical WAV header, written as an encoder and as a
   predicate on bytes, independently of the parser. *)

From Coq Require Import ZArith Lia List Bool.
From Verif Require Import Machine.
Import ListNotations.
Local Open Scope Z_scope.

(* ASCII *)
Definition t_RIFF : list Z := [82; 73; 70; 70].
Definition t_WAVE : list Z := [87; 65; 86; 69].
Definition t_fmt : list Z := [102; 109; 116; 32].
Definition t_LIST : list Z := [76; 73; 83; 84].
Definition t_data : list Z := [100; 97; 116; 97].

(* little endian encodings *)
Definition enc16 (v : Z) : list Z := [v mod 256; v / 256 mod 256].
Definition enc32 (v : Z) : list Z :=
  [v mod 256; v / 256 mod 256; v / 65536 mod 256; v / 16777216 mod 256].

(* The 36 bytes of the RIFF/WAVE/fmt header of a PCM file *)
Definition canonical (chunk format channels rate byte_rate align bits : Z) : list Z :=
  t_RIFF ++ enc32 chunk ++ t_WAVE ++ t_fmt ++ enc32 16 ++ enc16 format ++ enc16 channels
  ++ enc32 rate ++ enc32 byte_rate ++ enc16 align ++ enc16 bits.

(* An object holding exactly these bytes *)
Definition mem_of (l : list Z) : mem :=
  mkMem (Z.of_nat (length l)) (fun i => nth (Z.to_nat i) l 0).

(* Bytes o .. o+n-1 *)
Definition slice (b : bytes) (o : Z) (n : nat) : list Z :=
  map (fun i => b (o + Z.of_nat i)) (seq 0 n).

(* The documented format: RIFF, WAVE, 'fmt ' and a 16-byte format chunk *)
Definition header_valid (b : bytes) : Prop :=
  slice b 0 4 = t_RIFF /\ slice b 8 4 = t_WAVE /\ slice b 12 4 = t_fmt /\
  slice b 16 4 = enc32 16.

Definition hdr_channels (b : bytes) : Z := le16 b 22.
Definition hdr_bits (b : bytes) : Z := le16 b 34.

(* What follows the format chunk: an optional LIST chunk of [tags] bytes
   (header included), then the header of a data chunk of [n] bytes *)
Definition data_chunk (b : bytes) (tags n : Z) : Prop :=
  (tags = 0 \/ (slice b 36 4 = t_LIST /\ tags = le32u b 40 + 8)) /\
  slice b (36 + tags) 4 = t_data /\ n = le32u b (40 + tags).

(* A file accepted by playWav: 16-bit header, data chunk, and audio after the
   header (the start of the audio is rounded down to a whole sample) *)
Definition file_plays (size : Z) (b : bytes) : Prop :=
  header_valid b /\ hdr_bits b = 16 /\
  exists tags n, data_chunk b tags n /\ 2 * ((44 + tags) / 2) < size.

(* A LIST chunk, if there is one at offset 36, has a complete header and a size
   field that does not wrap 32-bit arithmetic *)
Definition list_sane (size : Z) (b : bytes) : Prop :=
  slice b 36 4 = t_LIST -> size < 40 \/ (44 <= size /\ le32u b 40 + 52 < 2 ^ 32).
