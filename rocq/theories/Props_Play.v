(* C05, C07, C09, C10, C48: constant-rate playback of arrays. *)

From Coq Require Import ZArith Lia List Bool Reals Lra.
From RecordUpdate Require Import RecordUpdate.
From Flocq Require Import Core.Core IEEE754.BinarySingleNaN.
From Verif Require Import Machine Floats FloatFacts CacheModel ReaderModel ReaderSpec StreamFacts
  ForwardProofs PlayProofs.
Import ListNotations.
Local Open Scope Z_scope.

(* ---- C05 ---- *)

(* At rate 1.0 the frames of the array are delivered, in order, each once, cut
   into the requested block sizes; then nothing. *)
Theorem C05_unity : forall m off len nch r pb, array_holds m off len nch ->
  basic_settings r LNone PSample pb -> r_rate r = d1 ->
  exists r', playRaw_array r m off len (Z.of_nat nch) = Ok r' /\
    delivers r' (nth_error (source_frames m off nch len)).
Proof. exact unity_identity. Qed.

(* What delivering a finite list means: the blocks returned are the list cut at
   the requested sizes (so a request made after the end returns the empty block),
   and together they are the list. *)
Theorem C05_blocks : forall r l, delivers r (nth_error l) ->
  forall ns, exists fuel r', read_seq fuel r ns = Ok (cut ns l, r').
Proof. exact delivers_list. Qed.
Theorem C05_concat : forall r l, delivers r (nth_error l) ->
  forall ns, exists fuel bs r', read_seq fuel r ns = Ok (bs, r') /\
    concat bs = firstn (list_sum ns) l.
Proof. exact delivers_concat. Qed.

Example C05_case :
  array_holds ex_mem 4 15 2 /\ basic_settings (ex_reader d1) LNone PSample 0 /\
  r_rate (ex_reader d1) = d1.
Proof. split; [|split]; [|apply ex_basic|reflexivity]. repeat split; cbn; lia. Qed.
Example C05_run :
  (r <- playRaw_array (ex_reader d1) ex_mem 4 3 2 ;;
   '(bs, _) <- read_seq 20 r [2; 0; 5; 1]%nat ;; Ok bs)
  = Ok [[[8988; 12586]; [16184; 19782]]; []; [[23380; 26978]]; []].
Proof. vm_compute. reflexivity. Qed.

(* ---- C07 ---- *)

(* setPlaybackRate(x) with x a float >= 2^-29, then playRaw: the k-th frame
   delivered is source frame p0 + floor(k x), for every k, where p0 is the start
   frame (0 unless setPlayStart asked for another one). *)
Theorem C07_exact_pitch : forall m off len nch r0 x ps pb, array_holds m off len nch ->
  basic_settings r0 LNone ps pb -> (ps = PArbitrary -> 0 <= pb <= len) ->
  single_rate x -> (bpow radix2 (-29) <= R64 x)%R -> ((R64 x + 1) * INR nch <= IZR (2 ^ 30))%R ->
  exists r1 r2, setPlaybackRate r0 x = Ok r1 /\
    playRaw_array r1 m off len (Z.of_nat nch) = Ok r2 /\
    delivers r2 (pitch_stream m off len nch (match ps with PArbitrary => pb | _ => 0 end) (R64 x)).
Proof. exact single_pitch. Qed.

(* 0.1f *)
Example C07_case :
  array_holds ex_mem 4 15 2 /\ basic_settings (ex_reader d1) LNone PSample 0 /\
  single_rate (d_of_f tenth) /\ (bpow radix2 (-29) <= R64 (d_of_f tenth))%R /\
  ((R64 (d_of_f tenth) + 1) * INR 2 <= IZR (2 ^ 30))%R.
Proof. exact tenth_case. Qed.

(* ---- C09 ---- *)

(* Forward at an exactly accumulated rate x > 0 exactly ceil(len/x) frames are
   delivered, then none. *)
Theorem C09_count : forall m off len nch r pb, array_holds m off len nch ->
  basic_settings r LNone PSample pb -> grid_rate (r_rate r) -> (0 < R64 (r_rate r))%R ->
  ((R64 (r_rate r) + 1) * INR nch <= IZR (2 ^ 30))%R ->
  exists r', playRaw_array r m off len (Z.of_nat nch) = Ok r' /\
    exists frames, delivers r' (nth_error frames) /\
      Z.of_nat (length frames) = Zceil (IZR len / R64 (r_rate r)).
Proof. exact forward_count. Qed.

Example C09_case :
  let x := d_of_me 3 (-2) in
  array_holds ex_mem 4 15 2 /\ basic_settings (ex_reader x) LNone PSample 0 /\
  grid_rate x /\ (0 < R64 x)%R /\ ((R64 x + 1) * INR 2 <= IZR (2 ^ 30))%R.
Proof. exact three_quarters_case. Qed.

(* ---- C10 / C48 ---- *)

(* Rate -1.0 on a mono array is the time reversal *)
Theorem C10_mono_partial : forall m off len r pb, array_holds m off len 1 -> 1 <= len ->
  basic_settings r LNone PSample pb -> r_rate r = dm1 ->
  exists r', playRaw_array r m off len 1 = Ok r' /\
    delivers r' (nth_error (rev (source_frames m off 1 len))).
Proof. exact reverse_mono. Qed.

(* With an explicit start frame it is the time reversal up to that frame, for any
   number of channels *)
Theorem C10_from_partial : forall m off len nch r pb, array_holds m off len nch -> 0 <= pb < len ->
  basic_settings r LNone PArbitrary pb -> r_rate r = dm1 ->
  exists r', playRaw_array r m off len (Z.of_nat nch) = Ok r' /\
    delivers r' (nth_error (rev (source_frames m off nch (pb + 1)))).
Proof. exact reverse_from. Qed.

(* C49: the two cases in which reverse playback of an array is right *)
Theorem C49_mono : forall m off len r pb, array_holds m off len 1 -> 1 <= len ->
  basic_settings r LNone PSample pb -> r_rate r = dm1 ->
  exists r', playRaw_array r m off len 1 = Ok r' /\
    delivers r' (nth_error (rev (source_frames m off 1 len))).
Proof. exact reverse_mono. Qed.
Theorem C49_from : forall m off len nch r pb, array_holds m off len nch -> 0 <= pb < len ->
  basic_settings r LNone PArbitrary pb -> r_rate r = dm1 ->
  exists r', playRaw_array r m off len (Z.of_nat nch) = Ok r' /\
    delivers r' (nth_error (rev (source_frames m off nch (pb + 1)))).
Proof. exact reverse_from. Qed.

(* With several channels only the first len/nch frames are played *)
Theorem C10_actual : forall m off len nch r pb p0, array_holds m off len nch ->
  basic_settings r LNone PSample pb -> r_rate r = dm1 ->
  0 <= p0 /\ (p0 + 1) * Z.of_nat nch = len ->
  exists r', playRaw_array r m off len (Z.of_nat nch) = Ok r' /\
    delivers r' (nth_error (rev (source_frames m off nch (p0 + 1)))).
Proof. exact reverse_actual. Qed.

(* so the claim is false of stereo arrays *)
Theorem C10_refuted : exists m off len nch r pb, array_holds m off len nch /\ 1 <= len /\
  basic_settings r LNone PSample pb /\ r_rate r = dm1 /\
  exists r', playRaw_array r m off len (Z.of_nat nch) = Ok r' /\
    ~ delivers r' (nth_error (rev (source_frames m off nch len))).
Proof. exact reverse_refuted. Qed.

Example C10_case : array_holds ex_mem 4 15 1 /\ array_holds ex_mem 4 15 2 /\
  (2 + 1) * Z.of_nat 2 = 6 /\ basic_settings (ex_reader dm1) LNone PSample 0.
Proof. split; [|split; [|split]]; try apply ex_basic; repeat split; cbn; lia. Qed.

(* C48: the same call plays a different set of frames backwards than forwards *)
Theorem C48_mono_partial : forall m off len rf rb pb, array_holds m off len 1 -> 1 <= len ->
  basic_settings rf LNone PSample pb -> r_rate rf = d1 ->
  basic_settings rb LNone PSample pb -> r_rate rb = dm1 ->
  exists rf' rb' frames,
    playRaw_array rf m off len 1 = Ok rf' /\ playRaw_array rb m off len 1 = Ok rb' /\
    delivers rf' (nth_error frames) /\ delivers rb' (nth_error (rev frames)).
Proof. exact length_unit_mono. Qed.

Theorem C48_refuted : exists m off len nch rf rb pb, array_holds m off len nch /\ 1 <= len /\
  basic_settings rf LNone PSample pb /\ r_rate rf = d1 /\
  basic_settings rb LNone PSample pb /\ r_rate rb = dm1 /\
  exists rf' rb',
    playRaw_array rf m off len (Z.of_nat nch) = Ok rf' /\
    playRaw_array rb m off len (Z.of_nat nch) = Ok rb' /\
    forall ff fb, delivers rf' (nth_error ff) -> delivers rb' (nth_error fb) ->
      exists v, In v ff /\ ~ In v fb.
Proof. exact length_unit_refuted. Qed.

Print Assumptions C05_blocks.
Print Assumptions C05_unity.
Print Assumptions C05_concat.
Print Assumptions C07_exact_pitch.
Print Assumptions C09_count.
Print Assumptions C10_mono_partial.
Print Assumptions C10_from_partial.
Print Assumptions C10_actual.
Print Assumptions C10_refuted.
Print Assumptions C48_mono_partial.
Print Assumptions C48_refuted.
Print Assumptions C49_mono.
Print Assumptions C49_from.
