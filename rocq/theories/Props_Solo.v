(* C108-C113: array players are independent of the others; arrays, loops and
   interpolated playback up to the outputs. *)

From Coq Require Import ZArith Lia List Bool Reals.
From Flocq Require Import Core.Core IEEE754.BinarySingleNaN.
From Verif Require Import Machine Floats FloatFacts WavModel InterpModel CacheModel ReaderModel PlayerModel CacheFacts CacheSpec CacheFinal
  ReaderSpec FileSpec LoopSpec LifeSpec WavSpec WavPlayProofs WavFinal PlayProofs FilePlay FileForward ForwardProofs LoopFileSpec LoopProofs LoopCases PongSpec QuadProofs InterpWalk InterpCases
  TrackSpec StageSpec StageProofs StageCases TapeSpec BackSpec SoloSpec SoloProofs SoloPlay OutSpec StageMore SoloCases.
Import ListNotations.
Local Open Scope Z_scope.

(* ---- C108 ---- *)

(* A player that never plays a file: in any history, with any number of other players,
   polled or not, the results of its play calls, what its updates send and its state are
   what its own calls and updates alone give, among other players or none. *)
Theorem C108_alone : forall kinds flags fuel l xs w i, (forall o, In o l -> ~ plays_file o i) -> wops fuel l (world0 kinds flags) = Ok (xs, w) ->
  forall kinds2 flags2, kinds2 i = kinds i ->
  exists ys w', wops fuel (flat_map (own i) l) (world0 kinds2 flags2) = Ok (ys, w') /\ seen i ys = seen i xs /\ w_rd w' i = w_rd w i.
Proof. exact independent. Qed.
(* An SD player and another array player; one update comes while the SD player is being stopped *)
Example C108_case : (forall o, In o whole_run -> ~ plays_file o 0) /\ length whole_run = 22%nat /\ length (flat_map (own 0) whole_run) = 9%nat /\
  exists xs w, wops 300 whole_run (world0 three_kinds 2) = Ok (xs, w) /\ length (seen 0 xs) = 6%nat /\ deck_check xs w = true.
Proof. exact whole_case. Qed.

(* ---- C109 ---- *)

(* An array is played on player i after any history in which i never played a file.  The
   rate is set at any moments, to multiples of 2^-q from 0 to X; the others do anything,
   polled or not: the updates that get their blocks transmit what a tape plays, then
   silence, and the player goes on playing. *)
Theorem C109_raw : forall q, 0 <= q <= 52 -> forall kinds flags i w m off len nch ps pb X, array_history kinds flags i w -> array_holds m off len nch ->
  basic_settings (w_rd w i) LNone ps pb -> (ps = PArbitrary -> 0 <= pb <= len) -> let x := r_rate (w_rd w i) in
  rate_ok q X x -> ((X + 1) * INR nch <= IZR (2 ^ 30))%R ->
  plays_deck i [WPlayRaw i m off len (Z.of_nat nch)] nch (Forall (tape_ok q X 128)) (tape (src_frame m off nch) len (IZR (start_frame ps pb)) (R64 x)) w.
Proof. exact deck_raw. Qed.
Example C109_case : exists w, array_history three_kinds 2 0 w /\ array_holds tones 0 450 2 /\ basic_settings (w_rd w 0) LNone PSample 0 /\
  rate_ok 44 23 (r_rate (w_rd w 0)) /\ ((23 + 1) * INR 2 <= IZR (2 ^ 30))%R /\
  Forall (deck_op 0) (deck_run1 (fun x => x)) /\ Forall (tape_ok 44 23 128) (deck 0 2 (deck_run1 (fun x => x))) /\
  exists ys w0 xs w', wops 0 [WPlayRaw 0 tones 0 450 (Z.of_nat 2)] w = Ok (ys, w0) /\ wops 300 (deck_run1 (fun x => x)) w0 = Ok (xs, w') /\ deck_check xs w' = true.
Proof. exact deck_case. Qed.

(* The same for a WAV file in memory *)
Theorem C109_wav : forall q, 0 <= q <= 52 -> forall kinds flags i w m tags n nch ps pb X, array_history kinds flags i w ->
  bytes_ok (mbyte m) -> headers_inside m -> header_valid (mbyte m) -> data_chunk (mbyte m) tags n -> hdr_channels (mbyte m) = Z.of_nat nch ->
  let len := n / Z.of_nat nch / 2 in
  array_holds m (44 + tags) len nch ->
  basic_settings (w_rd w i) LNone ps pb -> (ps = PArbitrary -> 0 <= pb <= len) -> let x := r_rate (w_rd w i) in
  rate_ok q X x -> ((X + 1) * INR nch <= IZR (2 ^ 30))%R ->
  plays_deck i [WPlayWav i m] nch (Forall (tape_ok q X 128)) (tape (src_frame m (44 + tags) nch) len (IZR (start_frame ps pb)) (R64 x)) w.
Proof. exact deck_wav. Qed.
Example C109_case_wav : exists w, array_history three_kinds 2 0 w /\
  (bytes_ok (mbyte (mem_of wav_ex)) /\ headers_inside (mem_of wav_ex) /\ header_valid (mbyte (mem_of wav_ex)) /\ data_chunk (mbyte (mem_of wav_ex)) 12 12 /\
   hdr_channels (mbyte (mem_of wav_ex)) = Z.of_nat 2 /\ array_holds (mem_of wav_ex) (44 + 12) (12 / Z.of_nat 2 / 2) 2) /\
  basic_settings (w_rd w 0) LNone PSample 0 /\ rate_ok 44 23 (r_rate (w_rd w 0)) /\
  Forall (deck_op 0) (deck_run1 (fun x => x)) /\ Forall (tape_ok 44 23 128) (deck 0 2 (deck_run1 (fun x => x))) /\
  exists ys w0 xs w', wops 0 [WPlayWav 0 (mem_of wav_ex)] w = Ok (ys, w0) /\ wops 300 (deck_run1 (fun x => x)) w0 = Ok (xs, w') /\ wdeck_check xs w' = true.
Proof. exact wdeck_case. Qed.

(* The same in reverse, from frame p0; the last rate is set before the start is reached *)
Theorem C109_back : forall q, 0 <= q <= 52 -> forall kinds flags i w m off len nch ps pb p0 X, array_history kinds flags i w -> array_holds m off len nch ->
  basic_settings (w_rd w i) LNone ps pb -> 0 <= p0 < len -> (match ps with
   | PSample => p0 * Z.of_nat nch = len - Z.of_nat nch
   | PLoop => nch = 1%nat /\ p0 = len - 1
   | PArbitrary => p0 = pb
   end) -> let x := r_rate (w_rd w i) in
  back_ok q X x -> ((X + 1) * INR nch <= IZR (2 ^ 30))%R ->
  plays_deck i [WPlayRaw i m off len (Z.of_nat nch)] nch (fun l => Forall (rtape_ok q X 128) l /\ above (IZR p0) (R64 x) l)
    (rtape (src_frame m off nch) (IZR p0) (R64 x)) w.
Proof. exact deck_back. Qed.
Example C109_case_back : exists w, array_history three_kinds 2 0 w /\ array_holds tones 0 450 2 /\ basic_settings (w_rd w 0) LNone PArbitrary 430 /\
  back_ok 44 23 (r_rate (w_rd w 0)) /\ ((23 + 1) * INR 2 <= IZR (2 ^ 30))%R /\
  Forall (deck_op 0) (deck_run1 dneg) /\ Forall (rtape_ok 44 23 128) (deck 0 2 (deck_run1 dneg)) /\
  above (IZR 430) (R64 (r_rate (w_rd w 0))) (deck 0 2 (deck_run1 dneg)) /\
  exists ys w0 xs w', wops 0 [WPlayRaw 0 tones 0 450 (Z.of_nat 2)] w = Ok (ys, w0) /\ wops 300 (deck_run1 dneg) w0 = Ok (xs, w') /\ rdeck_check xs w' = true.
Proof. exact rdeck_case. Qed.

(* ---- C110 ---- *)

(* An array in a loop, at a constant rate num/2^q: round and round, or to and fro, for ever *)
Theorem C110_forward : forall kinds flags i w m off len nch l ps pb ls lf num q, array_history kinds flags i w -> array_holds m off len nch ->
  basic_settings (w_rd w i) l ps pb -> l <> LNone -> (ps = PArbitrary -> 0 <= pb <= len) -> 0 <= ls < lf -> lf <= len ->
  let x := r_rate (w_rd w i) in
  is_finite x = true -> B2R x = (IZR num * bpow radix2 (- q))%R ->
  0 <= q <= 52 -> 0 < num <= 2 ^ 52 -> ((B2R x + 1) * INR nch <= IZR (2 ^ 30))%R ->
  plays_deck i (loop_calls i m off len nch ls lf) nch (Forall (eq (Block 128)))
    (steady (endless_stream (fun k => src_frame m off nch
        (hd_i (orbit (loop_of l ps ls lf nch) num (2 ^ q) (mkHead (match ps with PArbitrary => pb | _ => 0 end) 0 false) k))))) w.
Proof. exact deck_loop. Qed.
Example C110_case : exists w, array_history three_kinds 2 0 w /\ array_holds tones 0 500 2 /\ basic_settings (w_rd w 0) LRepeat PSample 0 /\
  is_finite (r_rate (w_rd w 0)) = true /\ B2R (r_rate (w_rd w 0)) = (IZR 1 * bpow radix2 (- 0))%R /\ ((B2R (r_rate (w_rd w 0)) + 1) * INR 2 <= IZR (2 ^ 30))%R /\
  Forall (deck_op 0) plain_run /\ Forall (eq (Block 128)) (deck 0 2 plain_run) /\
  exists ys w0 xs w', wops 0 (loop_calls 0 tones 0 500 2 100 200) w = Ok (ys, w0) /\ wops 300 plain_run w0 = Ok (xs, w') /\ round_check xs w' = true.
Proof. exact round_case. Qed.

(* The same started backwards *)
Theorem C110_backward : forall kinds flags i w m off len nch l ps pb ls lf num q p0, array_history kinds flags i w -> array_holds m off len nch ->
  basic_settings (w_rd w i) l ps pb -> l <> LNone -> (ps = PArbitrary -> 0 <= pb <= len) -> 0 <= ls < lf -> lf <= len ->
  let x := r_rate (w_rd w i) in
  is_finite x = true -> B2R x = (- (IZR num * bpow radix2 (- q)))%R ->
  0 <= q <= 52 -> 0 < num <= 2 ^ 52 -> ((- B2R x + 1) * INR nch <= IZR (2 ^ 30))%R ->
  p0 < len ->
  (match ps with
   | PSample => p0 * Z.of_nat nch = len - Z.of_nat nch
   | PLoop => nch = 1%nat /\ p0 = len - 1
   | PArbitrary => p0 = pb
   end) ->
  (l = LRepeat -> match ps with PSample => 0 | _ => ls end <= lf - Z.of_nat nch) ->
  plays_deck i (loop_calls i m off len nch ls lf) nch (Forall (eq (Block 128)))
    (steady (endless_stream (fun k => src_frame m off nch (hd_i (orbit (loop_of l ps ls lf nch) num (2 ^ q) (mkHead p0 0 true) k))))) w.
Proof. exact deck_loop_back. Qed.
Example C110_case_back : exists w, array_history three_kinds 2 0 w /\ array_holds tones 0 500 2 /\ basic_settings (w_rd w 0) LPingpong PArbitrary 250 /\
  is_finite (r_rate (w_rd w 0)) = true /\ B2R (r_rate (w_rd w 0)) = (- (IZR 1 * bpow radix2 (- 0)))%R /\ ((- B2R (r_rate (w_rd w 0)) + 1) * INR 2 <= IZR (2 ^ 30))%R /\
  Forall (deck_op 0) plain_run /\ Forall (eq (Block 128)) (deck 0 2 plain_run) /\
  exists ys w0 xs w', wops 0 (loop_calls 0 tones 0 500 2 100 300) w = Ok (ys, w0) /\ wops 300 plain_run w0 = Ok (xs, w') /\ swing_check xs w' = true.
Proof. exact swing_case. Qed.

(* ---- C111 ---- *)

(* An array with linear interpolation, at rates up to 1; the first frame is a left-over *)
Theorem C111_linear : forall kinds flags i w m off len nch ps pb, array_history kinds flags i w -> array_holds m off len nch -> (nch <= 8)%nat ->
  interp_settings ILinear (w_rd w i) LNone ps pb -> let x := r_rate (w_rd w i) in
  grid_rate x -> (0 < R64 x <= 1)%R -> (ps = PArbitrary -> 0 <= pb <= len) ->
  let p0 := match ps with PArbitrary => pb | _ => 0 end in let t k := (INR k * R64 x)%R in
  exists f, plays_deck i [WPlayRaw i m off len (Z.of_nat nch)] nch (Forall (eq (Block 128))) (steady (slow_stream len p0 (R64 x) f)) w /\
    forall k, p0 + Zfloor (t k) < len -> length (f k) = nch /\ forall c, (c < nch)%nat ->
      (k = O -> nth c (f k) 0 = y1 (r_pts (w_rd w i) (Z.of_nat c))) /\
      linear_sample (fun p => nth c (src_frame m off nch p) 0) p0 (Zfloor (t k)) (t k - IZR (Zfloor (t k)))%R (nth c (f k) 0).
Proof. exact deck_linear. Qed.

(* With cubic interpolation *)
Theorem C111_cubic : forall kinds flags i w m off len nch ps pb, array_history kinds flags i w -> array_holds m off len nch -> (nch <= 8)%nat ->
  interp_settings IQuadratic (w_rd w i) LNone ps pb -> let x := r_rate (w_rd w i) in
  grid_rate x -> (0 < R64 x <= 1)%R -> (ps = PArbitrary -> 0 <= pb <= len) ->
  let p0 := match ps with PArbitrary => pb | _ => 0 end in let t k := (INR k * R64 x)%R in
  exists f, plays_deck i [WPlayRaw i m off len (Z.of_nat nch)] nch (Forall (eq (Block 128))) (steady (slow_stream len p0 (R64 x) f)) w /\
    forall k, p0 + Zfloor (t k) < len -> length (f k) = nch /\ forall c, (c < nch)%nat ->
      cubic_sample (fun p => nth c (src_frame m off nch p) 0) p0 (Zfloor (t k)) (t k - IZR (Zfloor (t k)))%R (nth c (f k) 0).
Proof. exact deck_cubic. Qed.
Example C111_case : forall ip, ip <> INone -> exists w, array_history three_kinds 2 0 w /\ array_holds tones 0 150 2 /\ (2 <= 8)%nat /\ interp_settings ip (w_rd w 0) LNone PSample 0 /\
  grid_rate (r_rate (w_rd w 0)) /\ (0 < R64 (r_rate (w_rd w 0)) <= 1)%R /\ Forall (deck_op 0) plain_run /\ Forall (eq (Block 128)) (deck 0 2 plain_run) /\
  exists ys w0 xs w', wops 0 [WPlayRaw 0 tones 0 150 (Z.of_nat 2)] w = Ok (ys, w0) /\ wops 300 plain_run w0 = Ok (xs, w') /\ blend_check ip xs w' = true.
Proof. exact blend_case. Qed.

(* ---- C112 ---- *)

(* A file in a repeat loop, serviced as in C85: the loop is buffered as a whole, or two
   updates span at most all buffers but three *)
Theorem C112_raw : forall kinds flags N i w fl nch stack garbage ps pb ls lf num q, history kinds flags N w -> (i < N)%nat -> kinds i <> KArray ->
  let r := w_rd w i in let c := cfg_of (kinds i) in
  basic_settings r LRepeat ps pb -> r_ls r = ls -> r_lf r = lf -> r_hdr r = 0 -> (1 <= nch)%nat -> Z.of_nat nch < 2 ^ 15 ->
  0 < fsize fl < 2 ^ 31 -> 0 <= ls < lf -> lf <= fsize fl / 2 / Z.of_nat nch ->
  let p0 := loop_start ps ls pb in 0 <= p0 < lf ->
  fin64 (r_rate r) = true -> R64 (r_rate r) = (IZR num * bpow radix2 (- q))%R ->
  0 <= q <= 52 -> 0 < num <= 2 ^ 52 -> ((R64 (r_rate r) + 1) * INR nch <= IZR (2 ^ 30))%R ->
  let pos i := i * Z.of_nat nch in
  buffers_fill c fl (pos p0) -> loop_ahead c (pos p0) (pos ls) (pos lf) ->
  loop_buffered c (pos p0) (pos ls) (pos lf) \/ (exists s, num <= s * 2 ^ q /\ loop_keeps_up c nch 128 s) ->
  plays_out kinds N i fl false (Z.of_nat nch) stack garbage nch (file_repeat fl 0 nch ls lf p0 num (2 ^ q)) w.
Proof. exact out_loop_raw. Qed.

(* The same for WAV files *)
Theorem C112_wav : forall kinds flags N i w fl nch tags n nraw stack garbage ps pb ls lf num q, history kinds flags N w -> (i < N)%nat -> kinds i <> KArray ->
  let r := w_rd w i in let c := cfg_of (kinds i) in
  basic_settings r LRepeat ps pb -> r_ls r = ls -> r_lf r = lf -> bytes_ok stack -> wav_file fl nch tags n -> Z.of_nat nch < 2 ^ 15 ->
  0 <= ls < lf -> lf <= n / 2 / Z.of_nat nch ->
  let p0 := loop_start ps ls pb in 0 <= p0 < lf ->
  fin64 (r_rate r) = true -> R64 (r_rate r) = (IZR num * bpow radix2 (- q))%R ->
  0 <= q <= 52 -> 0 < num <= 2 ^ 52 -> ((R64 (r_rate r) + 1) * INR nch <= IZR (2 ^ 30))%R ->
  let h := (44 + tags) / 2 in
  let pos i := h + i * Z.of_nat nch in
  buffers_fill c fl (pos p0) -> loop_ahead c (pos p0) (pos ls) (pos lf) ->
  loop_buffered c (pos p0) (pos ls) (pos lf) \/ (exists s, num <= s * 2 ^ q /\ loop_keeps_up c nch 128 s) ->
  plays_out kinds N i fl true nraw stack garbage nch (file_repeat fl h nch ls lf p0 num (2 ^ q)) w.
Proof. exact out_loop_wav. Qed.

(* Ping-pong loops *)
Theorem C112_pong_raw : forall kinds flags N i w fl nch stack garbage ps pb ls lf num q, history kinds flags N w -> (i < N)%nat -> kinds i <> KArray ->
  let r := w_rd w i in let c := cfg_of (kinds i) in
  basic_settings r LPingpong ps pb -> r_ls r = ls -> r_lf r = lf -> r_hdr r = 0 -> (1 <= nch)%nat -> Z.of_nat nch < 2 ^ 15 ->
  0 < fsize fl < 2 ^ 31 -> 0 <= ls < lf -> lf <= fsize fl / 2 / Z.of_nat nch ->
  let p0 := loop_start ps ls pb in let lo := loop_low ps ls in 0 <= p0 < lf ->
  fin64 (r_rate r) = true -> R64 (r_rate r) = (IZR num * bpow radix2 (- q))%R ->
  0 <= q <= 52 -> 0 < num <= 2 ^ 52 -> ((R64 (r_rate r) + 1) * INR nch <= IZR (2 ^ 30))%R ->
  let pos i := 0 + i * Z.of_nat nch in
  buffers_fill c fl (pos p0) -> pong_buffered c 0 lf nch pos p0 lo ls num q ->
  plays_out kinds N i fl false (Z.of_nat nch) stack garbage nch (file_pingpong fl 0 nch lo lf p0 num (2 ^ q)) w.
Proof. exact out_pong_raw. Qed.

(* The same for WAV files *)
Theorem C112_pong_wav : forall kinds flags N i w fl nch tags n nraw stack garbage ps pb ls lf num q, history kinds flags N w -> (i < N)%nat -> kinds i <> KArray ->
  let r := w_rd w i in let c := cfg_of (kinds i) in
  basic_settings r LPingpong ps pb -> r_ls r = ls -> r_lf r = lf -> bytes_ok stack -> wav_file fl nch tags n -> Z.of_nat nch < 2 ^ 15 ->
  0 <= ls < lf -> lf <= n / 2 / Z.of_nat nch ->
  let p0 := loop_start ps ls pb in let lo := loop_low ps ls in 0 <= p0 < lf ->
  fin64 (r_rate r) = true -> R64 (r_rate r) = (IZR num * bpow radix2 (- q))%R ->
  0 <= q <= 52 -> 0 < num <= 2 ^ 52 -> ((R64 (r_rate r) + 1) * INR nch <= IZR (2 ^ 30))%R ->
  let h := (44 + tags) / 2 in
  let pos i := h + i * Z.of_nat nch in
  buffers_fill c fl (pos p0) -> pong_buffered c h lf nch pos p0 lo ls num q ->
  plays_out kinds N i fl true nraw stack garbage nch (file_pingpong fl h nch lo lf p0 num (2 ^ q)) w.
Proof. exact out_pong_wav. Qed.
Example C112_case : forall l, l <> LNone -> exists w, history two_kinds 2 2 w /\ (0 < 2)%nat /\ two_kinds 0 <> KArray /\
  basic_settings (w_rd w 0) l PSample 0 /\ r_ls (w_rd w 0) = 100 /\ r_lf (w_rd w 0) = 200 /\ r_hdr (w_rd w 0) = 0 /\
  0 < fsize (ramp_file 60000) < 2 ^ 31 /\ 200 <= fsize (ramp_file 60000) / 2 / Z.of_nat 2 /\
  fin64 (r_rate (w_rd w 0)) = true /\ R64 (r_rate (w_rd w 0)) = (IZR 1 * bpow radix2 (- 0))%R /\ ((R64 (r_rate (w_rd w 0)) + 1) * INR 2 <= IZR (2 ^ 30))%R /\
  buffers_fill (cfg_of (two_kinds 0)) (ramp_file 60000) (0 * 2) /\ loop_ahead (cfg_of (two_kinds 0)) (0 * 2) (100 * 2) (200 * 2) /\
  loop_buffered (cfg_of (two_kinds 0)) (0 * 2) (100 * 2) (200 * 2) /\
  Forall (round_ok two_kinds 2 0) calm /\
  exists b w0 xs w', p_play_file 0 (Some (ramp_file 60000)) false (Z.of_nat 2) (fun _ => 0) dirty w = Ok (b, w0) /\ wops 300 (rounds_ops 0 calm) w0 = Ok (xs, w') /\ disc_check l xs w' = true.
Proof. exact disc_case. Qed.

(* ---- C113 ---- *)

(* A file with linear interpolation, at rates up to 1, serviced as in C85; the first frame
   is a left-over *)
Theorem C113_linear_raw : forall kinds flags N i w, history kinds flags N w -> (i < N)%nat -> kinds i <> KArray ->
  forall fl nch stack garbage ps pb, let r := w_rd w i in let x := r_rate r in
  (1 <= nch <= 8)%nat -> grid_rate x -> (0 < R64 x <= 1)%R -> room (cfg_of (kinds i)) nch 128 1 ->
  let len := fsize fl / 2 / Z.of_nat nch in interp_settings ILinear r LNone ps pb -> r_hdr r = 0 -> 0 < fsize fl < 2 ^ 31 -> (ps = PArbitrary -> 0 <= pb <= len) ->
  out_linear fl 0 len nch (start_frame ps pb) (R64 x) (fun c => y1 (r_pts r (Z.of_nat c))) (fun out => plays_out kinds N i fl false (Z.of_nat nch) stack garbage nch out w).
Proof. exact out_linear_raw. Qed.

(* The same for WAV files *)
Theorem C113_linear_wav : forall kinds flags N i w, history kinds flags N w -> (i < N)%nat -> kinds i <> KArray ->
  forall fl nch stack garbage ps pb, let r := w_rd w i in let x := r_rate r in
  (1 <= nch <= 8)%nat -> grid_rate x -> (0 < R64 x <= 1)%R -> room (cfg_of (kinds i)) nch 128 1 ->
  forall tags n nraw, let len := n / 2 / Z.of_nat nch in interp_settings ILinear r LNone ps pb -> bytes_ok stack -> wav_file fl nch tags n -> (ps = PArbitrary -> 0 <= pb <= len) ->
  out_linear fl ((44 + tags) / 2) len nch (start_frame ps pb) (R64 x) (fun c => y1 (r_pts r (Z.of_nat c))) (fun out => plays_out kinds N i fl true nraw stack garbage nch out w).
Proof. exact out_linear_wav. Qed.

(* With cubic interpolation *)
Theorem C113_cubic_raw : forall kinds flags N i w, history kinds flags N w -> (i < N)%nat -> kinds i <> KArray ->
  forall fl nch stack garbage ps pb, let r := w_rd w i in let x := r_rate r in
  (1 <= nch <= 8)%nat -> grid_rate x -> (0 < R64 x <= 1)%R -> room (cfg_of (kinds i)) nch 128 1 ->
  let len := fsize fl / 2 / Z.of_nat nch in interp_settings IQuadratic r LNone ps pb -> r_hdr r = 0 -> 0 < fsize fl < 2 ^ 31 -> (ps = PArbitrary -> 0 <= pb <= len) ->
  out_cubic fl 0 len nch (start_frame ps pb) (R64 x) (fun out => plays_out kinds N i fl false (Z.of_nat nch) stack garbage nch out w).
Proof. exact out_cubic_raw. Qed.

(* The same for WAV files *)
Theorem C113_cubic_wav : forall kinds flags N i w, history kinds flags N w -> (i < N)%nat -> kinds i <> KArray ->
  forall fl nch stack garbage ps pb, let r := w_rd w i in let x := r_rate r in
  (1 <= nch <= 8)%nat -> grid_rate x -> (0 < R64 x <= 1)%R -> room (cfg_of (kinds i)) nch 128 1 ->
  forall tags n nraw, let len := n / 2 / Z.of_nat nch in interp_settings IQuadratic r LNone ps pb -> bytes_ok stack -> wav_file fl nch tags n -> (ps = PArbitrary -> 0 <= pb <= len) ->
  out_cubic fl ((44 + tags) / 2) len nch (start_frame ps pb) (R64 x) (fun out => plays_out kinds N i fl true nraw stack garbage nch out w).
Proof. exact out_cubic_wav. Qed.
Example C113_case : forall ip, ip <> INone -> exists w, history two_kinds 2 2 w /\ (0 < 2)%nat /\ two_kinds 0 <> KArray /\ (1 <= 2 <= 8)%nat /\
  interp_settings ip (w_rd w 0) LNone PSample 0 /\ grid_rate (r_rate (w_rd w 0)) /\ (0 < R64 (r_rate (w_rd w 0)) <= 1)%R /\ room (cfg_of (two_kinds 0)) 2 128 1 /\
  r_hdr (w_rd w 0) = 0 /\ 0 < fsize (ramp_file 600) < 2 ^ 31 /\ Forall (round_ok two_kinds 2 0) calm /\
  exists b w0 xs w', p_play_file 0 (Some (ramp_file 600)) false (Z.of_nat 2) (fun _ => 0) dirty w = Ok (b, w0) /\ wops 300 (rounds_ops 0 calm) w0 = Ok (xs, w') /\ film_check ip xs w' = true.
Proof. exact film_case. Qed.

Print Assumptions C108_alone.
Print Assumptions C109_raw.
Print Assumptions C109_wav.
Print Assumptions C109_back.
Print Assumptions C110_forward.
Print Assumptions C110_backward.
Print Assumptions C111_linear.
Print Assumptions C111_cubic.
Print Assumptions C112_raw.
Print Assumptions C112_wav.
Print Assumptions C112_pong_raw.
Print Assumptions C112_pong_wav.
Print Assumptions C113_linear_raw.
Print Assumptions C113_linear_wav.
Print Assumptions C113_cubic_raw.
Print Assumptions C113_cubic_wav.
