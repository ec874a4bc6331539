(* C112, C113: loops and interpolated playback of files, from the file to the outputs. *)

From Coq Require Import ZArith Lia List Bool Reals.
From RecordUpdate Require Import RecordUpdate.
From Flocq Require Import Core.Core IEEE754.BinarySingleNaN.
From Verif Require Import Machine Floats FloatFacts WavModel InterpModel CacheModel ReaderModel ReaderFacts ResponderModel PlayerModel CacheFacts CacheSpec CacheProofs CacheFinal
  ReaderSpec FileSpec LoopSpec LifeSpec LifeProofs WorldProofs WavSpec FilePlay FileForward LoopFileSpec LoopOpen PongSpec PongOpen QuadProofs InterpWalk TrackSpec TrackPlay
  StageSpec StageProofs OutSpec.
Import ListNotations.
Local Open Scope Z_scope.

Section S.
Variables (kinds : nat -> rkind) (flags : Z) (N i : nat) (w : world).
Hypotheses (H : history kinds flags N w) (IN : (i < N)%nat) (KI : kinds i <> KArray).
Let rd := r_stop (w_rd w i).
Let cfg := cfg_of (kinds i).

Lemma hist_static : r_kind rd = kinds i /\ r_cfg rd = cfg.
Proof. destruct (history_ymode _ _ _ _ H) as (a & q & v & [HA _ _ _]). destruct (HA i) as [LK LC _ _ _ _ _]. split; [exact LK|exact LC]. Qed.
Lemma hist_kind : r_kind rd <> KArray. Proof. rewrite (proj1 hist_static). exact KI. Qed.
Lemma hist_cfg : cfg_ok (r_cfg rd). Proof. rewrite (proj2 hist_static). apply cfg_of_ok. Qed.

Lemma out_raw : forall fl nch stack garbage out r2, (1 <= nch)%nat -> Z.of_nat nch < 2 ^ 15 -> 0 < fsize fl < 2 ^ 31 ->
  r_play_file rd (Some fl) false (Z.of_nat nch) stack garbage = Ok (true, r2) -> file_delivers 128 r2 out ->
  plays_out kinds N i fl false (Z.of_nat nch) stack garbage nch out w.
Proof.
  intros fl nch stack garbage out r2 N1 NB S E D. destruct (play_raw_open rd fl (Z.of_nat nch) stack garbage hist_kind) as (r1 & EO & _ & NC & _); [lia..|].
  exact (stage kinds flags N i fl false (Z.of_nat nch) stack garbage nch out w r1 0 r2 H IN KI N1 NC EO E D).
Qed.
Lemma out_wav : forall fl nch tags n nraw stack garbage out r2, bytes_ok stack -> wav_file fl nch tags n -> Z.of_nat nch < 2 ^ 15 ->
  r_play_file rd (Some fl) true nraw stack garbage = Ok (true, r2) -> file_delivers 128 r2 out ->
  plays_out kinds N i fl true nraw stack garbage nch out w.
Proof.
  intros fl nch tags n nraw stack garbage out r2 BO WF NB E D. destruct (play_wav_open rd fl nch tags n nraw stack garbage hist_kind BO WF NB) as (r1 & EO & _ & NC & _).
  assert (N1 : (1 <= nch)%nat) by apply WF. exact (stage kinds flags N i fl true nraw stack garbage nch out w r1 (44 + tags) r2 H IN KI N1 NC EO E D).
Qed.
End S.

(* ---- C112: loops ---- *)

Lemma out_loop_raw : forall kinds flags N i w fl nch stack garbage ps pb ls lf num q, history kinds flags N w -> (i < N)%nat -> kinds i <> KArray ->
  let r := w_rd w i in let c := cfg_of (kinds i) in
  basic_settings r LRepeat ps pb -> r_ls r = ls -> r_lf r = lf -> r_hdr r = 0 -> (1 <= nch)%nat -> Z.of_nat nch < 2 ^ 15 ->
  0 < fsize fl < 2 ^ 31 -> 0 <= ls < lf -> lf <= fsize fl / 2 / Z.of_nat nch ->
  let p0 := loop_start ps ls pb in 0 <= p0 < lf ->
  fin64 (r_rate r) = true -> R64 (r_rate r) = (IZR num * bpow radix2 (- q))%R ->
  0 <= q <= 52 -> 0 < num <= 2 ^ 52 -> ((R64 (r_rate r) + 1) * INR nch <= IZR (2 ^ 30))%R ->
  let pos i := i * Z.of_nat nch in
  buffers_fill c fl (pos p0) -> loop_ahead c (pos p0) (pos ls) (pos lf) ->
  loop_buffered c (pos p0) (pos ls) (pos lf) \/ (exists s, num <= s * 2 ^ q /\ loop_keeps_up c nch 128 s) ->
  plays_out kinds N i fl false (Z.of_nat nch) stack garbage nch (file_repeat fl 0 nch ls lf p0 num (2 ^ q)) w.
Proof.
  intros kinds flags N i w fl nch stack garbage ps pb ls lf num q H IN KI r c BS0 LS LF HH N1 NB SZ B1 B2 p0 P0 FR ER Q NM U pos BF LA KU.
  pose proof (hist_static kinds flags N i w H) as [_ EC].
  assert (HK := hist_kind kinds flags N i w H KI). assert (HC := hist_cfg kinds flags N i w H).
  destruct (raw_loop (r_stop (w_rd w i)) fl nch stack garbage ps pb ls lf num q HC HK BS0 LS LF HH N1 NB SZ B1 B2 P0 FR ER Q NM U) as (r2 & E & D1 & D2); [rewrite EC; assumption..|].
  rewrite EC in D1, D2. apply (out_raw kinds flags N i w H IN KI fl nch stack garbage _ r2 N1 NB SZ E). destruct KU as [K|(s & S & K)]; [now apply D1|now apply (D2 128%nat s)].
Qed.
Lemma out_loop_wav : forall kinds flags N i w fl nch tags n nraw stack garbage ps pb ls lf num q, history kinds flags N w -> (i < N)%nat -> kinds i <> KArray ->
  let r := w_rd w i in let c := cfg_of (kinds i) in
  basic_settings r LRepeat ps pb -> r_ls r = ls -> r_lf r = lf -> bytes_ok stack -> wav_file fl nch tags n -> Z.of_nat nch < 2 ^ 15 ->
  0 <= ls < lf -> lf <= n / 2 / Z.of_nat nch ->
  let p0 := loop_start ps ls pb in 0 <= p0 < lf ->
  fin64 (r_rate r) = true -> R64 (r_rate r) = (IZR num * bpow radix2 (- q))%R ->
  0 <= q <= 52 -> 0 < num <= 2 ^ 52 -> ((R64 (r_rate r) + 1) * INR nch <= IZR (2 ^ 30))%R ->
  let h := (44 + tags) / 2 in
  let pos i := h + i * Z.of_nat nch in
  buffers_fill c fl (pos p0) -> loop_ahead c (pos p0) (pos ls) (pos lf) ->
  loop_buffered c (pos p0) (pos ls) (pos lf) \/ (exists s, num <= s * 2 ^ q /\ loop_keeps_up c nch 128 s) ->
  plays_out kinds N i fl true nraw stack garbage nch (file_repeat fl h nch ls lf p0 num (2 ^ q)) w.
Proof.
  intros kinds flags N i w fl nch tags n nraw stack garbage ps pb ls lf num q H IN KI r c BS0 LS LF BO WF NB B1 B2 p0 P0 FR ER Q NM U h pos BF LA KU.
  pose proof (hist_static kinds flags N i w H) as [_ EC].
  assert (HK := hist_kind kinds flags N i w H KI). assert (HC := hist_cfg kinds flags N i w H).
  destruct (wav_loop (r_stop (w_rd w i)) fl nch tags n nraw stack garbage ps pb ls lf num q HC HK BS0 LS LF BO WF NB B1 B2 P0 FR ER Q NM U) as (r2 & E & D1 & D2); [rewrite EC; assumption..|].
  rewrite EC in D1, D2. apply (out_wav kinds flags N i w H IN KI fl nch tags n nraw stack garbage _ r2 BO WF NB E). destruct KU as [K|(s & S & K)]; [now apply D1|now apply (D2 128%nat s)].
Qed.

Lemma out_pong_raw : forall kinds flags N i w fl nch stack garbage ps pb ls lf num q, history kinds flags N w -> (i < N)%nat -> kinds i <> KArray ->
  let r := w_rd w i in let c := cfg_of (kinds i) in
  basic_settings r LPingpong ps pb -> r_ls r = ls -> r_lf r = lf -> r_hdr r = 0 -> (1 <= nch)%nat -> Z.of_nat nch < 2 ^ 15 ->
  0 < fsize fl < 2 ^ 31 -> 0 <= ls < lf -> lf <= fsize fl / 2 / Z.of_nat nch ->
  let p0 := loop_start ps ls pb in let lo := loop_low ps ls in 0 <= p0 < lf ->
  fin64 (r_rate r) = true -> R64 (r_rate r) = (IZR num * bpow radix2 (- q))%R ->
  0 <= q <= 52 -> 0 < num <= 2 ^ 52 -> ((R64 (r_rate r) + 1) * INR nch <= IZR (2 ^ 30))%R ->
  let pos i := 0 + i * Z.of_nat nch in
  buffers_fill c fl (pos p0) -> pong_buffered c 0 lf nch pos p0 lo ls num q ->
  plays_out kinds N i fl false (Z.of_nat nch) stack garbage nch (file_pingpong fl 0 nch lo lf p0 num (2 ^ q)) w.
Proof.
  intros kinds flags N i w fl nch stack garbage ps pb ls lf num q H IN KI r c BS0 LS LF HH N1 NB SZ B1 B2 p0 lo P0 FR ER Q NM U pos BF KU.
  pose proof (hist_static kinds flags N i w H) as [_ EC].
  assert (HK := hist_kind kinds flags N i w H KI). assert (HC := hist_cfg kinds flags N i w H).
  destruct (raw_pong (r_stop (w_rd w i)) fl nch stack garbage ps pb ls lf num q HC HK BS0 LS LF HH N1 NB SZ B1 B2 P0 FR ER Q NM U) as (r2 & E & D1 & D2); [rewrite EC; assumption..|].
  rewrite EC in D1, D2. apply (out_raw kinds flags N i w H IN KI fl nch stack garbage _ r2 N1 NB SZ E). destruct KU as [K|(A1 & A2 & A3 & s & S & K)]; [now apply D1|now apply (D2 A1 A2 A3 128%nat s)].
Qed.
Lemma out_pong_wav : forall kinds flags N i w fl nch tags n nraw stack garbage ps pb ls lf num q, history kinds flags N w -> (i < N)%nat -> kinds i <> KArray ->
  let r := w_rd w i in let c := cfg_of (kinds i) in
  basic_settings r LPingpong ps pb -> r_ls r = ls -> r_lf r = lf -> bytes_ok stack -> wav_file fl nch tags n -> Z.of_nat nch < 2 ^ 15 ->
  0 <= ls < lf -> lf <= n / 2 / Z.of_nat nch ->
  let p0 := loop_start ps ls pb in let lo := loop_low ps ls in 0 <= p0 < lf ->
  fin64 (r_rate r) = true -> R64 (r_rate r) = (IZR num * bpow radix2 (- q))%R ->
  0 <= q <= 52 -> 0 < num <= 2 ^ 52 -> ((R64 (r_rate r) + 1) * INR nch <= IZR (2 ^ 30))%R ->
  let h := (44 + tags) / 2 in
  let pos i := h + i * Z.of_nat nch in
  buffers_fill c fl (pos p0) -> pong_buffered c h lf nch pos p0 lo ls num q ->
  plays_out kinds N i fl true nraw stack garbage nch (file_pingpong fl h nch lo lf p0 num (2 ^ q)) w.
Proof.
  intros kinds flags N i w fl nch tags n nraw stack garbage ps pb ls lf num q H IN KI r c BS0 LS LF BO WF NB B1 B2 p0 lo P0 FR ER Q NM U h pos BF KU.
  pose proof (hist_static kinds flags N i w H) as [_ EC].
  assert (HK := hist_kind kinds flags N i w H KI). assert (HC := hist_cfg kinds flags N i w H).
  destruct (wav_pong (r_stop (w_rd w i)) fl nch tags n nraw stack garbage ps pb ls lf num q HC HK BS0 LS LF BO WF NB B1 B2 P0 FR ER Q NM U) as (r2 & E & D1 & D2); [rewrite EC; assumption..|].
  rewrite EC in D1, D2. apply (out_wav kinds flags N i w H IN KI fl nch tags n nraw stack garbage _ r2 BO WF NB E). destruct KU as [K|(A1 & A2 & A3 & s & S & K)]; [now apply D1|now apply (D2 A1 A2 A3 128%nat s)].
Qed.

(* ---- C113: interpolated ---- *)

Section I.
Variables (kinds : nat -> rkind) (flags : Z) (N i : nat) (w : world).
Hypotheses (H : history kinds flags N w) (IN : (i < N)%nat) (KI : kinds i <> KArray).
Variables (fl : file) (nch : nat) (stack : bytes) (garbage : nat -> bytes) (ps : play_start) (pb : Z).
Let r := w_rd w i.
Let x := r_rate r.
Hypotheses (N8 : (1 <= nch <= 8)%nat) (GR : grid_rate x) (RX : (0 < R64 x <= 1)%R) (RO : room (cfg_of (kinds i)) nch 128 1).
Let p0 := start_frame ps pb.
Let old c := y1 (r_pts r (Z.of_nat c)).

Lemma out_linear_raw : let len := fsize fl / 2 / Z.of_nat nch in interp_settings ILinear r LNone ps pb -> r_hdr r = 0 -> 0 < fsize fl < 2 ^ 31 -> (ps = PArbitrary -> 0 <= pb <= len) ->
  out_linear fl 0 len nch p0 (R64 x) old (fun out => plays_out kinds N i fl false (Z.of_nat nch) stack garbage nch out w).
Proof.
  intros len IS HH SZ PB. assert (HK := hist_kind kinds flags N i w H KI). assert (HC := hist_cfg kinds flags N i w H). pose proof (hist_static kinds flags N i w H) as [_ EC].
  assert (RO2 : room (r_cfg (r_stop (w_rd w i))) nch 128 1) by (rewrite EC; exact RO).
  destruct (raw_linear (r_stop (w_rd w i)) fl nch stack garbage ps pb 128 HC HK (proj2 N8) GR RX RO2 IS HH (proj1 N8) SZ PB) as (r2 & E & f & D & V). exists f. split; [|exact V].
  apply (out_raw kinds flags N i w H IN KI fl nch stack garbage _ r2); [lia|lia|exact SZ|exact E|exact D].
Qed.
Lemma out_linear_wav : forall tags n nraw, let len := n / 2 / Z.of_nat nch in interp_settings ILinear r LNone ps pb -> bytes_ok stack -> wav_file fl nch tags n -> (ps = PArbitrary -> 0 <= pb <= len) ->
  out_linear fl ((44 + tags) / 2) len nch p0 (R64 x) old (fun out => plays_out kinds N i fl true nraw stack garbage nch out w).
Proof.
  intros tags n nraw len IS BO WF PB. assert (HK := hist_kind kinds flags N i w H KI). assert (HC := hist_cfg kinds flags N i w H). pose proof (hist_static kinds flags N i w H) as [_ EC].
  assert (RO2 : room (r_cfg (r_stop (w_rd w i))) nch 128 1) by (rewrite EC; exact RO).
  destruct (wav_linear (r_stop (w_rd w i)) fl nch stack garbage ps pb 128 HC HK (proj2 N8) GR RX RO2 tags n nraw IS BO WF PB) as (r2 & E & f & D & V). exists f. split; [|exact V].
  apply (out_wav kinds flags N i w H IN KI fl nch tags n nraw stack garbage _ r2); [exact BO|exact WF|lia|exact E|exact D].
Qed.
Lemma out_cubic_raw : let len := fsize fl / 2 / Z.of_nat nch in interp_settings IQuadratic r LNone ps pb -> r_hdr r = 0 -> 0 < fsize fl < 2 ^ 31 -> (ps = PArbitrary -> 0 <= pb <= len) ->
  out_cubic fl 0 len nch p0 (R64 x) (fun out => plays_out kinds N i fl false (Z.of_nat nch) stack garbage nch out w).
Proof.
  intros len IS HH SZ PB. assert (HK := hist_kind kinds flags N i w H KI). assert (HC := hist_cfg kinds flags N i w H). pose proof (hist_static kinds flags N i w H) as [_ EC].
  assert (RO2 : room (r_cfg (r_stop (w_rd w i))) nch 128 1) by (rewrite EC; exact RO).
  destruct (raw_cubic (r_stop (w_rd w i)) fl nch stack garbage ps pb 128 HC HK (proj2 N8) GR RX RO2 IS HH (proj1 N8) SZ PB) as (r2 & E & f & D & V). exists f. split; [|exact V].
  apply (out_raw kinds flags N i w H IN KI fl nch stack garbage _ r2); [lia|lia|exact SZ|exact E|exact D].
Qed.
Lemma out_cubic_wav : forall tags n nraw, let len := n / 2 / Z.of_nat nch in interp_settings IQuadratic r LNone ps pb -> bytes_ok stack -> wav_file fl nch tags n -> (ps = PArbitrary -> 0 <= pb <= len) ->
  out_cubic fl ((44 + tags) / 2) len nch p0 (R64 x) (fun out => plays_out kinds N i fl true nraw stack garbage nch out w).
Proof.
  intros tags n nraw len IS BO WF PB. assert (HK := hist_kind kinds flags N i w H KI). assert (HC := hist_cfg kinds flags N i w H). pose proof (hist_static kinds flags N i w H) as [_ EC].
  assert (RO2 : room (r_cfg (r_stop (w_rd w i))) nch 128 1) by (rewrite EC; exact RO).
  destruct (wav_cubic (r_stop (w_rd w i)) fl nch stack garbage ps pb 128 HC HK (proj2 N8) GR RX RO2 tags n nraw IS BO WF PB) as (r2 & E & f & D & V). exists f. split; [|exact V].
  apply (out_wav kinds flags N i w H IN KI fl nch tags n nraw stack garbage _ r2); [exact BO|exact WF|lia|exact E|exact D].
Qed.
End I.
