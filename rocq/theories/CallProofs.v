(* Interrupted calls: the steps of CallModel.v do what the calls of ReaderModel.v do, and
   which of them behave as one step. *)

From Coq Require Import ZArith Lia List Bool.
From RecordUpdate Require Import RecordUpdate.
From Flocq Require Import IEEE754.BinarySingleNaN.
From Verif Require Import Machine Floats WavModel InterpModel CacheModel ReaderModel ReaderFacts PlayerModel CallModel CallSpec.
Import ListNotations.
Local Open Scope Z_scope.

(* ------------------------------------------------------------------ *)
(* Without interruptions                                               *)

Lemma pseq_run : forall p q r, prog_run (pseq p q) r = '(_, r1) <- prog_run p r ;; prog_run q r1.
Proof.
  induction p as [b|g k IH]; intros q r; [reflexivity|].
  cbn [pseq prog_run]. destruct (g r) as [r1|u|]; cbn; auto.
Qed.
Lemma local_run : forall A (x : res A) k r, prog_run (local x k) r = a <- x ;; prog_run (k a) r.
Proof. intros A [a|u|] k r; reflexivity. Qed.

Lemma write_run : forall g k r, prog_run (write g k) r = prog_run k (g r).
Proof. reflexivity. Qed.
Lemma look_run : forall k r, prog_run (look k) r = prog_run (k r) r.
Proof. reflexivity. Qed.
Lemma step_run : forall g k r, prog_run (Step g k) r = r1 <- g r ;; prog_run (k r1) r1.
Proof. reflexivity. Qed.
Lemma go_run : forall r, prog_run go r = Ok (true, r <| r_playing := true |>).
Proof. reflexivity. Qed.

Lemma setter_steps_run : forall s r, prog_run (setter_steps s) r = Ok (true, setter_run s r).
Proof.
  intros s r. destruct s; reflexivity.
Qed.
Lemma rate_steps_run : forall f r, prog_run (rate_steps f) r = yes (setPlaybackRate r f).
Proof.
  intros f r. unfold rate_steps, setPlaybackRate, yes, seek_steps, from_finish. cbn.
  repeat (match goal with |- context [if ?b then _ else _] => destruct b end; cbn); try reflexivity;
  try (destruct (chk32 _); reflexivity).
Qed.
Lemma loop_steps_run : forall n r, prog_run (loop_steps n) r = yes (r_loop_from_here r n).
Proof.
  intros n r. unfold loop_steps, r_loop_from_here, yes. cbn. destruct (sdiv32 _ _); reflexivity.
Qed.
Lemma stop_steps_run : forall r, prog_run stop_steps r = Ok (true, r_stop r).
Proof. intros r. cbn. destruct (r_playing r) eqn:P; [reflexivity|]. cbn. unfold r_stop. destruct r; cbn in *. now rewrite P. Qed.
Lemma close_steps_run : forall r, prog_run close_steps r = Ok (true, r_close r).
Proof.
  intros r. unfold close_steps. rewrite pseq_run, stop_steps_run. cbn. unfold r_close, drop_fname, drop_src.
  destruct r as [k ? ? ? ? ? ? ? ? ? ? ? ? ? ? ? ? ? ? ? fn ? ? ? ? lv]. cbn. destruct k; cbn; reflexivity.
Qed.
Lemma reset_steps_run : forall k r, prog_run (reset_steps k) r = r1 <- r_reset r ;; prog_run k r1.
Proof.
  intros k r. unfold reset_steps, r_reset, reset_pos, reset_points. cbn.
  repeat match goal with
  | |- context [if dle d0 (r_rate r) then _ else _] => destruct (dle d0 (r_rate r))
  | |- context [match r_pstart r with _ => _ end] => destruct (r_pstart r)
  end; cbn; try reflexivity; (destruct (chk32 _); cbn; reflexivity).
Qed.
Lemma again_steps_run : forall r, prog_run again_steps r = yes (r_play r).
Proof.
  intros r. unfold again_steps, r_play, yes. rewrite pseq_run, stop_steps_run. cbn [bind]. rewrite reset_steps_run.
  destruct (r_reset _); reflexivity.
Qed.
Lemma begin_steps_run : forall r, prog_run begin_steps r = Ok (true, r_begin r).
Proof. reflexivity. Qed.
Lemma raw_steps_run : forall m off len nch r, prog_run (raw_steps m off len nch) r = yes (playRaw_array r m off len nch).
Proof.
  intros. unfold raw_steps, playRaw_array, yes. cbv zeta. rewrite write_run, pseq_run, stop_steps_run. cbn [bind]. rewrite !write_run, reset_steps_run.
  destruct (r_reset _); reflexivity.
Qed.
Lemma wav_steps_run : forall m r, prog_run (wav_steps m) r = playWav_array r m.
Proof.
  intros m r. unfold wav_steps, playWav_array. cbv zeta. rewrite local_run.
  destruct (readWaveHeaderFromBuffer _ _ _) as [[ok h]|u|]; cbn [bind]; try reflexivity.
  destruct (negb ok); [reflexivity|]. rewrite local_run. destruct (readInfoTags _ _) as [[n|]|u|]; cbn [bind]; try reflexivity.
  rewrite local_run. destruct (readDataHeader _ _) as [[db|]|u|]; cbn [bind]; try reflexivity.
  destruct (_ =? 0); [reflexivity|]. rewrite raw_steps_run. reflexivity.
Qed.
Lemma open_src_steps : forall r fs f p g,
  (let r := r <| r_fsamples := fs |> in
   let r := match r_loop r with LNone => r <| r_ls := 0 |> | _ => r end in
   let r := match r_loop r with LNone => r <| r_lf := r_fsamples r |> | _ => r end in
   r <| r_src := SFile (if_new (r_cfg r) f p g) |> <| r_live := r_live r + 2 |>) = open_src r fs f p g.
Proof. intros [? ? ? ? ? ? ? lp ? ? ? ? ? ? ? ? ? ? ? ? ? ? ? ? ? ?] fs f p g. destruct lp; reflexivity. Qed.
Lemma open_steps_run : forall f p g r, prog_run (open_steps f p g) r = play_open r f p g.
Proof.
  intros f p g r. unfold open_steps, play_open. rewrite look_run.
  destruct (_ <=? _); [reflexivity|]. rewrite step_run. destruct (sdiv32 _ _) as [fs|u|]; cbn [bind]; try reflexivity.
  rewrite !write_run, reset_steps_run. unfold start_file. rewrite <- open_src_steps. cbv zeta.
  destruct (r_reset _) as [r1|u|]; cbn [bind]; try reflexivity. rewrite step_run. unfold preload_step.
  destruct (r_src r1) as [|m off|fl]; try reflexivity. destruct (preLoadBuffers _ _ _) as [[x fl']|u|]; cbn [bind]; reflexivity.
Qed.
Lemma header_steps_run : forall f stack k r,
  prog_run (header_steps (c_keep (r_cfg r)) f stack k) r =
  '(o, r1) <- play_header r f stack ;; match o with None => Ok (false, r1) | Some p => prog_run (k p) r1 end.
Proof.
  intros f stack k r. unfold header_steps, play_header. cbv zeta. rewrite local_run.
  destruct (readWaveHeaderFromBuffer _ _ _) as [[ok h]|u|]; cbn [bind]; try reflexivity.
  destruct (negb _); [reflexivity|]. rewrite write_run, local_run.
  destruct (readInfoTags _ _) as [[n|]|u|]; cbn [bind]; try reflexivity.
  rewrite local_run. change (r_cfg (setNumChannels r (u16 (h_channels h)))) with (r_cfg r).
  destruct (readDataHeader _ _) as [[db|]|u|]; cbn [bind]; reflexivity.
Qed.
Lemma file_steps_run : forall k c fo w n st g r, r_kind r = k -> r_cfg r = c ->
  prog_run (file_steps k c fo w n st g) r = r_play_file r fo w n st g.
Proof.
  intros k c fo w n st g r K C. unfold file_steps. rewrite pseq_run, close_steps_run. cbn [bind]. unfold r_play_file.
  set (r0 := r_close r). assert (K0 : r_kind r0 = k) by (subst k; unfold r0, r_close; destruct r; destruct r_kind; reflexivity).
  assert (C0 : r_cfg r0 = c) by (subst c; unfold r0, r_close; destruct r; destruct r_kind; reflexivity).
  clearbody r0. clear K C r. cbv zeta.
  set (r1 := if w then r0 else setNumChannels r0 n).
  transitivity (prog_run (write (fun r => r <| r_fname := true |> <| r_live := r_live r + 1 |>)
    match (match k with KArray => None | _ => fo end) with
  | None => write drop_name (Done false)
  | Some f =>
      write (fun r => r <| r_fsize := s32 (fsize f) |>)
      (if w then header_steps (c_keep c) f st (fun p => open_steps f p g)
       else write (fun r => r <| r_fsamples := Z.quot (r_fsize r) 2 |>) (open_steps f 0 g))
  end) r1); [unfold r1; destruct w; reflexivity|].
  assert (K1 : r_kind r1 = k) by (unfold r1; destruct w; exact K0). assert (C1 : r_cfg r1 = c) by (unfold r1; destruct w; exact C0).
  clearbody r1. clear r0 K0 C0. rewrite write_run. change (r_kind (r1 <| r_fname := true |> <| r_live := r_live r1 + 1 |>)) with (r_kind r1).
  rewrite K1. destruct (match k with KArray => None | _ => fo end) as [f|]; [|reflexivity].
  rewrite write_run. set (r2 := _ <| r_fsize := s32 (fsize f) |>).
  assert (C2 : r_cfg r2 = c) by exact C1. clearbody r2. rewrite <- C2. destruct w.
  - rewrite header_steps_run. destruct (play_header r2 f st) as [[[p|] r3]|u|]; cbn [bind]; try reflexivity. now rewrite open_steps_run.
  - rewrite write_run, open_steps_run. reflexivity.
Qed.

Lemma starter_steps_run : forall k c s r, r_kind r = k -> r_cfg r = c -> prog_run (starter_steps k c s) r = starter_run s r.
Proof.
  intros k c s r K C. destruct s; cbn [starter_steps starter_run].
  - rewrite pseq_run, stop_steps_run. cbn [bind]. now apply file_steps_run.
  - rewrite pseq_run, stop_steps_run. cbn [bind]. now rewrite raw_steps_run.
  - rewrite pseq_run, stop_steps_run. cbn [bind]. unfold playWav_array_len, playRaw_array2. now rewrite raw_steps_run.
  - rewrite pseq_run, stop_steps_run. cbn [bind]. rewrite wav_steps_run. reflexivity.
  - apply again_steps_run.
  - apply begin_steps_run.
  - apply stop_steps_run.
  - apply close_steps_run.
Qed.
