(* Concrete runs for C41, C42, C66, C67. *)

From Coq Require Import ZArith Lia List Bool.
From RecordUpdate Require Import RecordUpdate.
From Verif Require Import Machine Floats WavModel CacheModel ReaderModel ReaderSpec MillisModel MillisProofs
  CacheFacts CacheFinal WavSpec WavFinal PlayerCases ReplayCases.
Import ListNotations.
Local Open Scope Z_scope.

Definition opened (r : reader) (f : file) (w : bool) (n : Z) : res reader :=
  '(b, s) <- r_play_file r (Some f) w n (fun _ => 0) dirty ;; if b then Ok s else NoFuel.
Lemma opened_play : forall r f w n s, opened r f w n = Ok s -> r_play_file r (Some f) w n (fun _ => 0) dirty = Ok (true, s).
Proof.
  intros r f w n s H. unfold opened in H. destruct (r_play_file _ _ _ _ _ _) as [[[] x]| |]; cbn in H; try discriminate. now injection H as <-.
Qed.

Definition is_ok (k : Z) (e : res Z) : bool := match e with Ok z => z =? k | _ => false end.
Definition is_ub (e : res Z) : bool := match e with UB UbFloatToInt => true | _ => false end.
Lemma is_ok_eq : forall k e, is_ok k e = true -> e = Ok k.
Proof. intros k [z| |] H; try discriminate. apply Z.eqb_eq in H. now subst z. Qed.
Lemma is_ub_eq : forall e, is_ub e = true -> e = UB UbFloatToInt.
Proof. intros [|[]|] H; try discriminate. reflexivity. Qed.

(* a mono WAV file of 40 frames: 0.9 ms of audio behind 44 bytes of headers *)
Definition wav40 : list Z := canonical 116 1 1 44100 88200 2 16 ++ t_data ++ enc32 80 ++ repeat 1 80.
Theorem wav_long : exists s, r_play_file (new_reader KSd) (Some (mkfile wav40)) true 1 (fun _ => 0) dirty = Ok (true, s) /\
  r_nch s = 1 /\ r_fsamples s = 40 /\ lengthMillis b2m s = 1 /\ 40 * 1000 / 44100 = 0.
Proof.
  assert (C : exists s, opened (new_reader KSd) (mkfile wav40) true 1 = Ok s /\ (r_nch s =? 1) && (r_fsamples s =? 40) && (lengthMillis b2m s =? 1) = true)
    by (apply case_of; vm_compute; reflexivity).
  destruct C as (s & E & C). apply opened_play in E. apply andb_prop in C. destruct C as [C C3]. apply andb_prop in C. destruct C as [C1 C2].
  apply Z.eqb_eq in C1, C2, C3. exists s. auto.
Qed.
(* a RAW file of one second of stereo: two seconds *)
Theorem stereo_double : exists s, r_play_file (new_reader KSd) (Some (ramp_file 176400)) false 2 (fun _ => 0) dirty = Ok (true, s) /\
  r_nch s = 2 /\ lengthMillis b2m s = 1999 /\ 176400 / 4 * 1000 / 44100 = 1000.
Proof.
  assert (C : exists s, opened (new_reader KSd) (ramp_file 176400) false 2 = Ok s /\ (r_nch s =? 2) && (lengthMillis b2m s =? 1999) = true)
    by (apply case_of; vm_compute; reflexivity).
  destruct C as (s & E & C). apply opened_play in E. apply andb_prop in C. destruct C as [C1 C2].
  apply Z.eqb_eq in C1, C2. exists s. auto.
Qed.
(* a RAW file of one byte *)
Theorem one_byte : exists s, r_play_file (new_reader KSd) (Some (ramp_file 1)) false 1 (fun _ => 0) dirty = Ok (true, s) /\
  positionMillis b2m s = UB UbFloatToInt.
Proof.
  assert (C : exists s, opened (new_reader KSd) (ramp_file 1) false 1 = Ok s /\ is_ub (positionMillis b2m s) = true)
    by (apply case_of; vm_compute; reflexivity).
  destruct C as (s & E & C). apply opened_play in E. exists s. split; [exact E|]. now apply is_ub_eq.
Qed.
Definition fast (x : Z) : reader := new_reader KSd <| r_rate := d_of_Z x |>.
Definition run (fu : nat) (q : reader) (n k : Z) : res reader := r <- opened q (ramp_file n) false 1 ;; '(_, s) <- r_read fu r k ;; Ok s.
Lemma run_inv : forall fu q n k s, run fu q n k = Ok s -> exists r l,
  r_play_file q (Some (ramp_file n)) false 1 (fun _ => 0) dirty = Ok (true, r) /\ r_read fu r k = Ok (l, s).
Proof.
  intros fu q n k s E. unfold run in E. apply bind_ok in E. destruct E as (r & E1 & E). apply bind_ok in E. destruct E as ([l s1] & E2 & E).
  apply Ok_inj in E. subst s1. apply opened_play in E1. exists r, l. auto.
Qed.
(* 100 frames at rate 90: the position ends up at frame 180 *)
Theorem past_end : exists r l s, r_play_file (fast 90) (Some (ramp_file 200)) false 1 (fun _ => 0) dirty = Ok (true, r) /\
  r_read 20 r 5 = Ok (l, s) /\ lengthMillis b2m s = 2 /\ positionMillis b2m s = Ok 3.
Proof.
  assert (C : exists s, run 20 (fast 90) 200 5 = Ok s /\ (lengthMillis b2m s =? 2) && is_ok 3 (positionMillis b2m s) = true)
    by (apply case_of; vm_compute; reflexivity).
  destruct C as (s & E & C). apply run_inv in E. destruct E as (r & l & E1 & E2). apply andb_prop in C. destruct C as [C1 C2]. apply Z.eqb_eq in C1.
  exists r, l, s. split; [exact E1|]. split; [exact E2|]. split; [exact C1|].
  now apply is_ok_eq.
Qed.
(* reverse at rate -90: the position ends up before the file *)
Theorem before_start : exists r l s, r_play_file (fast (-90)) (Some (ramp_file 200)) false 1 (fun _ => 0) dirty = Ok (true, r) /\
  r_read 20 r 5 = Ok (l, s) /\ positionMillis b2m s = UB UbFloatToInt.
Proof.
  assert (C : exists s, run 20 (fast (-90)) 200 5 = Ok s /\ is_ub (positionMillis b2m s) = true)
    by (apply case_of; vm_compute; reflexivity).
  destruct C as (s & E & C). apply run_inv in E. destruct E as (r & l & E1 & E2). exists r, l, s. split; [exact E1|]. split; [exact E2|].
  now apply is_ub_eq.
Qed.
(* a reader in the middle of a file *)
Theorem mid_file : exists r l s, r_play_file (new_reader KSd) (Some (ramp_file 3000)) false 1 (fun _ => 0) dirty = Ok (true, r) /\
  r_read 800 r 700 = Ok (l, s) /\ r_kind s <> KArray /\ r_fsize s = 3000 /\ place s = 700 /\ positionMillis b2m s = Ok 15 /\ lengthMillis b2m s = 34.
Proof.
  assert (C : exists s, run 800 (new_reader KSd) 3000 700 = Ok s /\
    match r_kind s with KArray => false | _ => true end && (r_fsize s =? 3000) && (place s =? 700) && is_ok 15 (positionMillis b2m s) && (lengthMillis b2m s =? 34) = true)
    by (apply case_of; vm_compute; reflexivity).
  destruct C as (s & E & C). apply run_inv in E. destruct E as (r & l & E1 & E2).
  apply andb_prop in C. destruct C as [C C5]. apply andb_prop in C. destruct C as [C C4]. apply andb_prop in C. destruct C as [C C3]. apply andb_prop in C. destruct C as [C1 C2].
  apply Z.eqb_eq in C2, C3, C5. apply is_ok_eq in C4.
  exists r, l, s. repeat split; auto. destruct (r_kind s); congruence.
Qed.
(* one second of mono audio *)
Theorem second_array : exists s, playRaw_array (new_reader KArray) (ramp_mem 88200) 0 44100 1 = Ok s /\ (lengthMillis b2m s =? 999) = true.
Proof. apply case_of. vm_compute. reflexivity. Qed.
