(* Runs of the example FileAccess.ino (C127-C130). *)

From Coq Require Import ZArith Lia List Bool.
From RecordUpdate Require Import RecordUpdate.
From Verif Require Import Machine Floats WavModel WavSpec WavFinal CacheModel CacheFinal ReaderModel ResponderModel PlayerModel LifeSpec SketchModel PianoModel PlayerCases ManySpec ManyCases AccessModel AccessSpec AccessProofs.
Import ListNotations.
Local Open Scope Z_scope.

(* A mono WAV file: header and a ramp *)
Definition le (k : nat) (n : Z) : list Z := map (fun i => n / 256 ^ Z.of_nat i mod 256) (seq 0 k).
Definition head_mono (n : Z) : list Z :=
  [82;73;70;70] ++ le 4 (36 + n) ++ [87;65;86;69;102;109;116;32;16;0;0;0;1;0;1;0] ++ le 4 44100 ++ le 4 88200 ++ [2;0;16;0;100;97;116;97] ++ le 4 n.
Definition wav_mono (frames : Z) : file :=
  mkFile (44 + 2 * frames) (fun i => if (0 <=? i) && (i <? 44) then nth (Z.to_nat i) (head_mono (2 * frames)) 0 else fbyte (ramp_file 0) (i - 44)).

Definition upd_gap (k n : nat) (j : nat) : list (option (nat * grant)) := if Nat.eqb j k then concat (repeat [Some (O, give); None] n) else [].
Definition fpass_of (now : Z) (g : nat -> list (option (nat * grant))) : fpass := mkFpass now g true 1099 [] (fun _ => 0) dirty.

(* The file ends 5 samples behind the first block.  Played at 1.5 and stopped after 1.9
   seconds, then at -1: *)
Definition ub_passes : list fpass := [fpass_of 60 (upd_gap 5 1); fpass_of 2000 (upd_gap 5 0); fpass_of 2060 (upd_gap 5 3)].
Lemma access_ub : file_access (Some (wav_mono 2031)) 300 2 ub_passes = UB UbVector.
Proof. vm_compute. reflexivity. Qed.
Definition shape (x : res (list fact * access)) : option (list Z * list (Z * Z) * list bool) :=
  match x with
  | Ok (log, s) => Some (start_rates log,
      flat_map (fun a => match a with FCopied d n => [(Z.of_nat (length d), n)] | _ => [] end) log,
      flat_map (fun a => match a with FStart _ xs => starts_of xs | _ => [] end) log)
  | _ => None
  end.
Lemma access_before : shape (file_access (Some (wav_mono 2031)) 300 2 (firstn 2 ub_passes)) = Some ([1], [], [true]).
Proof. vm_compute. reflexivity. Qed.

Definition good_passes : list fpass :=
  [fpass_of 60 (upd_gap 6 1); fpass_of 2000 (upd_gap 5 0); fpass_of 2060 (upd_gap 6 1); fpass_of 4000 (upd_gap 5 0); fpass_of 4060 (upd_gap 6 1); fpass_of 6000 (upd_gap 5 0);
   fpass_of 6060 (upd_gap 6 1); fpass_of 8000 (upd_gap 5 0); fpass_of 8060 (upd_gap 6 1)].
Lemma good_run : shape (file_access (Some (wav_mono 300)) 300 2 good_passes) =
  Some ([1; 2; 3; 0; 1], [(644, 644); (644, 644); (644, 644)], [true; true; true; true; true]).
Proof. vm_compute. reflexivity. Qed.
Lemma good_passes_ok : Forall rnd_ok good_passes /\ Forall (fun t => fp_opens t = true) good_passes /\ fsize (wav_mono 300) / 100 + 3 <= Z.of_nat (length good_passes).
Proof. split; [|split]; [repeat (constructor; [split; cbn; lia|]); constructor|repeat constructor|vm_compute; congruence]. Qed.

(* A pass in which update() asks for a reload while the file is copied: the play position
   moves and the buffers stay as they are *)
Definition copy_check : bool :=
  match file_access (Some (wav_mono 2031)) 300 2 [] with
  | Ok (_, s) =>
      match access_front (Some (wav_mono 2031)) 300 (fpass_of 60 (upd_gap 6 1)) s with
      | Ok (_, s1) =>
          match copy_update (Some (wav_mono 2031)) 300 (fpass_of 60 (upd_gap 6 1)) s1 with
          | Ok (_, s2) => match r_src (w_rd (fa_world s1) 0) with SFile f => (r_pos1 (w_rd (fa_world s1) 0) <? r_pos1 (w_rd (fa_world s2) 0)) && Nat.eqb (length (i_bufs f)) 2 | _ => false end
          | _ => false
          end
      | _ => false
      end
  | _ => false
  end.
Lemma copy_check_ok : copy_check = true.
Proof. vm_compute. reflexivity. Qed.
