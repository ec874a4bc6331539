(* The runs behind the sketches' refutations and examples (C114-C116). *)

From Coq Require Import ZArith Lia List Bool.
From Verif Require Import Machine Floats WavModel CacheModel CacheFacts CacheFinal ReaderModel ReaderSpec ResponderModel PlayerModel LifeSpec SketchModel SketchSpec SketchCases WavFinal.
From Verif Require FadeCases.
Import ListNotations.
Local Open Scope Z_scope.

Lemma pass_ok : forall (pots : Z -> Prop) p after due dl, pots p -> turn_ok pots (pass p after due dl).
Proof. intros pots p after due dl P. split; [exact P|]. intros a. split; cbn; lia. Qed.
Lemma pass_rep : forall (pots : Z -> Prop) n p after due dl, pots p -> Forall (turn_ok pots) (repeat (pass p after due dl) n).
Proof. intros pots n p after due dl P. induction n as [|n IH]; constructor; auto using pass_ok. Qed.

Lemma c114_refuted : exists m len flags analog l fuel, array_holds m 0 len 1 /\ 0 <= flags < 256 /\ 0 <= analog <= 1023 /\
  Forall (turn_ok (fun p => 0 <= p <= 1023)) l /\ sketch fuel KArray flags (start_array m len) analog l = UB UbOutOfBounds.
Proof.
  exists (FadeCases.ramp 200), 200, 2, 513, turn_back, 300%nat. destruct array_bounds as [A B]. split; [exact A|]. split; [lia|]. split; [lia|]. split; [|exact B].
  repeat (constructor; [apply pass_ok; lia|]). constructor.
Qed.

(* Starts, and updates that sent a block *)
Definition is_sent (x : wout) : bool := match x with WoActs l => existsb (fun e => match e with BTransmit _ _ _ => true | _ => false end) (flat_map snd l) | _ => false end.
Definition heard_in (e : res (list wout * world)) : nat * nat :=
  match e with Ok (xs, _) => (starts xs, length (filter is_sent xs)) | _ => (99%nat, 99%nat) end.

(* Three passes, four updates *)
Definition moving (p1 p2 p3 : Z) : list turn := [pass p1 [] true [Some give]; pass p2 [give] false [Some give; None]; pass p3 [] true [None; Some give]].
Lemma moving_ok : forall (pots : Z -> Prop) p1 p2 p3, pots p1 -> pots p2 -> pots p3 -> Forall (turn_ok pots) (moving p1 p2 p3).
Proof. intros pots p1 p2 p3 A B C. repeat (constructor; [apply pass_ok; assumption|]). constructor. Qed.
Lemma c114_case : array_holds (FadeCases.ramp 200) 0 200 1 /\ Forall (turn_ok upper) (moving 700 1023 512) /\ Forall (turn_ok lower) (moving 300 0 511) /\
  heard_in (sketch 300 KArray 2 (start_array (FadeCases.ramp 200) 200) 800 (moving 700 1023 512)) = (1%nat, 4%nat) /\
  heard_in (sketch 300 KArray 2 (start_array (FadeCases.ramp 200) 200) 100 (moving 300 0 511)) = (1%nat, 4%nat).
Proof.
  split; [apply array_bounds|]. split; [apply moving_ok; unfold upper; lia|]. split; [apply moving_ok; unfold lower; lia|].
  split; vm_compute; reflexivity.
Qed.

Definition ended (e : res (list wout * world)) : bool :=
  match e with Ok (xs, w) => Nat.eqb (starts xs) 1 && r_playing (w_rd w 0) && (10 <=? r_pos1 (w_rd w 0)) | _ => false end.
Lemma c115_refuted : exists xs w, sketch 300 KArray 2 (start_array (FadeCases.ramp 10) 10) 1023 (repeat (pass 1023 [] true [Some give]) 20) = Ok (xs, w) /\
  starts xs = 1%nat /\ r_playing (w_rd w 0) = true /\ 10 <= r_pos1 (w_rd w 0).
Proof.
  assert (X : ended (sketch 300 KArray 2 (start_array (FadeCases.ramp 10) 10) 1023 (repeat (pass 1023 [] true [Some give]) 20)) = true) by (vm_compute; reflexivity).
  revert X. generalize (sketch 300 KArray 2 (start_array (FadeCases.ramp 10) 10) 1023 (repeat (pass 1023 [] true [Some give]) 20)).
  intros [[xs w]| |] X; try discriminate. cbn [ended] in X. apply andb_prop in X. destruct X as [X P]. apply andb_prop in X. destruct X as [X Q].
  exists xs, w. split; [reflexivity|]. split; [now apply Nat.eqb_eq|]. split; [exact Q|now apply Z.leb_le].
Qed.

Lemma ramp_raw : forall n, 0 <= n < 2 ^ 31 -> raw_ok (Some (ramp_file n)).
Proof. intros n B fl E. injection E as <-. exact B. Qed.
Lemma c116_refuted : exists fo flags analog l, raw_ok fo /\ 0 <= flags < 256 /\ 0 <= analog <= 1023 /\ Forall (turn_ok (fun p => 0 <= p <= 1023)) l /\
  forall fuel, (300 <= fuel)%nat -> sketch fuel KFlash flags (start_raw fo) analog l = NoFuel.
Proof.
  exists (Some (ramp_file 1000)), 2, 513, ([pass 513 [] true []] ++ [pass 0 [give] false []]). split; [apply ramp_raw; lia|]. split; [lia|]. split; [lia|].
  split; [|exact flash_hangs]. cbn [app]. repeat (constructor; [apply pass_ok; lia|]). constructor.
Qed.
Lemma c116_refuted_down : exists fo flags analog l, raw_ok fo /\ 0 <= flags < 256 /\ lower analog /\ Forall (turn_ok lower) l /\
  forall fuel, (300 <= fuel)%nat -> sketch fuel KFlash flags (start_raw fo) analog l = NoFuel.
Proof.
  exists (Some (ramp_file 1026)), 2, 0, (down_run ++ [pass 0 [give] false []]). split; [apply ramp_raw; lia|]. split; [lia|]. split; [unfold lower; lia|].
  split; [|exact flash_hangs_down]. apply Forall_app. split; [|constructor; [apply pass_ok; unfold lower; lia|constructor]].
  constructor; [apply pass_ok; unfold lower; lia|apply pass_rep; unfold lower; lia].
Qed.
Lemma c116_case : raw_ok (Some (ramp_file 1000)) /\ Forall (turn_ok upper) (repeat (pass 1023 [] true [Some give; None]) 8) /\
  heard_in (sketch 300 KFlash 2 (start_raw (Some (ramp_file 1000))) 1023 (repeat (pass 1023 [] true [Some give; None]) 8)) = (2%nat, 8%nat) /\
  heard_in (sketch 300 KSd 2 (start_raw None) 1023 (repeat (pass 1023 [] true [Some give; None]) 3)) = (3%nat, 0%nat).
Proof.
  split; [apply ramp_raw; lia|]. split; [apply pass_rep; unfold upper; lia|]. split; vm_compute; reflexivity.
Qed.

(* A WAV file of 600 samples *)
Lemma c116_wav : wav_ok (Some (mkfile wav_flash)) /\ Forall (turn_ok upper) (repeat (pass 1023 [] true [Some give; None]) 12) /\
  heard_in (sketch 300 KFlash 2 (start_wav (Some (mkfile wav_flash))) 1023 (repeat (pass 1023 [] true [Some give; None]) 12)) = (3%nat, 12%nat).
Proof.
  split; [intros fl E; injection E as <-; exists 1%nat, 0, 1200; split; [apply wav_flash_ok|lia]|].
  split; [apply pass_rep; unfold upper; lia|]. vm_compute. reflexivity.
Qed.
