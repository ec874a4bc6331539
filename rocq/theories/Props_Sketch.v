(* C114-C116: the example sketches. *)

From Coq Require Import ZArith Lia List Bool.
From Verif Require Import Machine Floats WavModel CacheModel CacheFacts CacheFinal ReaderModel ReaderSpec ResponderModel PlayerModel LifeSpec SketchModel SketchSpec
  SketchArray SketchFile SketchCases SketchRuns SketchOnce WavFinal.
From Verif Require FadeCases.
Import ListNotations.
Local Open Scope Z_scope.

(* ---- C114 ---- *)

(* One block forwards, then the knob below the middle *)
Theorem C114_refuted : exists m len flags analog l fuel, array_holds m 0 len 1 /\ 0 <= flags < 256 /\ 0 <= analog <= 1023 /\
  Forall (turn_ok (fun p => 0 <= p <= 1023)) l /\ sketch fuel KArray flags (start_array m len) analog l = UB UbOutOfBounds.
Proof. exact c114_refuted. Qed.

Theorem C114_forward_partial : forall m len, array_holds m 0 len 1 -> forall flags analog l, 0 <= flags < 256 -> upper analog -> Forall (turn_ok upper) l ->
  exists F xs w, forall fuel, (F <= fuel)%nat -> sketch fuel KArray flags (start_array m len) analog l = Ok (xs, w).
Proof. exact array_forward. Qed.

Theorem C114_reverse_partial : forall m len, array_holds m 0 len 1 -> forall flags analog l, 0 <= flags < 256 -> lower analog -> Forall (turn_ok lower) l ->
  exists F xs w, forall fuel, (F <= fuel)%nat -> sketch fuel KArray flags (start_array m len) analog l = Ok (xs, w).
Proof. exact array_reverse. Qed.

(* 200 frames and three passes with the knob moving, a start and four blocks *)
Example C114_case : array_holds (FadeCases.ramp 200) 0 200 1 /\ Forall (turn_ok upper) (moving 700 1023 512) /\ Forall (turn_ok lower) (moving 300 0 511) /\
  heard_in (sketch 300 KArray 2 (start_array (FadeCases.ramp 200) 200) 800 (moving 700 1023 512)) = (1%nat, 4%nat) /\
  heard_in (sketch 300 KArray 2 (start_array (FadeCases.ramp 200) 200) 100 (moving 300 0 511)) = (1%nat, 4%nat).
Proof. exact c114_case. Qed.

(* ---- C115 ---- *)

(* However often 500 ms have passed *)
Theorem C115_once : forall m len fuel flags analog l xs w, 0 <= flags < 256 ->
  sketch fuel KArray flags (start_array m len) analog l = Ok (xs, w) -> (starts xs <= 1)%nat.
Proof. exact array_once. Qed.

(* 10 frames at rate about 1: over after the first of the blocks asked for; due in all of 20 passes; never started again *)
Theorem C115_refuted : exists xs w, sketch 300 KArray 2 (start_array (FadeCases.ramp 10) 10) 1023 (repeat (pass 1023 [] true [Some give]) 20) = Ok (xs, w) /\
  starts xs = 1%nat /\ r_playing (w_rd w 0) = true /\ 10 <= r_pos1 (w_rd w 0).
Proof. exact c115_refuted. Qed.

(* ---- C116 ---- *)

(* yield() does not return, whatever the fuel: the knob turned down while a file plays, and a knob that is down all the time *)
Theorem C116_refuted : exists fo flags analog l, raw_ok fo /\ 0 <= flags < 256 /\ 0 <= analog <= 1023 /\ Forall (turn_ok (fun p => 0 <= p <= 1023)) l /\
  forall fuel, (300 <= fuel)%nat -> sketch fuel KFlash flags (start_raw fo) analog l = NoFuel.
Proof. exact c116_refuted. Qed.

Theorem C116_refuted_down : exists fo flags analog l, raw_ok fo /\ 0 <= flags < 256 /\ lower analog /\ Forall (turn_ok lower) l /\
  forall fuel, (300 <= fuel)%nat -> sketch fuel KFlash flags (start_raw fo) analog l = NoFuel.
Proof. exact c116_refuted_down. Qed.

Theorem C116_raw_partial : forall k fo, k <> KArray -> raw_ok fo -> forall flags analog l, 0 <= flags < 256 -> upper analog -> Forall (turn_ok upper) l ->
  exists F xs w, forall fuel, (F <= fuel)%nat -> sketch fuel k flags (start_raw fo) analog l = Ok (xs, w).
Proof. exact raw_upper. Qed.

Theorem C116_wav_partial : forall k fo, k <> KArray -> wav_ok fo -> forall flags analog l, 0 <= flags < 256 -> upper analog -> Forall (turn_ok upper) l ->
  exists F xs w, forall fuel, (F <= fuel)%nat -> sketch fuel k flags (start_wav fo) analog l = Ok (xs, w).
Proof. exact wav_upper. Qed.

(* A file of 500 samples: started twice in 8 passes, as it runs out after four blocks *)
Example C116_case : raw_ok (Some (ramp_file 1000)) /\ Forall (turn_ok upper) (repeat (pass 1023 [] true [Some give; None]) 8) /\
  heard_in (sketch 300 KFlash 2 (start_raw (Some (ramp_file 1000))) 1023 (repeat (pass 1023 [] true [Some give; None]) 8)) = (2%nat, 8%nat) /\
  heard_in (sketch 300 KSd 2 (start_raw None) 1023 (repeat (pass 1023 [] true [Some give; None]) 3)) = (3%nat, 0%nat).
Proof. exact c116_case. Qed.

(* A WAV file of 600 samples: five blocks each time *)
Example C116_case_wav : wav_ok (Some (mkfile wav_flash)) /\ Forall (turn_ok upper) (repeat (pass 1023 [] true [Some give; None]) 12) /\
  heard_in (sketch 300 KFlash 2 (start_wav (Some (mkfile wav_flash))) 1023 (repeat (pass 1023 [] true [Some give; None]) 12)) = (3%nat, 12%nat).
Proof. exact c116_wav. Qed.

Print Assumptions C114_refuted.
Print Assumptions C114_forward_partial.
Print Assumptions C114_reverse_partial.
Print Assumptions C115_once.
Print Assumptions C115_refuted.
Print Assumptions C116_refuted.
Print Assumptions C116_refuted_down.
Print Assumptions C116_raw_partial.
Print Assumptions C116_wav_partial.
