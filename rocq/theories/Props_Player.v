(* C30, C33-C35, C40 and C60-C63: the players. *)

From Coq Require Import ZArith Lia List Bool.
From RecordUpdate Require Import RecordUpdate.
From Verif Require Import Machine Floats WavModel CacheModel ReaderModel ResponderModel PlayerModel CacheSpec LifeSpec UpdateProofs
  LifeProofs WorldProofs ScheduleProofs CacheFinal WavFinal PlayerCases.
Import ListNotations.
Local Open Scope Z_scope.

(* ---- C30 ---- *)

(* Any number of players of any kinds, any history of calls (failing opens included),
   updates and servicing, yield or polled: a playing player has a source *)
Theorem C30_source : forall kinds flags w i, wreach kinds flags w ->
  r_playing (w_rd w i) = true -> r_src (w_rd w i) <> SNull.
Proof. exact source_exists. Qed.

(* so neither update() nor a reload dereferences null *)
Theorem C30_no_null : forall kinds flags w i, wreach kinds flags w ->
  (forall fuel alloc, p_update fuel alloc (w_rd w i) <> UB UbNull) /\
  (forall fuel, r_triggerReload fuel (w_rd w i) <> UB UbNull).
Proof. exact no_null. Qed.

(* stop() stops, even when updates interrupt it *)
Theorem C30_stop : forall fuel i mid w acts w', w_stop fuel i mid w = Ok (acts, w') -> r_playing (w_rd w' i) = false.
Proof. exact stop_stops. Qed.

(* and nothing is transmitted until a play call of this player succeeds *)
Theorem C30_silent : forall kinds flags fuel l w xs w' i, wreach kinds flags w -> Forall (wop_ok kinds) l ->
  r_playing (w_rd w i) = false -> wops fuel l w = Ok (xs, w') -> Forall (not_started i) xs ->
  r_playing (w_rd w' i) = false /\ Forall (silent i) xs.
Proof. exact stays_stopped. Qed.

Example C30_case : exists xs w, wops 200 life_hist (world0 kinds3 2) = Ok (xs, w) /\ life_check xs w = true.
Proof. apply wops_with. vm_compute. reflexivity. Qed.
Example C30_playing : exists xs w, wops 200 mid_hist (world0 kinds3 2) = Ok (xs, w) /\ mid_check xs w = true.
Proof. apply wops_with. vm_compute. reflexivity. Qed.

(* ---- C33 ---- *)

(* Blocks are released exactly once, in the order they were allocated, and only sent while
   held; whatever allocate() returns *)
Theorem C33_balanced : forall fuel alloc r acts ev r', p_update fuel alloc r = Ok (acts, ev, r') -> holding [] acts = Some [].
Proof. exact update_balanced. Qed.

Theorem C33_complete : forall fuel alloc r acts ev r', p_update fuel alloc r = Ok (acts, ev, r') ->
  released acts = allocated acts /\
  (sent acts <> [] -> Z.of_nat (length (allocated acts)) = r_nch r /\
     forall c, 0 <= c < r_nch r -> exists b d, In (b, d, c) (sent acts)).
Proof. exact update_complete. Qed.

(* ---- C34 ---- *)

Theorem C34_sends : forall fuel alloc r acts ev r', p_update fuel alloc r = Ok (acts, ev, r') -> sent acts <> [] ->
  exists frames, r_read fuel r 128 = Ok (frames, r') /\
    map snd (sent acts) = (if r_nch r =? 1 then [0; 1] else map Z.of_nat (seq 0 (Z.to_nat (r_nch r)))) /\
    (forall b d c, In (b, d, c) (sent acts) -> length d = 128%nat /\
       forall k, nth k d 0 = nth (if r_nch r =? 1 then 0%nat else Z.to_nat c) (nth k frames []) 0) /\
    ev = Some (if Z.of_nat (length frames) =? 128 then evReload else evClose).
Proof. exact update_sends. Qed.

(* A stereo player: with blocks to be had, and with the second allocation failing *)
Example C34_case : exists xs w, wops 200 st_hist (world0 kinds3 2) = Ok (xs, w) /\ st_check xs w = true.
Proof. apply wops_with. vm_compute. reflexivity. Qed.

(* ---- C35 ---- *)

(* A close is requested only when the source is exhausted *)
Theorem C35_exhausted_partial : forall fuel alloc r acts r', p_update fuel alloc r = Ok (acts, Some evClose, r') -> exhausted r'.
Proof. exact close_exhausted. Qed.

(* Once it is, every update that gets its blocks requests a close, none requests a reload *)
Theorem C35_requests_partial : forall fuel alloc r, exhausted r -> (0 < fuel)%nat ->
  exists acts ev r', p_update fuel alloc r = Ok (acts, ev, r') /\ exhausted r' /\
    (forall b d c, In (b, d, c) (sent acts) -> d = repeat 0 128) /\
    ((forall c, 0 <= c < r_nch r -> alloc (Z.to_nat c) <> None) -> ev = Some evClose) /\
    (ev = None \/ ev = Some evClose).
Proof. exact exhausted_close. Qed.

(* Refuted for arrays: one array player, an update in which its array runs out; still
   playing, and so for ever (C63) *)
Theorem C35_refuted : exists xs w, wops 200 [play_arr 0 1; WUpdate 0 give; WYield; WUpdate 0 give; WYield] (world0 (fun _ => KArray) 255) = Ok (xs, w) /\
  r_playing (w_rd w 0) = true.
Proof.
  apply (wops_with _ (fun _ w => r_playing (w_rd w 0))). vm_compute. reflexivity.
Qed.

(* ---- C62 ---- *)

(* Players 0..N-1 play files, yield mode.  From the update in which player i runs out on, any
   history without calls on player i, but calls on others, interrupted stops, and updates as
   may be: after N yields player i has stopped *)
Theorem C62_stops : forall kinds flags N l1 fuel xs1 w i alloc frames r1 acts w1 l2 xs2 w2,
  0 <= flags < 256 -> Forall (wop_ok kinds) l1 -> Forall yield_mode l1 ->
  (forall o j, In o l1 -> plays_file o j -> (j < N)%nat) ->
  wops fuel l1 (world0 kinds flags) = Ok (xs1, w) ->
  kinds i <> KArray -> r_playing (w_rd w i) = true ->
  r_read fuel (w_rd w i) 128 = Ok (frames, r1) -> (length frames < 128)%nat ->
  (forall c, alloc c <> None) -> w_update fuel i alloc w = Ok (acts, w1) ->
  Forall (wop_ok kinds) l2 -> Forall (leaves i) l2 -> wops fuel l2 w1 = Ok (xs2, w2) ->
  (N <= yields l2)%nat -> r_playing (w_rd w2 i) = false.
Proof. exact end_stops. Qed.

(* ---- C63 ---- *)

Theorem C63_never : forall kinds flags l1 fuel xs1 w i alloc frames r1 acts w1 l2 xs2 w2,
  0 <= flags < 256 -> Forall (wop_ok kinds) l1 -> Forall yield_mode l1 ->
  (forall o, In o l1 -> ~ plays_file o i) ->
  wops fuel l1 (world0 kinds flags) = Ok (xs1, w) ->
  r_playing (w_rd w i) = true -> r_read fuel (w_rd w i) 128 = Ok (frames, r1) -> (length frames < 128)%nat ->
  (forall c, alloc c <> None) -> w_update fuel i alloc w = Ok (acts, w1) ->
  Forall (wop_ok kinds) l2 -> Forall (leaves i) l2 -> wops fuel l2 w1 = Ok (xs2, w2) -> r_playing (w_rd w2 i) = true.
Proof. exact array_never_stops. Qed.

(* Both at once: player 0 (SD) and player 1 (array) run out *)
Example C62_C63_case : exists xs w, wops 200 end_hist (world0 kinds3 2) = Ok (xs, w) /\
  Forall (wop_ok kinds3) end_hist /\ Forall yield_mode end_hist /\ (forall o j, In o end_hist -> plays_file o j -> (j < 3)%nat /\ j <> 1%nat) /\
  (r_playing (w_rd w 0) = true /\ (exists f r, r_read 200 (w_rd w 0) 128 = Ok (f, r) /\ (length f < 128)%nat) /\
   exists a w1 ys w2, w_update 200 0 give w = Ok (a, w1) /\
     wops 200 [WUpdate 2 give; WYield; play_ramp 2 100; WUpdate 0 give; WYield; WYield] w1 = Ok (ys, w2) /\ r_playing (w_rd w2 0) = false) /\
  (r_playing (w_rd w 1) = true /\ (exists f r, r_read 200 (w_rd w 1) 128 = Ok (f, r) /\ (length f < 128)%nat) /\
   exists a w1 ys w2, w_update 200 1 give w = Ok (a, w1) /\
     wops 200 [WUpdate 1 give; WYield; play_ramp 2 100; WUpdate 1 give; WYield; WYield] w1 = Ok (ys, w2) /\ r_playing (w_rd w2 1) = true).
Proof.
  destruct (wops_with (wops 200 end_hist (world0 kinds3 2)) end_check) as (xs & w & E & H); [vm_compute; reflexivity|].
  exists xs, w. split; [exact E|]. split; [repeat constructor|]. split; [repeat constructor|]. split; [|exact (end_check_inv xs w H)].
  intros o j I P. cbn [end_hist In] in I. repeat (destruct I as [<-|I]; [cbn in P; try contradiction; subst j; split; lia|]). destruct I.
Qed.

(* ---- C40 ---- *)

Theorem C40_close : forall kinds flags w i, wreach kinds flags w -> r_live (r_close (w_rd w i)) = 0.
Proof. exact close_frees. Qed.

(* At any time: file name, source object with its file, and per buffer an object and its data *)
Theorem C40_bounded : forall kinds flags w i, wreach kinds flags w ->
  0 <= r_live (w_rd w i) <= 3 + 2 * Z.of_nat (c_nbuf (cfg_of (kinds i))).
Proof. exact bounded_memory. Qed.

(* ---- C60 ---- *)

(* What a player's destruction leaves allocated: nothing exactly when it was closed *)
Theorem C60_leaks : forall kinds flags w i, wreach kinds flags w ->
  (p_destroy (w_rd w i) = 0 <-> (forall f, r_src (w_rd w i) <> SFile f) /\ r_fname (w_rd w i) = false).
Proof. exact destroy_leaks. Qed.

Example C60_case : exists xs w, wops 200 life_hist (world0 kinds3 2) = Ok (xs, w) /\ p_destroy (w_rd w 0) = 7 /\ p_destroy (w_rd w 2) = 0.
Proof.
  destruct (wops_with (wops 200 life_hist (world0 kinds3 2)) (fun _ w => (p_destroy (w_rd w 0) =? 7) && (p_destroy (w_rd w 2) =? 0)))
    as (xs & w & E & H); [vm_compute; reflexivity|].
  exists xs, w. split; [exact E|]. apply andb_prop in H. rewrite !Z.eqb_eq in H. exact H.
Qed.

(* ---- C61 ---- *)

(* The reader's own play() after close(): null dereference, but for the SD reader, which
   delivers silence *)
Theorem C61_refuted : resumed KLfs = UB UbNull /\ resumed KFlash = UB UbNull.
Proof. split; vm_compute; reflexivity. Qed.

Example C61_sd : match resumed KSd with Ok (l, _) => l | _ => [] end = [[0]; [0]; [0]; [0]].
Proof. vm_compute. reflexivity. Qed.

Print Assumptions C30_source.
Print Assumptions C30_no_null.
Print Assumptions C30_stop.
Print Assumptions C30_silent.
Print Assumptions C33_balanced.
Print Assumptions C33_complete.
Print Assumptions C34_sends.
Print Assumptions C35_exhausted_partial.
Print Assumptions C35_requests_partial.
Print Assumptions C35_refuted.
Print Assumptions C62_stops.
Print Assumptions C63_never.
Print Assumptions C40_close.
Print Assumptions C40_bounded.
Print Assumptions C60_leaks.
Print Assumptions C61_refuted.
