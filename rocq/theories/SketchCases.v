(* The example sketches: runs that go wrong, and starts (C114-C116). *)

From Coq Require Import ZArith Lia List Bool.
From RecordUpdate Require Import RecordUpdate.
From Verif Require Import Machine Floats FloatFacts WavModel CacheModel CacheFacts ReaderModel ReaderFacts ReaderSpec LifeProofs ResponderModel ResponderSpec
  QueueProofs PlayerModel LifeSpec WorldProofs ScheduleProofs WindowProofs CacheFinal SketchModel SketchProofs.
From Verif Require FadeCases.
Import ListNotations.
Local Open Scope Z_scope.

(* ---- more fuel changes nothing ---- *)

Lemma update_fuel : forall f1 f2 i g w x, (f1 <= f2)%nat -> w_update f1 i g w = Ok x -> w_update f2 i g w = Ok x.
Proof.
  intros f1 f2 i g w x L E. unfold w_update in *. apply bind_ok in E. destruct E as ([[acts ev] r] & U & E).
  assert (U2 : p_update f2 g (w_rd w i) = Ok (acts, ev, r)); [|now rewrite U2].
  unfold p_update in *. destruct (_ =? -1); [exact U|]. destruct (_ <? 0); [exact U|]. destruct (negb _); [exact U|].
  cbv zeta in *. destruct (forallb _ _); [|exact U]. apply bind_ok in U. destruct U as ([fr r'] & R & U).
  rewrite (r_read_fuel f1 f2 _ _ _ L R). exact U.
Qed.
Lemma reload_fuel2 : forall F F' r r', (F <= F')%nat -> r_triggerReload F r = Ok r' -> r_triggerReload F' r = Ok r'.
Proof.
  intros F F' r r' L E. unfold r_triggerReload in *. destruct (r_src r) as [| |f]; try exact E.
  apply bind_ok in E. destruct E as (f' & E & E2). unfold triggerReload in *. apply bind_ok in E. destruct E as (h & E & E3).
  replace F' with (F + (F' - F))%nat by lia. rewrite (reload_loop_fuel _ _ _ _ (F' - F) E). cbn [bind]. apply Ok_inj in E3. rewrite E3. exact E2.
Qed.
Lemma response_fuel : forall f1 f2 i st w x, (f1 <= f2)%nat -> event_response f1 i st w = Ok x -> event_response f2 i st w = Ok x.
Proof.
  intros f1 f2 i st w x L E. unfold event_response in *. cbv zeta in *. destruct (st =? evReload); [|exact E].
  apply bind_ok in E. destruct E as (r & R & E). now rewrite (reload_fuel2 f1 f2 _ _ L R).
Qed.
(* The operations of the sketches *)
Definition sketch_op (o : wop) : Prop :=
  match o with WUpdate _ _ | WYield | WCall _ (CRate _) | WCall _ (CInterp _) | WPlayRaw _ _ _ _ _ | WPlayFile _ _ _ _ _ _ => True | _ => False end.
Lemma yield_fuel : forall f1 f2 w x, (f1 <= f2)%nat -> w_yield f1 w = Ok x -> w_yield f2 w = Ok x.
Proof.
  intros f1 f2 w x L U. unfold w_yield in *. destruct (Z.testbit _ 2); [|exact U].
  destruct (y_pop (w_sys w)) as [[[i st]|] s]; [|exact U]. exact (response_fuel f1 f2 _ _ _ _ L U).
Qed.
Lemma file_run : forall f j fo wv n st g w, wop_run f (WPlayFile j fo wv n st g) w = ('(b, w') <- p_play_file j fo wv n st g w ;; Ok (WoPlay j b, w')).
Proof. reflexivity. Qed.
Lemma raw_run : forall f j m off len nch w, wop_run f (WPlayRaw j m off len nch) w =
  ('(b, w') <- p_play_array j (fun r => always (playRaw_array r m off len nch)) w ;; Ok (WoPlay j b, w')).
Proof. reflexivity. Qed.
Lemma rate_run : forall f j x w, wop_run f (WCall j (CRate x)) w = (r <- setPlaybackRate (w_rd w j) x ;; Ok (WoNone, set_rd w j r)).
Proof. reflexivity. Qed.
Lemma interp_run : forall f j x w, wop_run f (WCall j (CInterp x)) w = Ok (WoNone, set_rd w j (setInterpolationType (w_rd w j) x)).
Proof. reflexivity. Qed.
Lemma update_run : forall f j g w, wop_run f (WUpdate j g) w = ('(a, w') <- w_update f j g w ;; Ok (WoActs [(j, a)], w')).
Proof. reflexivity. Qed.
Lemma yield_run : forall f w, wop_run f WYield w = (w' <- w_yield f w ;; Ok (WoNone, w')).
Proof. reflexivity. Qed.
Lemma op_fuel : forall f1 f2 o w x, (f1 <= f2)%nat -> sketch_op o -> wop_run f1 o w = Ok x -> wop_run f2 o w = Ok x.
Proof.
  intros f1 f2 o w x L S E. destruct o as [j fo wv n st g|j m off len nch|j m off len|j m|j mid|j c|j alloc| | |b]; try contradiction.
  - rewrite file_run in *. exact E.
  - rewrite raw_run in *. exact E.
  - destruct c; try contradiction; [rewrite rate_run in *|rewrite interp_run in *]; exact E.
  - rewrite update_run in *. apply bind_ok in E. destruct E as (y & U & E). rewrite (update_fuel f1 f2 _ _ _ _ L U). exact E.
  - rewrite yield_run in *. apply bind_ok in E. destruct E as (w' & U & E). rewrite (yield_fuel f1 f2 _ _ L U). exact E.
Qed.
Lemma ops_fuel : forall f1 f2 l w x, (f1 <= f2)%nat -> Forall sketch_op l -> wops f1 l w = Ok x -> wops f2 l w = Ok x.
Proof.
  intros f1 f2 l. induction l as [|o l IH]; intros w x L S E; [exact E|]. inversion S as [|? ? S1 S2]; subst. cbn [wops] in *.
  apply bind_ok in E. destruct E as ([y w1] & E1 & E). rewrite (op_fuel f1 f2 _ _ _ L S1 E1). cbn [bind].
  apply bind_ok in E. destruct E as ([ys w2] & E2 & E). rewrite (IH _ _ L S2 E2). exact E.
Qed.

Lemma updates_ops : forall l, Forall sketch_op (update_ops l).
Proof. intros l. apply Forall_forall. intros o IN. apply in_map_iff in IN. destruct IN as (g & <- & _). exact I. Qed.
Lemma delay_ops_ok : forall l, Forall sketch_op (delay_ops l).
Proof. intros l. apply Forall_forall. intros o IN. apply in_map_iff in IN. destruct IN as ([g|] & <- & _); exact I. Qed.
Definition start_op (start : starter) : Prop := forall st g, sketch_op (start st g).

Lemma turn_fuel : forall f1 f2 start t w x, (f1 <= f2)%nat -> start_op start -> sketch_turn f1 start t w = Ok x -> sketch_turn f2 start t w = Ok x.
Proof.
  intros f1 f2 start t w x L S E. unfold sketch_turn in *. apply bind_ok in E. destruct E as ([x1 w1] & E1 & E).
  assert (O1 : Forall sketch_op (update_ops (t_before t) ++ [WCall 0 (CRate (pot_rate (t_pot t)))] ++ update_ops (t_after t))).
  { repeat (apply Forall_app; split); auto using updates_ops. repeat constructor. }
  rewrite (ops_fuel f1 f2 _ _ _ L O1 E1). cbn [bind]. apply bind_ok in E. destruct E as ([x2 w2] & E2 & E).
  assert (Q : (if t_due t && negb (r_playing (w_rd w1 0)) then wops f2 [start (t_stack t) (t_garbage t)] w1 else Ok ([], w1)) = Ok (x2, w2)).
  { destruct (_ && _); [|exact E2]. apply (ops_fuel f1 f2 _ _ _ L); [|exact E2]. repeat constructor. apply S. }
  rewrite Q. cbn [bind]. apply bind_ok in E. destruct E as ([x3 w3] & E3 & E).
  assert (O3 : Forall sketch_op (delay_ops (t_delay t) ++ [WYield])) by (apply Forall_app; split; [apply delay_ops_ok|repeat constructor]).
  rewrite (ops_fuel f1 f2 _ _ _ L O3 E3). exact E.
Qed.
Lemma turns_fuel : forall f1 f2 start l w x, (f1 <= f2)%nat -> start_op start -> sketch_turns f1 start l w = Ok x -> sketch_turns f2 start l w = Ok x.
Proof.
  intros f1 f2 start l. induction l as [|t l IH]; intros w x L S E; [exact E|]. cbn [sketch_turns] in *.
  apply bind_ok in E. destruct E as ([x1 w1] & E1 & E). rewrite (turn_fuel f1 f2 _ _ _ _ L S E1). cbn [bind].
  apply bind_ok in E. destruct E as ([x2 w2] & E2 & E). rewrite (IH _ _ L S E2). exact E.
Qed.
Lemma turns_snoc : forall fuel start t l w, sketch_turns fuel start (l ++ [t]) w =
  ('(x1, w1) <- sketch_turns fuel start l w ;; '(x2, w2) <- sketch_turn fuel start t w1 ;; Ok (x1 ++ x2, w2)).
Proof.
  intros fuel start t l. induction l as [|u l IH]; intros w.
  - cbn [app sketch_turns bind]. destruct (sketch_turn fuel start t w) as [[x w']| |]; cbn [bind]; [|reflexivity..]. now rewrite app_nil_r.
  - cbn [app sketch_turns]. destruct (sketch_turn fuel start u w) as [[x w']| |]; cbn [bind]; [|reflexivity..]. rewrite IH.
    destruct (sketch_turns fuel start l w') as [[y w'']| |]; cbn [bind]; [|reflexivity..].
    destruct (sketch_turn fuel start t w'') as [[z w3]| |]; cbn [bind]; [|reflexivity..]. now rewrite app_assoc.
Qed.

Lemma yield_stuck : forall f w, w_yield f w = NoFuel -> wops f [WYield] w = NoFuel.
Proof. intros f w E. cbn [wops]. rewrite yield_run, E. reflexivity. Qed.
Local Opaque wops sketch_turns.
Lemma setup_fuel : forall f1 f2 k flags analog x, (f1 <= f2)%nat -> sketch_setup f1 k flags analog = Ok x -> sketch_setup f2 k flags analog = Ok x.
Proof.
  intros f1 f2 k flags analog x L E. unfold sketch_setup in *. revert E.
  assert (O1 : Forall sketch_op [WCall 0 (CInterp IQuadratic); WCall 0 (CRate (pot_rate analog))]) by repeat constructor.
  revert O1. generalize [WCall 0 (CInterp IQuadratic); WCall 0 (CRate (pot_rate analog))]. generalize (world0 (fun _ => k) flags).
  intros w0 l O1 E. exact (ops_fuel f1 f2 _ _ _ L O1 E).
Qed.
Lemma sketch_fuel : forall f1 f2 k flags start analog l x, (f1 <= f2)%nat -> start_op start ->
  sketch f1 k flags start analog l = Ok x -> sketch f2 k flags start analog l = Ok x.
Proof.
  intros f1 f2 k flags start analog l x L S E. unfold sketch in *. apply bind_ok in E. destruct E as ([x1 w1] & E1 & E).
  rewrite (setup_fuel f1 f2 _ _ _ _ L E1). cbn [bind].
  apply bind_ok in E. destruct E as ([x2 w2] & E2 & E). rewrite (turns_fuel f1 f2 _ _ _ _ L S E2). exact E.
Qed.

(* ---- a hang in yield() ---- *)

(* The next yield() reloads player 0 and does not return *)
Definition hangs_next (w : world) : bool :=
  Z.testbit (s_flags (w_sys w)) 2 && match y_pop (w_sys w) with (Some (0%nat, st), _) => st =? evReload | _ => false end && stuckb (w_rd w 0).
Lemma hangs_yield : forall w, hangs_next w = true -> forall fuel, w_yield fuel w = NoFuel.
Proof.
  intros w H fuel. unfold hangs_next in H. apply andb_prop in H. destruct H as [H S]. apply andb_prop in H. destruct H as [T P].
  unfold w_yield. rewrite T. destruct (y_pop (w_sys w)) as [[[[|i] st]|] s]; try discriminate.
  unfold event_response. cbv zeta. rewrite P.
  change (w_rd (on_sys (w <| w_sys := s |>) disableResponse) 0) with (w_rd w 0). now rewrite (stuckb_ok _ S fuel).
Qed.

(* A last pass without a start that hangs *)
Definition hang_check (fuel : nat) (k : rkind) (flags : Z) (start : starter) (analog : Z) (l : list turn) (t : turn) : bool :=
  match sketch fuel k flags start analog l with
  | Ok (_, w1) =>
      match wops fuel (update_ops (t_before t) ++ [WCall 0 (CRate (pot_rate (t_pot t)))] ++ update_ops (t_after t)) w1 with
      | Ok (_, w2) => negb (t_due t) && match t_delay t with [] => true | _ => false end && hangs_next w2
      | _ => false
      end
  | _ => false
  end.
Lemma hang_run : forall n k flags start analog l t, start_op start -> hang_check n k flags start analog l t = true ->
  forall fuel, (n <= fuel)%nat -> sketch fuel k flags start analog (l ++ [t]) = NoFuel.
Proof.
  intros n k flags start analog l t S H fuel L. unfold hang_check in H.
  destruct (sketch n k flags start analog l) as [[xs w1]| |] eqn:E; try discriminate. apply (sketch_fuel n fuel _ _ _ _ _ _ L S) in E.
  destruct (wops n _ w1) as [[ys w2]| |] eqn:E2; try discriminate.
  apply andb_prop in H. destruct H as [H HN]. apply andb_prop in H. destruct H as [D TD].
  apply (ops_fuel n fuel) in E2; [|exact L|repeat (apply Forall_app; split); auto using updates_ops; repeat constructor].
  unfold sketch in *. apply bind_ok in E. destruct E as ([x1 wa] & EA & E). rewrite EA. cbn [bind].
  apply bind_ok in E. destruct E as ([x2 wb] & EB & E). apply Ok_inj, pair_equal_spec in E. destruct E as [_ ->].
  rewrite turns_snoc, EB. cbn [bind]. unfold sketch_turn. rewrite E2. cbn [bind].
  apply negb_true_iff in D. rewrite D. cbn [andb bind]. destruct (t_delay t); [|discriminate]. change (delay_ops [] ++ [WYield]) with [WYield].
  rewrite (yield_stuck fuel w2 (hangs_yield w2 HN fuel)). reflexivity.
Qed.
Local Transparent wops sketch_turns.

(* ---- witnesses ---- *)

Definition give : grant := fun _ => Some 0%nat.
Definition pass (p : Z) (after : list grant) (due : bool) (dl : list (option grant)) : turn :=
  mkTurn p [] after due (fun _ => 0) (fun _ _ => 0) dl.

(* array.ino: one block forwards, then the knob turned down while the head is past the first frame *)
Definition turn_back : list turn := [pass 513 [] true [Some give]; pass 0 [give] false []].
Lemma array_bounds : array_holds (FadeCases.ramp 200) 0 200 1 /\ sketch 300 KArray 2 (start_array (FadeCases.ramp 200) 200) 513 turn_back = UB UbOutOfBounds.
Proof.
  split; [unfold array_holds; cbn; repeat split; lia|]. vm_compute. reflexivity.
Qed.

(* serialflash.ino: a file of 500 samples; the knob turned down after the start *)
Lemma flash_hangs : forall fuel, (300 <= fuel)%nat ->
  sketch fuel KFlash 2 (start_raw (Some (ramp_file 1000))) 513 ([pass 513 [] true []] ++ [pass 0 [give] false []]) = NoFuel.
Proof. apply hang_run; [intros st g; exact I|]. vm_compute. reflexivity. Qed.
(* 513 samples, the knob down all the time *)
Definition down_run : list turn := pass 0 [] true [] :: repeat (pass 0 [] false [Some give]) 5.
Lemma flash_hangs_down : forall fuel, (300 <= fuel)%nat ->
  sketch fuel KFlash 2 (start_raw (Some (ramp_file 1026))) 0 (down_run ++ [pass 0 [give] false []]) = NoFuel.
Proof. apply hang_run; [intros st g; exact I|]. vm_compute. reflexivity. Qed.
