(* Concrete executions with interrupted reloads. *)

From Coq Require Import ZArith Reals List Bool Lia Lra.
From Flocq Require Import Core.Core IEEE754.BinarySingleNaN.
From RecordUpdate Require Import RecordUpdate.
From Verif Require Import Machine Floats FloatFacts WavModel CacheModel ReaderModel ReaderSpec FileSpec CacheSpec PlayProofs
  CacheFacts CacheFinal LoopCases FileForward RaceModel RaceProofs RaceSpec RacePlay.
Import ListNotations.
Local Open Scope Z_scope.

(* An executable strategy for the machine of RacePlay.v: an update of n frames, a
   step of the sketch, or the arrival of the first a bytes of a read *)
Inductive cmd := Upd (n : nat) | Go | Part (a : Z).

Definition rexec (x pbr : b32) (s : rstate) : option rstate :=
  let '(pc, f) := s in
  match pc, i_bufs f with
  | AtTop, [] => Some (AtReset, f)
  | AtTop, b0 :: _ => Some (if is_unused (b_status b0) then AtDecide else AtReset, f)
  | AtDecide, b0 :: _ =>
      match reload_decide f x b0 with
      | Ok (nx, true, act) => Some (AtRead (s32 (nx * BS (i_cfg f))) act (b_data b0), f)
      | Ok (nx, false, act) => Some (AtShuffle act, f)
      | _ => None
      end
  | AtRead i act old, b0 :: rest =>
      Some (AtIndex i (load_len f i) act,
        set_pos (set_bufs f (mkBuf (b_index b0) (b_size b0) (b_status b0) (load_bytes f i old) :: rest)) (load_pos f i))
  | AtIndex i n act, b0 :: rest =>
      Some (AtSize n act, set_bufs f (mkBuf (u32 (blk (i_cfg f) i)) (b_size b0) (b_status b0) (b_data b0) :: rest))
  | AtSize n act, b0 :: rest => Some (AtStatus act, set_bufs f (mkBuf (b_index b0) (s16 n) (b_status b0) (b_data b0) :: rest))
  | AtStatus act, b0 :: rest => Some (AtShuffle act, set_bufs f (mkBuf (b_index b0) (b_size b0) StLoaded (b_data b0) :: rest))
  | AtShuffle act, b0 :: rest =>
      Some (after act, match act with
                  | ReverseBuffer => set_prev (set_bufs f (rev (b0 :: rest))) (fneg (i_prev f))
                  | MoveBuffer => set_bufs f (rest ++ [b0])
                  | NopBuffer => f
                  end)
  | AtReset, _ => Some (AtPrev, if_resetStatus f)
  | AtPrev, _ => Some (AtEnd, if feq f0 (i_prev f) then set_prev f pbr else f)
  | _, _ => None
  end.

Lemma rexec_step : forall x pbr s t, rexec x pbr s = Some t -> rstep x pbr s t.
Proof.
  intros x pbr [pc f] t H. destruct pc; cbn [rexec] in H; destruct (i_bufs f) as [|b0 rest] eqn:E; try discriminate;
    try (injection H as <-; first [now constructor|now (econstructor; eauto)]; fail).
  - injection H as <-. apply rs_exit. rewrite E. exact I.
  - injection H as <-. destruct (is_unused (b_status b0)) eqn:U; [eapply rs_loop; eauto|apply rs_exit; now rewrite E].
  - destruct (reload_decide f x b0) as [[[nx [|]] act]| |] eqn:D; try discriminate; injection H as <-;
      [eapply rs_load; eauto|eapply rs_skip; eauto].
Qed.

Definition partly (f : ifile) (i : Z) (old : bytes) (a : Z) : bytes := fun k => if k <? a then load_bytes f i old k else old k.

Fixpoint sim (fuel : nat) (l : list cmd) (r : reader) (p : phase) : option (list nat * list (list (list Z)) * reader * phase) :=
  match l with
  | [] => Some ([], [], r, p)
  | Upd n :: l' =>
      match r_read fuel r (Z.of_nat n) with
      | Ok (fs, r') => match sim fuel l' r' p with Some (ns, outs, r2, p2) => Some (n :: ns, fs :: outs, r2, p2) | None => None end
      | _ => None
      end
  | Go :: l' =>
      match r_src r, p with
      | SFile f, None => sim fuel l' r (Some (reload_rate f (f_of_d (r_rate r)), f_of_d (r_rate r), AtTop))
      | SFile f, Some (x, pbr, AtEnd) => sim fuel l' r None
      | SFile f, Some (x, pbr, pc) =>
          match rexec x pbr (pc, f) with
          | Some (pc', f') => sim fuel l' (r <| r_src := SFile f' |>) (Some (x, pbr, pc'))
          | None => None
          end
      | _, _ => None
      end
  | Part a :: l' =>
      match r_src r, p with
      | SFile f, Some (x, pbr, AtRead i act old) =>
          match i_bufs f with
          | b0 :: rest => sim fuel l' (r <| r_src := SFile (set_bufs f (mkBuf (b_index b0) (b_size b0) (b_status b0) (partly f i old a) :: rest)) |>)
              (Some (x, pbr, AtRead i act old))
          | [] => None
          end
      | _, _ => None
      end
  end.

Lemma sim_run : forall fuel l r p ns outs r2 p2, sim fuel l r p = Some (ns, outs, r2, p2) -> crun (r, p) ns outs (r2, p2).
Proof.
  intros fuel. induction l as [|[n| |a] l IH]; intros r p ns outs r2 p2 H; cbn [sim] in H.
  - injection H as <- <- <- <-. constructor.
  - destruct (r_read fuel r (Z.of_nat n)) as [[fs r']| |] eqn:R; try discriminate.
    destruct (sim fuel l r' p) as [[[[ns' outs'] r3] p3]|] eqn:S; try discriminate. injection H as <- <- <- <-.
    eapply cr_update; [eapply cs_update; eauto|]. eauto.
  - destruct (r_src r) as [| |f] eqn:SF; try discriminate. destruct p as [[[x pbr] pc]|].
    + destruct (match pc with AtEnd => true | _ => false end) eqn:PE.
      * destruct pc; try discriminate. eapply cr_sketch; [apply cs_end|]. eauto.
      * assert (G : match rexec x pbr (pc, f) with Some (pc', f') => sim fuel l (r <| r_src := SFile f' |>) (Some (x, pbr, pc')) | None => None end
          = Some (ns, outs, r2, p2)) by (destruct pc; try discriminate; exact H).
        destruct (rexec x pbr (pc, f)) as [[pc' f']|] eqn:RX; [|discriminate].
        eapply cr_sketch; [eapply cs_reload; [exact SF|eapply rexec_step; exact RX]|]. eauto.
    + eapply cr_sketch; [apply cs_begin; exact SF|]. eauto.
  - destruct (r_src r) as [| |f] eqn:SF; try discriminate. destruct p as [[[x pbr] pc]|]; [|discriminate].
    destruct pc as [| |i act old| | | | | | |]; try discriminate. destruct (i_bufs f) as [|b0 rest] eqn:B; [discriminate|].
    eapply cr_sketch; [eapply cs_reload; [exact SF|eapply rs_part with (d := partly f i old a); [exact B|]]|].
    + intros k. unfold partly. destruct (k <? a); auto.
    + eauto.
Qed.

(* ---- the device: 2 buffers of 128 samples, rate 1.0, a mono file of 2048 samples ---- *)
Local Notation fl1 := (ramp_file 4096).
Definition flash_open : res (bool * reader) := r_play_file (new_reader KFlash) (Some fl1) false 1 (fun _ => 0) dirty.

Definition blocks_eqb (a b : list (list (list Z))) : bool :=
  if list_eq_dec (list_eq_dec (list_eq_dec Z.eq_dec)) a b then true else false.
Lemma blocks_eqb_eq : forall a b, blocks_eqb a b = true -> a = b.
Proof. intros a b H. unfold blocks_eqb in H. destruct (list_eq_dec _ a b); congruence. Qed.

(* frames a .. a+n-1 of the file *)
Definition stretch (a : Z) (n : nat) : list (list Z) := map (fun k => file_frame fl1 0 1 (a + Z.of_nat k)) (seq 0 n).

Definition sim_check (l : list cmd) (ns : list nat) (outs : list (list (list Z))) (m : Z) (r : reader) : bool :=
  match sim 200 l r None with
  | Some (ns', outs', r2, _) => (if list_eq_dec Nat.eq_dec ns' ns then true else false) && blocks_eqb outs' outs && (misses r2 =? m) && (misses r =? 0)
  | None => false
  end.
Lemma sim_check_inv : forall l ns outs m r, sim_check l ns outs m r = true ->
  exists r2 p2, crun (r, None) ns outs (r2, p2) /\ misses r2 = m /\ misses r = 0.
Proof.
  intros l ns outs m r H. unfold sim_check in H. destruct (sim 200 l r None) as [[[[ns' outs'] r2] p2]|] eqn:S; [|discriminate].
  rewrite !andb_true_iff in H. destruct H as (((H1 & H2) & H3) & H4).
  destruct (list_eq_dec Nat.eq_dec ns' ns) as [->|]; [|discriminate]. apply blocks_eqb_eq in H2. subst outs'.
  apply Z.eqb_eq in H3, H4. exists r2, p2. split; [eapply sim_run; exact S|auto].
Qed.

(* Half of block 1 has been played and block 0 is being overwritten with block 2;
   three updates interrupt the read: the rest of block 1 is right, block 2 is missed;
   then the reload ends and another loads block 3 *)
Definition interrupted : list cmd :=
  [Upd 128] ++ repeat Go 5 ++ [Upd 64; Go; Go; Go; Part 100; Upd 32; Part 256; Upd 32; Upd 128] ++ repeat Go 9 ++
  [Upd 64] ++ repeat Go 17 ++ [Upd 64].
Lemma race_play_case : exists r, flash_open = Ok (true, r) /\ exists r2 p2,
  crun (r, None) [128; 64; 32; 32; 128; 64; 64]%nat
    [stretch 0 128; stretch 128 64; stretch 192 32; stretch 224 32; repeat [0] 128; repeat [0] 64; stretch 448 64] (r2, p2) /\
  misses r2 = 192 /\ misses r = 0.
Proof.
  destruct (opened_with flash_open (sim_check interrupted [128; 64; 32; 32; 128; 64; 64]%nat
    [stretch 0 128; stretch 128 64; stretch 192 32; stretch 224 32; repeat [0] 128; repeat [0] 64; stretch 448 64] 192)) as (r & E & H);
    [vm_compute; reflexivity|].
  exists r. split; [exact E|]. now apply sim_check_inv in H.
Qed.

(* Playback turned around: block 1 has just been left, its buffer counts as unused,
   and the reload overwrites it with block 0 while the play position comes back.
   Uninterrupted, the same update delivers the frames of the file. *)
Definition to_block_2 : list cmd := [Upd 128] ++ repeat Go 5 ++ [Upd 128] ++ repeat Go 12 ++ [Upd 1].
Definition came_back : list cmd := [Go; Go; Go; Part 256; Upd 4].
Definition dm1 : b64 := dneg d1.

Definition turn_check (r : reader) : bool :=
  match sim 200 to_block_2 r None with
  | Some (ns, outs, r1, None) =>
      match setPlaybackRate r1 dm1 with
      | Ok r2 =>
          match r_read 200 r2 4 with
          | Ok (fs, _) =>
              match sim 200 came_back r2 None with
              | Some (ns', outs', r3, _) =>
                  (if list_eq_dec Nat.eq_dec ns [128; 128; 1]%nat then true else false) &&
                  blocks_eqb outs [stretch 0 128; stretch 128 128; stretch 256 1] &&
                  (if list_eq_dec Nat.eq_dec ns' [4]%nat then true else false) &&
                  blocks_eqb outs' [[[514]; [513]; [128]; [127]]] &&
                  blocks_eqb [fs] [[[514]; [513]; [384]; [383]]] && (misses r3 =? misses r)
              | None => false
              end
          | _ => false
          end
      | _ => false
      end
  | _ => false
  end.

Lemma turn_refuted : exists r, flash_open = Ok (true, r) /\ exists r1 r2 r3 r4 p,
  crun (r, None) [128; 128; 1]%nat [stretch 0 128; stretch 128 128; stretch 256 1] (r1, None) /\
  setPlaybackRate r1 dm1 = Ok r2 /\
  r_read 200 r2 4 = Ok ([file_frame fl1 0 1 257; file_frame fl1 0 1 256; file_frame fl1 0 1 255; file_frame fl1 0 1 254], r3) /\
  crun (r2, None) [4]%nat [[file_frame fl1 0 1 257; file_frame fl1 0 1 256; file_frame fl1 0 1 127; file_frame fl1 0 1 126]] (r4, p) /\
  misses r4 = misses r /\
  file_frame fl1 0 1 127 <> file_frame fl1 0 1 255 /\ file_frame fl1 0 1 127 <> [0].
Proof.
  destruct (opened_with flash_open turn_check) as (r & E & H); [vm_compute; reflexivity|].
  exists r. split; [exact E|]. clear E. unfold turn_check in H.
  destruct (sim 200 to_block_2 r None) as [[[[ns outs] r1] [?|]]|] eqn:S1; try discriminate.
  destruct (setPlaybackRate r1 dm1) as [r2| |] eqn:SP; try discriminate.
  destruct (r_read 200 r2 4) as [[fs r3]| |] eqn:RR; try discriminate.
  destruct (sim 200 came_back r2 None) as [[[[ns' outs'] r4] p]|] eqn:S2; try discriminate.
  rewrite !andb_true_iff in H. destruct H as (((((H1 & H2) & H3) & H4) & H5) & H6).
  destruct (list_eq_dec Nat.eq_dec ns _) as [->|]; [|discriminate]. destruct (list_eq_dec Nat.eq_dec ns' _) as [->|]; [|discriminate].
  apply blocks_eqb_eq in H2, H4, H5. apply Z.eqb_eq in H6. subst outs outs'.
  assert (F : forall i, file_frame fl1 0 1 i = [file_sample fl1 i]).
  { intros i. unfold file_frame. cbn [seq map]. now rewrite Z.add_0_l, Z.mul_1_r, Z.add_0_r. }
  exists r1, r2, r3, r4, p. split; [eapply sim_run; exact S1|]. split; [exact SP|].
  split; [rewrite RR; injection H5 as ->; reflexivity|].
  split; [apply sim_run in S2; exact S2|]. split; [exact H6|]. split; vm_compute; discriminate.
Qed.

(* Interrupts that land between the last look at the buffers and the reset of their
   marks: what the update marked is forgotten, and no block is ever reloaded *)
Definition forgetful : list cmd :=
  [Upd 64; Go; Go; Upd 64; Go; Go; Go; Go; Go; Upd 64; Go; Go; Go; Go; Go; Upd 64; Go; Go; Go; Go; Go; Upd 64].
Lemma flash_serviced : exists r, flash_open = Ok (true, r) /\ file_delivers 64 r (nth_error (file_frames fl1 0 1 2048)).
Proof.
  apply (raw_unity (new_reader KFlash) fl1 1 (fun _ => 0) dirty 0 64); try reflexivity; try discriminate; try (cbn; lia).
  - apply cfg_flash_ok.
  - repeat split.
Qed.

Lemma forget_refuted : exists r, flash_open = Ok (true, r) /\
  file_delivers 64 r (nth_error (file_frames fl1 0 1 2048)) /\
  exists r2 p2,
    crun (r, None) (repeat 64%nat 5) [stretch 0 64; stretch 64 64; stretch 128 64; stretch 192 64; repeat [0] 64] (r2, p2) /\
    misses r2 = misses r + 64.
Proof.
  destruct (opened_with flash_open (sim_check forgetful (repeat 64%nat 5)
    [stretch 0 64; stretch 64 64; stretch 128 64; stretch 192 64; repeat [0] 64] 64)) as (r & E & H); [vm_compute; reflexivity|].
  destruct flash_serviced as (r' & E' & D). assert (r' = r) by congruence. subst r'.
  exists r. split; [exact E|]. split; [exact D|]. apply sim_check_inv in H. destruct H as (r2 & p2 & R & M1 & M2).
  exists r2, p2. split; [exact R|]. lia.
Qed.
