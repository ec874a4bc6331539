(* A concrete execution in which playback gets ahead of the buffers and recovers. *)

From Coq Require Import ZArith Reals List Bool Lia Lra.
From Flocq Require Import Core.Core IEEE754.BinarySingleNaN.
From RecordUpdate Require Import RecordUpdate.
From Verif Require Import Machine Floats FloatFacts WavModel CacheModel ReaderModel ReaderSpec FileSpec CacheSpec PlayProofs
  CacheFacts CacheFinal LoopCases FilePlay FileForward RaceModel RaceProofs RaceSpec RacePlay RaceCases LateSpec LateOpen.
Import ListNotations.
Local Open Scope Z_scope.
Local Notation fl1 := (ramp_file 4096).

(* Twenty updates of half a block without a reload: the buffers still hold blocks 0
   and 1, and sample 1280 of block 10 is next.  After a reload, which replaces no block,
   six serviced updates are still silent, the seventh is not. *)
Definition late_check (r : reader) : bool :=
  match sim 200 (repeat (Upd 64) 20) r None with
  | Some (ns, outs, r2, None) =>
      match r_triggerReload 200 r2 with
      | Ok r3 =>
          match r_src r3 with
          | SFile f => match nth_error (i_bufs f) 1 with Some b => blk (i_cfg f) 1280 <=? b_index b + 9 | None => false end
          | _ => false
          end &&
          match serviced 200 r3 (repeat 64%nat 10) with
          | Ok (bs, r4) =>
              (if list_eq_dec Nat.eq_dec ns (repeat 64%nat 20) then true else false) &&
              blocks_eqb outs ([stretch 0 64; stretch 64 64; stretch 128 64; stretch 192 64] ++ repeat (repeat [0] 64) 16) &&
              blocks_eqb bs (repeat (repeat [0] 64) 6 ++ [stretch 1664 64; stretch 1728 64; stretch 1792 64; stretch 1856 64]) &&
              (misses r =? 0) && (misses r2 =? 1024) && (misses r3 =? 1024) && (misses r4 =? 1408)
          | _ => false
          end
      | _ => false
      end
  | _ => false
  end.

Lemma late_case : exists r, flash_open = Ok (true, r) /\ misses r = 0 /\ exists r2 r3 r4,
  crun (r, None) (repeat 64%nat 20) ([stretch 0 64; stretch 64 64; stretch 128 64; stretch 192 64] ++ repeat (repeat [0] 64) 16) (r2, None) /\
  r_triggerReload 200 r2 = Ok r3 /\ misses r2 = 1024 /\ misses r3 = 1024 /\ within 9 r3 1280 /\
  serviced 200 r3 (repeat 64%nat 10) =
    Ok (repeat (repeat [0] 64) 6 ++ [stretch 1664 64; stretch 1728 64; stretch 1792 64; stretch 1856 64], r4) /\ misses r4 = 1408.
Proof.
  destruct (opened_with flash_open late_check) as (r & E & H); [vm_compute; reflexivity|].
  exists r. split; [exact E|]. clear E. unfold late_check in H.
  destruct (sim 200 (repeat (Upd 64) 20) r None) as [[[[ns outs] r2] [?|]]|] eqn:S; try discriminate.
  destruct (r_triggerReload 200 r2) as [r3| |] eqn:ER; try discriminate.
  destruct (serviced 200 r3 (repeat 64%nat 10)) as [[bs r4]| |] eqn:ES; [|rewrite andb_false_r in H; discriminate|rewrite andb_false_r in H; discriminate].
  rewrite !andb_true_iff in H. destruct H as (H0 & (((((H1 & H2) & H3) & H4) & H5) & H6) & H7).
  destruct (list_eq_dec Nat.eq_dec ns _) as [->|]; [|discriminate]. apply blocks_eqb_eq in H2, H3. subst outs bs.
  apply Z.eqb_eq in H4, H5, H6, H7. split; [exact H4|]. exists r2, r3, r4. split; [eapply sim_run; exact S|]. split; [exact ER|].
  split; [exact H5|]. split; [exact H6|]. split; [|split; [exact ES|exact H7]].
  destruct (r_src r3) as [| |f] eqn:SF; try discriminate. destruct (nth_error (i_bufs f) 1) as [b|] eqn:NE; [|discriminate].
  exists f, b. split; [exact SF|]. split; [eapply nth_error_In; exact NE|]. apply Z.leb_le in H0. exact H0.
Qed.

(* The hypotheses hold of this device with updates of 64 frames *)
Lemma late_hyps : cfg_ok (r_cfg (new_reader KFlash)) /\ basic_settings (new_reader KFlash) LNone PSample 0 /\
  grid_rate (r_rate (new_reader KFlash)) /\ ((R64 (r_rate (new_reader KFlash)) + 1) * INR 1 <= IZR (2 ^ 30))%R /\
  keeps_up (r_cfg (new_reader KFlash)) 1 64 (R64 (r_rate (new_reader KFlash))).
Proof.
  split; [apply cfg_flash_ok|]. split; [repeat split|]. split; [apply grid_d1|].
  change (r_rate (new_reader KFlash)) with d1. rewrite R64_d1. split; [|apply keeps_up_1; cbn; lia].
  cbn [INR]. change (2 ^ 30) with 1073741824. lra.
Qed.
