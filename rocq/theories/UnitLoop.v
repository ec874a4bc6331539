(* The loop tests pass for every length that the buffers hold and any number of reads (C139). *)

From Coq Require Import ZArith Lia List Bool Reals Lra.
From RecordUpdate Require Import RecordUpdate.
From Flocq Require Import Core.Core IEEE754.BinarySingleNaN.
From Verif Require Import Machine Floats FloatFacts WavModel CacheModel ReaderModel ReaderFacts ReaderSpec Sessions StreamFacts CacheFacts CacheSpec WavSpec
  FileSpec PlayProofs LoopSpec LoopProofs FilePlay FileForward MirrorSpec HeldSpec HeldProofs HeldPlay HeldLoopSpec HeldLoop UnitModel UnitProofs UnitLoopModel.
Import ListNotations.
Local Open Scope Z_scope.

Lemma pulls_seq : forall g n k, pulls (fun k => Some (g k)) k n = map g (seq k n).
Proof. intro g. induction n as [|n IH]; intro k; [reflexivity|]. cbn [pulls seq map]. now rewrite IH. Qed.

Lemma firstn_seq : forall n m k, firstn n (seq k (n + m)) = seq k n.
Proof. induction n as [|n IH]; intros m k; [reflexivity|]. cbn [Nat.add seq firstn]. now rewrite IH. Qed.

Lemma next_mod : forall k v, 0 < v -> (Z.of_nat k mod v + 1) mod v = Z.of_nat (S k) mod v.
Proof. intros k v V. rewrite Z.add_mod_idemp_l by lia. f_equal. lia. Qed.

Lemma cycle_block_ok : forall v n k, 0 < v ->
  cycle_block v (Z.of_nat k mod v) (map (fun k => [Z.of_nat k mod v]) (seq k n)) = (true, Z.of_nat (k + n) mod v).
Proof.
  intros v n. induction n as [|n IH]; intros k V; [rewrite Nat.add_0_r; reflexivity|].
  cbn [seq map cycle_block hd]. rewrite (next_mod k v V), (IH (S k) V), Z.eqb_refl. cbn [andb]. do 3 f_equal. lia.
Qed.

Lemma cycle_ok : forall F half v K k c r r', 0 < v -> (half = true -> (v | 128)) -> c = Z.of_nat k mod v ->
  read_seq F r (repeat 256%nat K) = Ok (blocks_spec (fun k => Some [Z.of_nat k mod v]) k (repeat 256%nat K), r') ->
  cycle_blocks F half K v c r = Ok true.
Proof.
  intros F half v. induction K as [|K IH]; intros k c r r' V HV CE E; [reflexivity|].
  cbn [repeat read_seq blocks_spec] in E. rewrite pulls_seq in E. apply bind_ok in E. destruct E as ([b r1] & E1 & E). apply bind_ok in E. destruct E as ([bs0 r3] & E2 & E).
  apply Ok_inj, pair_equal_spec in E. destruct E as [E3 <-]. apply (f_equal (fun x => (hd [] x, tl x))), pair_equal_spec in E3. cbn [hd tl] in E3. destruct E3 as [-> ->].
  rewrite map_length, seq_length in E2.
  cbn [cycle_blocks]. change 256 with (Z.of_nat 256) at 1. rewrite E1. cbn [bind].
  destruct half.
  - rewrite map_length, seq_length, firstn_map. change (Nat.div 256 2) with 128%nat.
    pose proof (firstn_seq 128 128 k) as FS. change (128 + 128)%nat with 256%nat in FS.
    rewrite FS, CE, cycle_block_ok by exact V.
    rewrite (IH (k + 256)%nat (Z.of_nat (k + 128) mod v) r1 r3 V HV); auto.
    destruct (HV eq_refl) as (z & Z1). rewrite !Nat2Z.inj_add. change (Z.of_nat 128) with 128. change (Z.of_nat 256) with (128 + 128). rewrite Z1, Z.add_assoc, !Z_mod_plus_full. reflexivity.
  - rewrite CE, cycle_block_ok by exact V. rewrite (IH (k + 256)%nat _ r1 r3 V HV eq_refl E2). reflexivity.
Qed.

Lemma cycle_frame : forall v k, 0 < v -> repeat_frame 0 v 0 k = Z.of_nat k mod v.
Proof.
  intros v k V. unfold repeat_frame. rewrite Z.add_0_l. destruct (Z.ltb_spec (Z.of_nat k) v).
  - rewrite Z.mod_small; lia.
  - rewrite Z.max_r, Z.sub_0_r, Z.add_0_l by lia. replace (Z.of_nat k - v) with (Z.of_nat k + (-1) * v) by lia. apply Z_mod_plus_full.
Qed.

Lemma loop_passes : forall (wave half : bool) n (fin : option Z) v h r1 r2 blocks st g fl, fl = (if wave then ramp_wav n else ramp_raw n) ->
  setPlaybackRate pc_reader d1 = Ok r1 -> r_play_file r1 (Some fl) wave 1 st g = Ok (true, r2) -> r_playing r2 = true ->
  loops_alone fl h n 1 PSample 0 1 0 r2 -> v = match fin with Some v => v | None => n end -> 0 < v <= n ->
  (half = true -> (v | 128)) -> (forall i, 0 <= i < n -> file_frame fl h 1 i = [i]) ->
  exists fuel, loop_test fuel blocks wave half n fin st g = Ok true.
Proof.
  intros wave half n fin v h r1 r2 blocks st g fl FL E1 E2 PL LA VV V HV FR.
  assert (PRE : loop_calls LRepeat 0 v n (match fin with Some v => [SLoopType LRepeat; SLoopFinish v] | None => [SLoopType LRepeat] end)).
  { destruct fin; subst v; unfold loop_calls; auto. }
  destruct (LA LRepeat 0 v _ ltac:(discriminate) ltac:(lia) ltac:(lia) PRE (repeat 256%nat blocks)) as (F & r' & S & _).
  fold (reads (repeat 256%nat blocks)) in S.
  set (r4 := match fin with Some v => setLoopFinish (setLoopType r2 LRepeat) v | None => setLoopType r2 LRepeat end).
  assert (R : read_seq F r4 (repeat 256%nat blocks) = Ok (blocks_spec (fun k => Some [Z.of_nat k mod v]) 0 (repeat 256%nat blocks), r')).
  { rewrite (blocks_spec_eq _ (fun k => Some [Z.of_nat k mod v])) in S.
    - unfold r4. destruct fin as [w|]; cbn [app session sop_run bind map] in S; rewrite reads_session in S.
      + destruct (read_seq F _ (repeat 256%nat blocks)) as [[bs q]| |]; cbn [bind] in S; try discriminate.
        apply Ok_inj, pair_equal_spec in S. destruct S as [S <-]. apply (f_equal (fun x => tl (tl x))) in S. cbn [tl] in S. now subst.
      + destruct (read_seq F _ (repeat 256%nat blocks)) as [[bs q]| |]; cbn [bind] in S; try discriminate.
        apply Ok_inj, pair_equal_spec in S. destruct S as [S <-]. apply (f_equal (@tl _)) in S. cbn [tl] in S. now subst.
    - intro k. unfold loop_spec. cbn [loop_eqb]. change (2 ^ 0) with 1. rewrite orbit_repeat by lia. cbn [hd_i]. rewrite cycle_frame by lia. f_equal. apply FR.
      pose proof (Z.mod_pos_bound (Z.of_nat k) v ltac:(lia)). lia. }
  exists F. unfold loop_test. rewrite E1. cbn [bind]. rewrite <- FL, E2. cbn [bind]. cbv zeta. fold r4. rewrite <- VV.
  rewrite (cycle_ok F half v blocks 0 0 r4 r'); auto; [|lia]. cbn [bind]. now rewrite PL.
Qed.

Lemma rate_one : forall r1 p, r1 = pc_reader <| r_rate := d1 |> <| r_pos1 := p |> ->
  fin64 (r_rate r1) = true /\ R64 (r_rate r1) = (IZR 1 * bpow radix2 (- 0))%R /\ ((R64 (r_rate r1) + 1) * INR 1 <= IZR (2 ^ 30))%R.
Proof.
  intros r1 p ->. change (r_rate (pc_reader <| r_rate := d1 |> <| r_pos1 := p |>)) with d1. rewrite R64_d1. split; [apply fin_d1|]. split; [cbn; lra|].
  cbn [INR]. replace ((1 + 1) * 1)%R with (IZR 2) by (cbn; lra). apply IZR_le. lia.
Qed.

Theorem raw_loop_passes : forall n blocks stack garbage, 1 <= n <= 14336 -> exists fuel, raw_loop_test fuel blocks n stack garbage = Ok true.
Proof.
  intros n blocks st g N. destruct (setRate_fwd pc_reader d1 fin_d1 ltac:(rewrite R64_d1; lra)) as (r1 & E1 & p & R1).
  destruct (pc_settings d1 r1 p R1) as (BSET & CC & K & HH & RR). destruct (rate_one r1 p R1) as (G & X & U).
  assert (LEN : fsize (ramp_raw n) / 2 / Z.of_nat 1 = n) by (cbn [ramp_raw fsize]; rewrite Z.div_1_r, Z.mul_comm, Z.div_mul; lia).
  destruct (raw_loops_alone r1 (ramp_raw n) 1 st g PSample 0 1 0) as (r2 & E2 & PL & S); rewrite ?CC; auto using pc_cfg; try discriminate; try lia.
  - cbn [ramp_raw fsize]. lia.
  - unfold small_file. cbn [ramp_raw fsize c_nbuf]. change (BS (mkCfg 11 7 true false)) with 2048. lia.
  - cbn. lia.
  - rewrite LEN in S. unfold raw_loop_test. apply (loop_passes false false n None n 0 r1 r2 blocks st g (ramp_raw n) eq_refl E1 E2 PL S eq_refl); [lia|discriminate|].
    intros i I. unfold file_frame. cbn [seq map]. rewrite Z.add_0_l, Z.mul_1_r, Z.add_0_r. rewrite raw_sample by lia. reflexivity.
Qed.

Lemma wav_passes : forall (half : bool) n (fin : option Z) v blocks st g, bytes_ok st -> 1 <= n <= 14314 -> v = match fin with Some v => v | None => n end -> 0 < v <= n ->
  (half = true -> (v | 128)) -> exists fuel, loop_test fuel blocks true half n fin st g = Ok true.
Proof.
  intros half n fin v blocks st g BO N VV V HV. destruct (setRate_fwd pc_reader d1 fin_d1 ltac:(rewrite R64_d1; lra)) as (r1 & E1 & p & R1).
  destruct (pc_settings d1 r1 p R1) as (BSET & CC & K & HH & RR). destruct (rate_one r1 p R1) as (G & X & U).
  assert (LEN : 2 * n / 2 / Z.of_nat 1 = n) by (rewrite Z.div_1_r, Z.mul_comm, Z.div_mul; lia).
  destruct (wav_loops_alone r1 (ramp_wav n) 1 0 (2 * n) 1 st g PSample 0 1 0) as (r2 & E2 & PL & S); rewrite ?CC; auto using pc_cfg; try discriminate; try lia.
  - apply wav_ok. lia.
  - unfold small_file. cbn [ramp_wav fsize c_nbuf]. change (BS (mkCfg 11 7 true false)) with 2048. lia.
  - cbn. lia.
  - rewrite LEN in S. apply (loop_passes true half n fin v 22 r1 r2 blocks st g (ramp_wav n) eq_refl E1 E2 PL S VV V HV).
    intros i I. unfold file_frame. cbn [seq map]. rewrite Z.mul_1_r, Z.add_0_r. rewrite wav_sample by lia. reflexivity.
Qed.

Theorem wav_loop_passes : forall n blocks stack garbage, bytes_ok stack -> 1 <= n -> (n | 128) -> exists fuel, wav_loop_test fuel blocks n stack garbage = Ok true.
Proof.
  intros n blocks st g BO N D. assert (n <= 128) by (apply Z.divide_pos_le; lia || exact D).
  unfold wav_loop_test. apply (wav_passes true n None n blocks st g BO); try lia. intros _. exact D.
Qed.

Theorem wav_finish_passes : forall n v blocks stack garbage, bytes_ok stack -> 1 <= v <= n -> n <= 14314 ->
  exists fuel, wav_finish_test fuel blocks n v stack garbage = Ok true.
Proof. intros n v blocks st g BO V N. unfold wav_finish_test. apply (wav_passes false n (Some v) v blocks st g BO); lia || discriminate. Qed.

(* lengths that do not divide 128: the comparison loses its place *)
Lemma wav_loop_fails : exists n, 1 <= n /\ wav_loop_test 600 2 n (fun _ => 0) (fun _ _ => 0) = Ok false.
Proof. exists 48. split; [lia|]. vm_compute. reflexivity. Qed.

Lemma loop_tests_run : raw_loop_test 600 2 32 (fun _ => 0) (fun _ _ => 0) = Ok true /\ wav_loop_test 600 2 32 (fun _ => 0) (fun _ _ => 0) = Ok true /\
  wav_finish_test 600 2 32 8 (fun _ => 0) (fun _ _ => 0) = Ok true.
Proof. vm_compute. repeat split. Qed.
