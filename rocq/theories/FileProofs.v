(* Playback from files: a walk over a sliding window of buffered blocks. *)

From Coq Require Import ZArith Lia List Bool Reals Lra.
From RecordUpdate Require Import RecordUpdate.
From Flocq Require Import Core.Core IEEE754.BinarySingleNaN.
From Verif Require Import Machine Floats FloatFacts WavModel InterpModel CacheModel ReaderModel
  ReaderFacts ReaderSpec Sessions Walk CacheFacts CacheSpec CacheProofs FileSpec WindowProofs.
Import ListNotations.
Local Open Scope Z_scope.

Lemma on_end_keeps : forall r r1, on_end r = Ok (Some r1) -> r_src r1 = r_src r.
Proof.
  intros r r1 H. pose proof (on_end_src r (r_src r)) as X. rewrite set_src_id, H in X.
  apply Ok_inj in X. apply Some_inj in X. rewrite X. reflexivity.
Qed.
Lemma settles_keeps : forall n r r2, settles n r r2 -> r_src r2 = r_src r.
Proof. induction 1 as [|n r r1 r2 E O _ IH]; auto. rewrite IH. eauto using on_end_keeps. Qed.
Lemma advance_keeps : forall r r1, advance r = Ok r1 -> r_src r1 = r_src r.
Proof.
  intros r r1 H. pose proof (advance_src r (r_src r)) as X. rewrite set_src_id, H in X.
  apply Ok_inj in X. rewrite X. reflexivity.
Qed.

(* The frame at sample s lies in the file *)
Definition frame_file (fl : file) (nch : nat) (s : Z) : Prop := 0 <= s /\ 2 * (s + Z.of_nat nch) <= fsize fl.

Section S.
Variables (c : ccfg) (fl : file) (h : Z) (nch : nat).
Hypothesis C : cfg_ok c.
Hypothesis FS : fsize fl <= 2 ^ 31.

Let N := Z.of_nat (c_nbuf c).
Let first i := h + i * Z.of_nat nch.
Let fblk i := blk c (first i).
Let lblk i := blk c (first i + Z.of_nat nch - 1).

(* The source part of a state: window at J, first access o *)
Definition windowed (J : Z) (m : nat) (o : option nat) (r : reader) : Prop :=
  exists f, r_src r = SFile f /\ win c fl J m f /\ win_ok c fl J m /\ marks o f /\
    match o with Some a => (a < m)%nat | None => True end.

Lemma blk_mono : forall i j, i <= j -> blk c i <= blk c j.
Proof. intros i j H. unfold blk. apply Z.div_le_mono; [|auto]. pose proof (BS_pos _ C). lia. Qed.

Lemma cover : forall J m i, win_ok c fl J m -> in_file fl i -> J <= blk c i < J + N -> blk c i < J + Z.of_nat m.
Proof.
  intros J m i (M & J0 & J1 & CV) [I0 I1] B. pose proof (BS_pos _ C) as HB.
  pose proof (blk_mod c i C) as BM. pose proof (mod_BS c i C) as MB. unfold N in *.
  destruct CV as [ -> |CV]; [lia|]. destruct (Z.lt_ge_cases (blk c i) (J + Z.of_nat m)); [auto|]. nia.
Qed.

Lemma file_fetch_rest : forall todo J m a r s ch, windowed J m (Some a) r ->
  frame_file fl nch s -> J + Z.of_nat a <= blk c s -> blk c (s + Z.of_nat nch - 1) < J + N ->
  (ch + todo <= nch)%nat ->
  exists f', fetch_frame todo s (Z.of_nat ch) r =
     Ok (map (fun k => file_sample fl (s + Z.of_nat k)) (seq ch todo), r <| r_src := SFile f' |>) /\
     windowed J m (Some a) (r <| r_src := SFile f' |>).
Proof.
  induction todo as [|todo IH]; intros J m a r s ch W [F0 F1] B0 B1 T.
  - destruct W as (f & SF & W). exists f. rewrite <- SF, set_src_id. split; [reflexivity|]. exists f. auto.
  - destruct W as (f & SF & W & WO & MK & AM). cbn [fetch_frame seq map].
    unfold getAt. rewrite Z.mul_0_l, Z.add_0_r.
    rewrite chk32_ok by (unfold in_s32; lia). cbn [bind].
    rewrite chk32_ok by (unfold in_s32; lia). cbn [bind].
    unfold getSourceBufferValue. rewrite SF.
    pose proof (blk_mono s (s + Z.of_nat ch) ltac:(lia)).
    pose proof (blk_mono (s + Z.of_nat ch) (s + Z.of_nat nch - 1) ltac:(lia)).
    destruct (win_get c fl J m f (s + Z.of_nat ch) (Some a) C FS W WO MK) as (f1 & E & W1 & MK1).
    { split; lia. } { unfold N in *. lia. } { lia. }
    rewrite E. cbn [bind].
    assert (WW : windowed J m (Some a) (r <| r_src := SFile f1 |>)) by (exists f1; auto).
    destruct (IH J m a _ s (S ch) WW (conj F0 F1) B0 B1 ltac:(lia)) as (f2 & E2 & W2).
    replace (Z.of_nat ch + 1) with (Z.of_nat (S ch)) by lia. rewrite E2. cbn [bind].
    rewrite set_src_src in *. exists f2. auto.
Qed.

Lemma file_fetch : forall J m o r s, windowed J m o r -> (1 <= nch)%nat ->
  frame_file fl nch s -> J <= blk c s -> (match o with Some a => J + Z.of_nat a <= blk c s | None => True end) ->
  blk c (s + Z.of_nat nch - 1) < J + N ->
  exists f', fetch_frame nch s 0 r =
     Ok (map (fun k => file_sample fl (s + Z.of_nat k)) (seq 0 nch), r <| r_src := SFile f' |>) /\
     windowed J m (Some (match o with Some a => a | None => Z.to_nat (blk c s - J) end)) (r <| r_src := SFile f' |>).
Proof.
  intros J m o r s W N1 [F0 F1] B0 BO B1. destruct o as [a|].
  { apply (file_fetch_rest nch J m a r s O W (conj F0 F1) BO B1). lia. }
  destruct W as (f & SF & W & WO & MK & _).
  enough (X : forall t, t = nch -> exists f', fetch_frame t s 0 r =
     Ok (map (fun k => file_sample fl (s + Z.of_nat k)) (seq 0 t), r <| r_src := SFile f' |>) /\
     windowed J m (Some (Z.to_nat (blk c s - J))) (r <| r_src := SFile f' |>)) by (apply X; reflexivity).
  intros [|n'] NE; [lia|]. cbn [fetch_frame seq map].
  unfold getAt. rewrite Z.mul_0_l, Z.add_0_r.
  rewrite chk32_ok by (unfold in_s32; lia). cbn [bind].
  rewrite chk32_ok by (unfold in_s32; lia). cbn [bind].
  unfold getSourceBufferValue. rewrite SF.
  pose proof (blk_mono s (s + Z.of_nat nch - 1) ltac:(lia)).
  assert (INF : in_file fl s) by (split; lia). change (Z.of_nat 0) with 0. rewrite Z.add_0_r.
  destruct (win_get c fl J m f s None C FS W WO MK INF) as (f1 & E & W1 & MK1); auto.
  { unfold N in *. lia. }
  rewrite E. cbn [bind].
  pose proof (cover J m s WO INF ltac:(lia)) as CV.
  assert (WW : windowed J m (Some (Z.to_nat (blk c s - J))) (r <| r_src := SFile f1 |>)) by (exists f1; repeat (split; auto); lia).
  destruct (file_fetch_rest n' J m _ _ s 1%nat WW (conj F0 F1) ltac:(lia) B1 ltac:(lia)) as (f2 & E2 & W2).
  change (Z.of_nat 1) with (0 + 1) in E2. rewrite E2. cbn [bind]. rewrite set_src_src in *.
  exists f2. auto.
Qed.

Variables (I : nat -> reader -> Prop) (idx : nat -> option Z).
Hypothesis WK : walk h nch I idx.
Hypothesis FWD : forall k r, I k r -> fle f0 (f_of_d (r_rate r)) = true.

Lemma file_step : forall J m o k r i, I k r -> windowed J m o r -> idx k = Some i ->
  frame_file fl nch (first i) -> J <= fblk i -> (match o with Some a => J + Z.of_nat a <= fblk i | None => True end) ->
  lblk i < J + N ->
  exists F r', read_frame F r = Ok (Some (file_frame fl h nch i), r') /\ I (S k) r' /\
     windowed J m (Some (match o with Some a => a | None => Z.to_nat (fblk i - J) end)) r'.
Proof.
  intros J m o k r i HI W E FF B0 BO B1. destruct WK as (N1 & IS & HW).
  destruct (HW k r HI) as [P W']. rewrite E in W'.
  destruct W' as (n & r2 & r3 & SS & P2 & HP & AD & HI3).
  assert (W2 : windowed J m o r2).
  { destruct W as (f & SF & W). exists f. split; [|exact W]. rewrite (settles_keeps _ _ _ SS). exact SF. }
  destruct (file_fetch J m o r2 (first i) W2 N1 FF B0 BO B1) as (f' & EF & WF).
  exists (S n), (r3 <| r_src := SFile f' |>). split; [|split].
  - rewrite (plain_frame h nch r r2 n) by (auto; apply P).
    rewrite HP. fold (first i). rewrite EF. cbn [bind]. rewrite advance_src, AD. cbn [bind]. reflexivity.
  - apply IS, HI3.
  - destruct WF as (f & SF & WF). exists f. split; [|exact WF]. exact SF.
Qed.

(* One update of at most n frames from frame k, window at J: all its accesses are
   covered, and none lies before the block of its first frame *)
Definition upd_ok (J : Z) (k n : nat) : Prop :=
  forall k' i, (k <= k' < k + n)%nat -> idx k' = Some i ->
    frame_file fl nch (first i) /\ lblk i < J + N /\
    forall i0, idx k = Some i0 -> J <= fblk i0 <= fblk i.

Let out : stream := fun k => option_map (file_frame fl h nch) (idx k).

Definition next_win (J : Z) (k n : nat) : Z :=
  match n, idx k with S _, Some i0 => fblk i0 | _, _ => J end.

Fixpoint sched (J : Z) (k : nat) (ns : list nat) : Prop :=
  match ns with
  | [] => True
  | n :: ns' => upd_ok J k n /\ sched (next_win J k n) (k + length (pulls out k n)) ns'
  end.

(* The rest of an update, after its first frame *)
Lemma file_rest : forall n J m a k r, I k r -> windowed J m (Some a) r ->
  (forall k' i, (k <= k' < k + n)%nat -> idx k' = Some i ->
     frame_file fl nch (first i) /\ lblk i < J + N /\ J + Z.of_nat a <= fblk i) ->
  exists F r', read_loop F F r (Z.of_nat n) = Ok (pulls out k n, r') /\
    I (k + length (pulls out k n))%nat r' /\ windowed J m (Some a) r'.
Proof.
  induction n as [|n IH]; intros J m a k r HI W H.
  - exists O, r. cbn. rewrite Nat.add_0_r. auto.
  - destruct (idx k) as [i|] eqn:E.
    + destruct (H k i ltac:(lia) E) as (H1 & H2 & H3).
      destruct (file_step J m (Some a) k r i HI W E H1 ltac:(lia) H3 H2) as (F & r1 & EF & HI1 & W1).
      destruct (IH J m a (S k) r1 HI1 W1) as (F2 & r2 & E2 & HI2 & W2).
      { intros k' i' K. apply H. lia. }
      assert (OK : out k = Some (file_frame fl h nch i)) by (unfold out; now rewrite E).
      exists (S (F + F2)), r2. cbn [read_loop pulls]. rewrite OK.
      destruct (Z.leb_spec (Z.of_nat (S n)) 0); [lia|].
      rewrite (read_frame_fuel F (S (F + F2)) r _ ltac:(lia) EF). cbn [bind].
      destruct WK as (N1 & _ & HW). destruct (HW k r HI) as [P _].
      destruct (Z.eqb_spec (r_nch r) 0) as [Z0|]; [rewrite (pl_nch _ _ _ P) in Z0; lia|].
      replace (Z.of_nat (S n) - 1) with (Z.of_nat n) by lia.
      rewrite (read_loop_fuel F2 (S (F + F2)) F2 (F + F2) r1 _ _ ltac:(lia) ltac:(lia) E2).
      cbn [bind length]. split; auto.
      replace (k + S (length (pulls out (S k) n)))%nat
        with (S k + length (pulls out (S k) n))%nat by lia. auto.
    + destruct WK as (N1 & IS & HW). destruct (HW k r HI) as [P W']. rewrite E in W'. destruct W' as (EN & L & HI2).
      assert (OK : out k = None) by (unfold out; now rewrite E).
      exists 1%nat, (r <| r_cfst := 0 |>). cbn [read_loop pulls]. rewrite OK.
      destruct (Z.leb_spec (Z.of_nat (S n)) 0); [lia|].
      rewrite (frame_end r 0); auto; try apply P; [|rewrite (pl_nch _ _ _ P); lia].
      cbn [bind length]. rewrite Nat.add_0_r. split; [reflexivity|]. split; [exact HI2|].
      destruct W as (f & SF & W). exists f. auto.
Qed.

Lemma file_update : forall n J m k r, I k r -> windowed J m None r -> upd_ok J k n ->
  exists F r' o, read_loop F F r (Z.of_nat n) = Ok (pulls out k n, r') /\
    I (k + length (pulls out k n))%nat r' /\ windowed J m o r' /\
    next_win J k n = J + Z.of_nat (match o with Some a => a | None => O end).
Proof.
  intros [|n] J m k r HI W H.
  - exists O, r, None. cbn. rewrite Nat.add_0_r, Z.add_0_r. auto.
  - destruct (idx k) as [i|] eqn:E.
    + destruct (H k i ltac:(lia) E) as (H1 & H2 & H3). specialize (H3 i E).
      destruct (file_step J m None k r i HI W E H1 ltac:(lia) Logic.I H2) as (F & r1 & EF & HI1 & W1).
      destruct (file_rest n J m _ (S k) r1 HI1 W1) as (F2 & r2 & E2 & HI2 & W2).
      { intros k' i' K E'. destruct (H k' i' ltac:(lia) E') as (A1 & A2 & A3). specialize (A3 i E).
        split; [auto|]. split; [auto|]. lia. }
      assert (OK : out k = Some (file_frame fl h nch i)) by (unfold out; now rewrite E).
      exists (S (F + F2)), r2, (Some (Z.to_nat (fblk i - J))). cbn [read_loop pulls]. rewrite OK.
      destruct (Z.leb_spec (Z.of_nat (S n)) 0); [lia|].
      rewrite (read_frame_fuel F (S (F + F2)) r _ ltac:(lia) EF). cbn [bind].
      destruct WK as (N1 & _ & HW). destruct (HW k r HI) as [P _].
      destruct (Z.eqb_spec (r_nch r) 0) as [Z0|]; [rewrite (pl_nch _ _ _ P) in Z0; lia|].
      replace (Z.of_nat (S n) - 1) with (Z.of_nat n) by lia.
      rewrite (read_loop_fuel F2 (S (F + F2)) F2 (F + F2) r1 _ _ ltac:(lia) ltac:(lia) E2).
      cbn [bind length]. split; [reflexivity|].
      replace (k + S (length (pulls out (S k) n)))%nat
        with (S k + length (pulls out (S k) n))%nat by lia. split; [auto|]. split; [auto|].
      unfold next_win. rewrite E. lia.
    + destruct WK as (N1 & IS & HW). destruct (HW k r HI) as [P W']. rewrite E in W'. destruct W' as (EN & L & HI2).
      assert (OK : out k = None) by (unfold out; now rewrite E).
      exists 1%nat, (r <| r_cfst := 0 |>), None. cbn [read_loop pulls]. rewrite OK.
      destruct (Z.leb_spec (Z.of_nat (S n)) 0); [lia|].
      rewrite (frame_end r 0); auto; try apply P; [|rewrite (pl_nch _ _ _ P); lia].
      cbn [bind length]. rewrite Nat.add_0_r. split; [reflexivity|]. split; [exact HI2|]. split.
      * destruct W as (f & SF & W). exists f. auto.
      * unfold next_win. rewrite E. cbn. lia.
Qed.

Lemma file_reload : forall J m o k r, I k r -> windowed J m o r ->
  let J' := J + Z.of_nat (match o with Some a => a | None => O end) in
  2 * (J' * BS c) < 2 ^ 31 ->
  exists F r', (forall extra, r_triggerReload (F + extra) r = Ok r') /\ I k r' /\ windowed J' m None r'.
Proof.
  intros J m o k r HI W J' B. destruct W as (f & SF & W & WO & MK & AM).
  assert (AM' : (match o with Some a => a | None => O end < m)%nat).
  { destruct o; [auto|]. destruct WO. lia. }
  destruct (win_reload c fl (f_of_d (r_rate r)) J m f o C FS (FWD k r HI) W WO MK AM' B) as (F & f' & E & W1 & WO1 & MK1).
  exists F, (r <| r_src := SFile f' |>). split; [|split].
  - intro extra. unfold r_triggerReload. rewrite SF, E. reflexivity.
  - destruct WK as (_ & IS & _). auto.
  - exists f'. auto.
Qed.

Lemma serviced_fuel : forall ns F F' r x, (F <= F')%nat ->
  serviced F r ns = Ok x -> (forall r1 r2, r_triggerReload F r1 = Ok r2 -> r_triggerReload F' r1 = Ok r2) ->
  serviced F' r ns = Ok x.
Proof.
  induction ns as [|n ns IH]; intros F F' r x L H T; auto. cbn [serviced] in *.
  apply bind_ok in H. destruct H as ([b r1] & E & H). rewrite (r_read_fuel _ _ _ _ _ L E). cbn [bind].
  apply bind_ok in H. destruct H as (r2 & E2 & H). rewrite (T _ _ E2). cbn [bind].
  apply bind_ok in H. destruct H as ([bs r3] & E3 & H). rewrite (IH _ _ _ _ L E3 T). exact H.
Qed.

Lemma r_reload_fuel : forall F F' r r', (F <= F')%nat -> r_triggerReload F r = Ok r' -> r_triggerReload F' r = Ok r'.
Proof.
  intros F F' r r' L H. unfold r_triggerReload in *. destruct (r_src r) as [| |f]; auto.
  unfold triggerReload in *. destruct (reload_loop F f _) as [f1| |] eqn:E; cbn [bind] in H; try discriminate.
  replace F' with (F + (F' - F))%nat by lia. rewrite (reload_loop_fuel _ _ _ _ _ E). exact H.
Qed.

Lemma file_session : forall ns J m k r, I k r -> windowed J m None r -> sched J k ns ->
  exists F r', serviced F r ns = Ok (blocks_spec out k ns, r') /\ misses r' = 0 /\ exists k', I k' r'.
Proof.
  induction ns as [|n ns IH]; intros J m k r HI W H.
  - exists O, r. split; [reflexivity|]. split; [|eauto]. destruct W as (f & SF & W & _).
    unfold misses. rewrite SF. apply W.
  - destruct H as [H1 H2].
    destruct (file_update n J m k r HI W H1) as (F & r1 & o & E & HI1 & W1 & NW).
    assert (B : 2 * (next_win J k n * BS c) < 2 ^ 31).
    { assert (WB : 2 * (J * BS c) < 2 ^ 31) by (destruct W as (f & _ & _ & WO & _); destruct WO as (_ & _ & B & _); lia).
      unfold next_win. destruct n as [|n]; [exact WB|]. destruct (idx k) as [i|] eqn:EI; [|exact WB].
      destruct (H1 k i ltac:(lia) EI) as ([A1 A2] & _).
      pose proof (blk_mod c (first i) C) as BM. pose proof (mod_BS c (first i) C) as MB.
      destruct WK as (N1 & _). unfold fblk. lia. }
    rewrite NW in B, H2.
    destruct (file_reload J m o _ r1 HI1 W1 B) as (F1 & r2 & E1 & HI2 & W2).
    destruct (IH _ m _ r2 HI2 W2 H2) as (F2 & r3 & E2 & M3 & HI3).
    exists (F + (F1 + F2))%nat, r3. split; [|auto]. cbn [serviced blocks_spec].
    assert (R : r_read (F + (F1 + F2)) r (Z.of_nat n) = Ok (pulls out k n, r1)).
    { destruct WK as (N1 & _ & HW). destruct (HW k r HI) as [P _].
      unfold r_read. rewrite (pl_playing _ _ _ P). cbn [negb]. rewrite (pl_nch _ _ _ P).
      destruct (Z.ltb_spec (Z.of_nat nch) 0); [lia|].
      eapply read_loop_fuel; [| |exact E]; lia. }
    rewrite R. cbn [bind].
    replace (F + (F1 + F2))%nat with (F1 + (F + F2))%nat by lia. rewrite E1. cbn [bind].
    rewrite (serviced_fuel ns F2 (F1 + (F + F2))%nat r2 (blocks_spec out (k + length (pulls out k n)) ns, r3)); [reflexivity|lia|exact E2|].
    intros a b X. eapply r_reload_fuel; [|exact X]. lia.
Qed.

End S.
