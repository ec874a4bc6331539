(* Walks down a file over the window of buffered blocks. *)

From Coq Require Import ZArith Lia List Bool Reals Lra.
From RecordUpdate Require Import RecordUpdate.
From Flocq Require Import Core.Core IEEE754.BinarySingleNaN.
From Verif Require Import Machine Floats FloatFacts WavModel InterpModel CacheModel ReaderModel
  ReaderFacts ReaderSpec Sessions Walk CacheFacts CacheSpec CacheProofs FileSpec WindowProofs FileProofs LoopWindow PongWindow BackWindow.
Import ListNotations.
Local Open Scope Z_scope.

Section S.
Variables (c : ccfg) (fl : file) (h : Z) (nch : nat).
Hypothesis C : cfg_ok c.
Hypothesis FS : fsize fl <= 2 ^ 31.

Let N := Z.of_nat (c_nbuf c).
Let first i := h + i * Z.of_nat nch.
Let fblk i := blk c (first i).
Let lblk i := blk c (first i + Z.of_nat nch - 1).

Definition rwindowed (e : Z) (o : option nat) (r : reader) : Prop :=
  exists f s, r_src r = SFile f /\ rwin c fl e s f /\ rfull c e s /\ marks o f /\
    match o with Some a => (a < s)%nat | None => True end.

Lemma rcover : forall e s b, rfull c e s -> 0 <= b -> e - N < b -> b <= e ->
  (Z.to_nat (e - b) < s)%nat /\ e - Z.of_nat (Z.to_nat (e - b)) = b.
Proof. intros e s b [S1 CV] B0 B1 B2. unfold N in *. destruct CV as [->|CV]; lia. Qed.

(* The channels of a frame from ch on: the last one needs the highest block *)
Lemma back_fetch : forall todo e o r s ch, rwindowed e o r -> (1 <= todo)%nat -> (ch + todo = nch)%nat ->
  frame_file fl nch s -> e - N < blk c s -> blk c (s + Z.of_nat nch - 1) <= e ->
  exists f', fetch_frame todo s (Z.of_nat ch) r =
     Ok (map (fun k => file_sample fl (s + Z.of_nat k)) (seq ch todo), r <| r_src := SFile f' |>) /\
     rwindowed e (Some (first_use o (Z.to_nat (e - blk c (s + Z.of_nat nch - 1))))) (r <| r_src := SFile f' |>).
Proof.
  induction todo as [|todo IH]; intros e o r s ch W T1 T [F0 F1] B0 B1; [lia|].
  destruct W as (f & n & SF & W & RF & MK & AM). cbn [fetch_frame seq map].
  unfold getAt. rewrite Z.mul_0_l, Z.add_0_r.
  rewrite chk32_ok by (unfold in_s32; lia). cbn [bind].
  rewrite chk32_ok by (unfold in_s32; lia). cbn [bind].
  unfold getSourceBufferValue. rewrite SF.
  pose proof (blk_mono c C s (s + Z.of_nat ch) ltac:(lia)) as M1.
  pose proof (blk_mono c C (s + Z.of_nat ch) (s + Z.of_nat nch - 1) ltac:(lia)) as M2.
  pose proof (blk_nonneg c (s + Z.of_nat ch) C ltac:(lia)) as Q0.
  destruct (rcover e n (blk c (s + Z.of_nat ch)) RF (proj1 Q0) ltac:(lia) ltac:(lia)) as [P1 P2].
  destruct (rwin_get c fl e n f (s + Z.of_nat ch) o (Z.to_nat (e - blk c (s + Z.of_nat ch))) C FS W MK) as (f1 & E & W1 & MK1); auto.
  { split; lia. }
  rewrite E. cbn [bind].
  set (p := Z.to_nat (e - blk c (s + Z.of_nat ch))) in *.
  assert (WW : rwindowed e (Some (first_use o p)) (r <| r_src := SFile f1 |>)).
  { exists f1, n. split; [reflexivity|]. split; [auto|]. split; [auto|]. split; [auto|]. unfold first_use. destruct o; lia. }
  destruct todo as [|todo].
  - exists f1. cbn [fetch_frame seq map bind]. split; [reflexivity|].
    replace (s + Z.of_nat nch - 1) with (s + Z.of_nat ch) by lia. exact WW.
  - destruct (IH e _ _ s (S ch) WW ltac:(lia) ltac:(lia) (conj F0 F1) B0 B1) as (f2 & E2 & W2).
    replace (Z.of_nat ch + 1) with (Z.of_nat (S ch)) by lia. rewrite E2. cbn [bind].
    rewrite set_src_src in *. exists f2. split; [reflexivity|].
    replace (first_use (Some (first_use o p)) (Z.to_nat (e - blk c (s + Z.of_nat nch - 1))))
      with (first_use o (Z.to_nat (e - blk c (s + Z.of_nat nch - 1)))) in W2; [exact W2|].
    unfold first_use, p. destruct o; lia.
Qed.

Variables (I : nat -> reader -> Prop) (idx : nat -> option Z).
Hypothesis WK : walk h nch I idx.
Hypothesis BWD : forall k r, I k r -> fle f0 (f_of_d (r_rate r)) = false.

Lemma back_step : forall e o k r i, I k r -> rwindowed e o r -> idx k = Some i ->
  frame_file fl nch (first i) -> e - N < fblk i -> lblk i <= e ->
  exists F r', read_frame F r = Ok (Some (file_frame fl h nch i), r') /\ I (S k) r' /\
     rwindowed e (Some (first_use o (Z.to_nat (e - lblk i)))) r'.
Proof.
  intros e o k r i HI W E FF B0 B1. destruct WK as (N1 & IS & HW).
  destruct (HW k r HI) as [P W']. rewrite E in W'.
  destruct W' as (n & r2 & r3 & SS & P2 & HP & AD & HI3).
  assert (W2 : rwindowed e o r2).
  { destruct W as (f & s & SF & W). exists f, s. split; [|exact W]. rewrite (settles_keeps _ _ _ SS). exact SF. }
  destruct (back_fetch nch e o r2 (first i) 0%nat W2 N1 ltac:(lia) FF B0 B1) as (f' & EF & WF).
  exists (S n), (r3 <| r_src := SFile f' |>). split; [|split].
  - rewrite (plain_frame h nch r r2 n) by (auto; apply P).
    rewrite HP. fold (first i). change (Z.of_nat 0) with 0 in EF. rewrite EF. cbn [bind]. rewrite advance_src, AD. cbn [bind]. reflexivity.
  - apply IS, HI3.
  - destruct WF as (f & s & SF & WF). exists f, s. split; [|exact WF]. exact SF.
Qed.

Definition back_upd (e : Z) (k n : nat) : Prop :=
  forall k' i, (k <= k' < k + n)%nat -> idx k' = Some i ->
    frame_file fl nch (first i) /\ e - N < fblk i /\
    forall i0, idx k = Some i0 -> lblk i <= lblk i0 <= e.

Let out : stream := fun k => option_map (file_frame fl h nch) (idx k).

Definition next_back (e : Z) (k n : nat) : Z :=
  match n, idx k with S _, Some i0 => lblk i0 | _, _ => e end.

Lemma back_rest : forall n e a k r, I k r -> rwindowed e (Some a) r ->
  (forall k' i, (k <= k' < k + n)%nat -> idx k' = Some i ->
     frame_file fl nch (first i) /\ e - N < fblk i /\ lblk i + Z.of_nat a <= e) ->
  exists F r', read_loop F F r (Z.of_nat n) = Ok (pulls out k n, r') /\
    I (k + length (pulls out k n))%nat r' /\ rwindowed e (Some a) r'.
Proof.
  induction n as [|n IH]; intros e a k r HI W H.
  - exists O, r. cbn. rewrite Nat.add_0_r. auto.
  - destruct (idx k) as [i|] eqn:E.
    + destruct (H k i ltac:(lia) E) as (H1 & H2 & H3).
      destruct (back_step e (Some a) k r i HI W E H1 H2 ltac:(lia)) as (F & r1 & EF & HI1 & W1).
      replace (first_use (Some a) (Z.to_nat (e - lblk i))) with a in W1 by (unfold first_use; lia).
      destruct (IH e a (S k) r1 HI1 W1) as (F2 & r2 & E2 & HI2 & W2).
      { intros k' i' K. apply H. lia. }
      assert (OK : out k = Some (file_frame fl h nch i)) by (unfold out; now rewrite E).
      exists (S (F + F2)), r2. cbn [read_loop pulls]. rewrite OK.
      destruct (Z.leb_spec (Z.of_nat (S n)) 0); [lia|].
      rewrite (read_frame_fuel F (S (F + F2)) r _ ltac:(lia) EF). cbn [bind].
      destruct WK as (N1 & _ & HW). destruct (HW k r HI) as [P _].
      destruct (Z.eqb_spec (r_nch r) 0) as [Z0|]; [rewrite (pl_nch _ _ _ P) in Z0; lia|].
      replace (Z.of_nat (S n) - 1) with (Z.of_nat n) by lia.
      rewrite (read_loop_fuel F2 (S (F + F2)) F2 (F + F2) r1 _ _ ltac:(lia) ltac:(lia) E2).
      cbn [bind length]. split; auto.
      replace (k + S (length (pulls out (S k) n)))%nat
        with (S k + length (pulls out (S k) n))%nat by lia. auto.
    + destruct WK as (N1 & IS & HW). destruct (HW k r HI) as [P W']. rewrite E in W'. destruct W' as (EN & L & HI2).
      assert (OK : out k = None) by (unfold out; now rewrite E).
      exists 1%nat, (r <| r_cfst := 0 |>). cbn [read_loop pulls]. rewrite OK.
      destruct (Z.leb_spec (Z.of_nat (S n)) 0); [lia|].
      rewrite (frame_end r 0); auto; try apply P; [|rewrite (pl_nch _ _ _ P); lia].
      cbn [bind length]. rewrite Nat.add_0_r. split; [reflexivity|]. split; [exact HI2|].
      destruct W as (f & s & SF & W). exists f, s. auto.
Qed.

Lemma back_update : forall n e k r, I k r -> rwindowed e None r -> back_upd e k n ->
  exists F r' o, read_loop F F r (Z.of_nat n) = Ok (pulls out k n, r') /\
    I (k + length (pulls out k n))%nat r' /\ rwindowed e o r' /\
    next_back e k n = e - Z.of_nat (match o with Some a => a | None => O end).
Proof.
  intros [|n] e k r HI W H.
  - exists O, r, None. cbn. rewrite Nat.add_0_r, Z.sub_0_r. auto.
  - destruct (idx k) as [i|] eqn:E.
    + destruct (H k i ltac:(lia) E) as (H1 & H2 & H3). specialize (H3 i E).
      destruct (back_step e None k r i HI W E H1 H2 ltac:(lia)) as (F & r1 & EF & HI1 & W1).
      cbn [first_use] in W1.
      destruct (back_rest n e _ (S k) r1 HI1 W1) as (F2 & r2 & E2 & HI2 & W2).
      { intros k' i' K E'. destruct (H k' i' ltac:(lia) E') as (A1 & A2 & A3). specialize (A3 i E).
        split; [auto|]. split; [auto|]. lia. }
      assert (OK : out k = Some (file_frame fl h nch i)) by (unfold out; now rewrite E).
      exists (S (F + F2)), r2, (Some (Z.to_nat (e - lblk i))). cbn [read_loop pulls]. rewrite OK.
      destruct (Z.leb_spec (Z.of_nat (S n)) 0); [lia|].
      rewrite (read_frame_fuel F (S (F + F2)) r _ ltac:(lia) EF). cbn [bind].
      destruct WK as (N1 & _ & HW). destruct (HW k r HI) as [P _].
      destruct (Z.eqb_spec (r_nch r) 0) as [Z0|]; [rewrite (pl_nch _ _ _ P) in Z0; lia|].
      replace (Z.of_nat (S n) - 1) with (Z.of_nat n) by lia.
      rewrite (read_loop_fuel F2 (S (F + F2)) F2 (F + F2) r1 _ _ ltac:(lia) ltac:(lia) E2).
      cbn [bind length]. split; [reflexivity|].
      replace (k + S (length (pulls out (S k) n)))%nat
        with (S k + length (pulls out (S k) n))%nat by lia. split; [auto|]. split; [auto|].
      unfold next_back. rewrite E. lia.
    + destruct WK as (N1 & IS & HW). destruct (HW k r HI) as [P W']. rewrite E in W'. destruct W' as (EN & L & HI2).
      assert (OK : out k = None) by (unfold out; now rewrite E).
      exists 1%nat, (r <| r_cfst := 0 |>), None. cbn [read_loop pulls]. rewrite OK.
      destruct (Z.leb_spec (Z.of_nat (S n)) 0); [lia|].
      rewrite (frame_end r 0); auto; try apply P; [|rewrite (pl_nch _ _ _ P); lia].
      cbn [bind length]. rewrite Nat.add_0_r. split; [reflexivity|]. split; [exact HI2|]. split.
      * destruct W as (f & s & SF & W). exists f, s. auto.
      * unfold next_back. rewrite E. cbn. lia.
Qed.

Lemma back_reload : forall e o k r, I k r -> rwindowed e o r ->
  exists F r', (forall extra, r_triggerReload (F + extra) r = Ok r') /\ I k r' /\
    rwindowed (e - Z.of_nat (match o with Some a => a | None => O end)) None r'.
Proof.
  intros e o k r HI (f & s & SF & W & RF & MK & AM).
  assert (AM' : (match o with Some a => a | None => O end < s)%nat) by (destruct o; [auto|destruct RF; lia]).
  destruct (rwin_reload c fl (f_of_d (r_rate r)) e s f o C FS (BWD k r HI) W RF MK AM') as (F & f' & s' & E & W1 & RF1 & MK1).
  exists F, (r <| r_src := SFile f' |>). split; [|split].
  - intro extra. unfold r_triggerReload. rewrite SF, E. reflexivity.
  - destruct WK as (_ & IS & _). auto.
  - exists f', s'. auto.
Qed.

End S.

Lemma rwindowed_misses : forall c fl e o r, rwindowed c fl e o r -> misses r = 0.
Proof. intros c fl e o r (f & s & SF & W & _). unfold misses. rewrite SF. apply W. Qed.
