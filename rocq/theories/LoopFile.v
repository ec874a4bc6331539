(* Endless walks over a window of buffered loop blocks. *)

From Coq Require Import ZArith Lia List Bool Reals Lra.
From RecordUpdate Require Import RecordUpdate.
From Flocq Require Import Core.Core IEEE754.BinarySingleNaN.
From Verif Require Import Machine Floats FloatFacts WavModel InterpModel CacheModel ReaderModel
  ReaderFacts ReaderSpec Sessions Walk CacheFacts CacheSpec CacheProofs FileSpec WindowProofs FileProofs LoopWindow.
Import ListNotations.
Local Open Scope Z_scope.

Section L.
Variables (c : ccfg) (fl : file) (h : Z) (nch : nat) (LS LE LX : Z).
Hypothesis C : cfg_ok c.
Hypothesis FS : fsize fl <= 2 ^ 31.

Let first i := h + i * Z.of_nat nch.
Notation slot := (slot c LS LX).

Definition lwindowed (a : Z) (o : option nat) (r : reader) : Prop :=
  exists f, r_src r = SFile f /\ lwin c fl LS LE LX a f /\ lwin_ok c LS LE LX a /\ marks o f /\
    match o with Some d => (d < c_nbuf c)%nat | None => True end.

(* o is the first buffer used by the lookups of the blocks in the set Q *)
Definition firsts (a : Z) (Q : Z -> Prop) (o : option nat) : Prop :=
  match o with
  | None => forall b, ~ Q b
  | Some d => (forall b p, Q b -> slot a b p -> (d <= p)%nat) /\ exists b, Q b /\ slot a b d
  end.

Lemma firsts_add : forall a Q o b p, firsts a Q o -> slot a b p ->
  firsts a (fun x => Q x \/ x = b) (Some (first_use o p)).
Proof.
  intros a Q o b p H SP. unfold first_use. destruct o as [d|]; cbn in *.
  - destruct H as [H1 (b1 & Q1 & S1)]. split.
    + intros b' p' [QB|E] S'; [pose proof (H1 _ _ QB S'); lia|]. rewrite E in S'.
      pose proof (slot_unique _ _ _ _ _ _ _ SP S'). lia.
    + destruct (Nat.le_gt_cases d p).
      * exists b1. split; [auto|]. rewrite Nat.min_l by auto. auto.
      * exists b. split; [auto|]. rewrite Nat.min_r by lia. auto.
  - split.
    + intros b' p' [QB|E] S'; [destruct (H _ QB)|]. rewrite E in S'.
      pose proof (slot_unique _ _ _ _ _ _ _ SP S'). lia.
    + exists b. auto.
Qed.

Lemma firsts_ext : forall a Q Q' o, (forall b, Q b <-> Q' b) -> firsts a Q o -> firsts a Q' o.
Proof.
  intros a Q Q' [d|] E H; cbn in *.
  - destruct H as [H1 (b & H2 & H3)]. split; [|exists b; split; [now apply E|auto]].
    intros b' p QB. apply H1. now apply E.
  - intros b QB. apply (H b). now apply E.
Qed.

Lemma loop_fetch : forall todo a o Q r s ch, lwindowed a o r -> firsts a Q o ->
  frame_file fl nch s -> (ch + todo <= nch)%nat ->
  (forall k, (ch <= k < ch + todo)%nat -> exists p, slot a (blk c (s + Z.of_nat k)) p) ->
  exists f' o', fetch_frame todo s (Z.of_nat ch) r =
     Ok (map (fun k => file_sample fl (s + Z.of_nat k)) (seq ch todo), r <| r_src := SFile f' |>) /\
     lwindowed a o' (r <| r_src := SFile f' |>) /\
     firsts a (fun b => Q b \/ exists k, (ch <= k < ch + todo)%nat /\ b = blk c (s + Z.of_nat k)) o'.
Proof.
  induction todo as [|todo IH]; intros a o Q r s ch W FO [F0 F1] T PR.
  - destruct W as (f & SF & W). exists f, o. rewrite <- SF, set_src_id. split; [reflexivity|]. split; [exists f; auto|].
    eapply firsts_ext; [|exact FO]. intros b. split; [auto|]. intros [H|(k & K & _)]; [auto|lia].
  - destruct W as (f & SF & W & WO & MK & AM). cbn [fetch_frame seq map].
    unfold getAt. rewrite Z.mul_0_l, Z.add_0_r.
    rewrite chk32_ok by (unfold in_s32; lia). cbn [bind].
    rewrite chk32_ok by (unfold in_s32; lia). cbn [bind].
    unfold getSourceBufferValue. rewrite SF.
    destruct (PR ch ltac:(lia)) as (p & SP).
    destruct (lwin_get c fl LS LE LX a f (s + Z.of_nat ch) o p C FS W MK) as (f1 & E & W1 & MK1); auto.
    { split; lia. }
    rewrite E. cbn [bind].
    assert (WW : lwindowed a (Some (first_use o p)) (r <| r_src := SFile f1 |>)).
    { exists f1. split; [reflexivity|]. split; [auto|]. split; [auto|]. split; [auto|].
      destruct SP as (SP & _). unfold first_use. destruct o; lia. }
    destruct (IH a _ _ _ s (S ch) WW (firsts_add _ _ _ _ _ FO SP) (conj F0 F1) ltac:(lia)) as (f2 & o2 & E2 & W2 & FO2).
    { intros k K. apply PR. lia. }
    replace (Z.of_nat ch + 1) with (Z.of_nat (S ch)) by lia. rewrite E2. cbn [bind].
    rewrite set_src_src in *. exists f2, o2. split; [reflexivity|]. split; [auto|].
    eapply firsts_ext; [|exact FO2]. intros b. split.
    + intros [[H| -> ]|(k & K & -> )]; [auto|right; exists ch; split; [lia|auto]|right; exists k; split; [lia|auto]].
    + intros [H|(k & K & -> )]; [auto|]. destruct (Nat.eq_dec k ch); [subst; auto|right; exists k; split; [lia|auto]].
Qed.

Variables (I : nat -> reader -> Prop) (ix : nat -> Z).
Hypothesis WK : walk h nch I (fun k => Some (ix k)).
Hypothesis FWD : forall k r, I k r -> fle f0 (f_of_d (r_rate r)) = true.
Hypothesis INF : forall k, frame_file fl nch (first (ix k)).

(* The blocks fetched for the frames k .. k+n-1 *)
Definition fetched (k n : nat) (b : Z) : Prop :=
  exists k' ch, (k <= k' < k + n)%nat /\ (ch < nch)%nat /\ b = blk c (first (ix k') + Z.of_nat ch).

Lemma loop_step : forall a o Q k r, I k r -> lwindowed a o r -> firsts a Q o ->
  (forall b, fetched k 1 b -> exists p, slot a b p) ->
  exists F r' o', read_frame F r = Ok (Some (file_frame fl h nch (ix k)), r') /\ I (S k) r' /\
     lwindowed a o' r' /\ firsts a (fun b => Q b \/ fetched k 1 b) o'.
Proof.
  intros a o Q k r HI W FO PR. destruct WK as (N1 & IS & HW).
  destruct (HW k r HI) as [P W'].
  destruct W' as (n & r2 & r3 & SS & P2 & HP & AD & HI3).
  assert (W2 : lwindowed a o r2).
  { destruct W as (f & SF & W). exists f. split; [|exact W]. rewrite (settles_keeps _ _ _ SS). exact SF. }
  destruct (loop_fetch nch a o Q r2 (first (ix k)) 0%nat W2 FO (INF k) ltac:(lia)) as (f' & o' & EF & WF & FO').
  { intros ch K. apply PR. exists k, ch. repeat split; lia. }
  exists (S n), (r3 <| r_src := SFile f' |>), o'. split; [|split; [|split]].
  - rewrite (plain_frame h nch r r2 n) by (auto; apply P).
    rewrite HP. fold (first (ix k)). change (Z.of_nat 0) with 0 in EF. rewrite EF. cbn [bind]. rewrite advance_src, AD. cbn [bind]. reflexivity.
  - apply IS, HI3.
  - destruct WF as (f & SF & WF). exists f. split; [|exact WF]. exact SF.
  - eapply firsts_ext; [|exact FO']. intros b. split; (intros [H|H]; [auto|right]).
    + destruct H as (ch & K & -> ). exists k, ch. repeat split; lia.
    + destruct H as (k' & ch & K & L & -> ). exists ch. replace k' with k by lia. split; [lia|auto].
Qed.

Definition loop_out : stream := fun k => Some (file_frame fl h nch (ix k)).

Lemma loop_pulls : forall n k, length (pulls loop_out k n) = n.
Proof. induction n as [|n IH]; intros k; cbn; auto. Qed.

Lemma loop_rest : forall n a o Q k r, I k r -> lwindowed a o r -> firsts a Q o ->
  (forall b, fetched k n b -> exists p, slot a b p) ->
  exists F r' o', read_loop F F r (Z.of_nat n) = Ok (pulls loop_out k n, r') /\
    I (k + n)%nat r' /\ lwindowed a o' r' /\ firsts a (fun b => Q b \/ fetched k n b) o'.
Proof.
  induction n as [|n IH]; intros a o Q k r HI W FO PR.
  - exists O, r, o. cbn. rewrite Nat.add_0_r. split; [auto|]. split; [auto|]. split; [auto|].
    eapply firsts_ext; [|exact FO]. intros b. split; [auto|]. intros [H|(k' & ch & K & _)]; [auto|lia].
  - destruct (loop_step a o Q k r HI W FO) as (F & r1 & o1 & EF & HI1 & W1 & FO1).
    { intros b (k' & ch & K & L & E). apply PR. exists k', ch. repeat split; auto; lia. }
    destruct (IH a o1 _ (S k) r1 HI1 W1 FO1) as (F2 & r2 & o2 & E2 & HI2 & W2 & FO2).
    { intros b (k' & ch & K & L & E). apply PR. exists k', ch. repeat split; auto; lia. }
    exists (S (F + F2)), r2, o2. cbn [read_loop pulls]. unfold loop_out at 1.
    destruct (Z.leb_spec (Z.of_nat (S n)) 0); [lia|].
    rewrite (read_frame_fuel F (S (F + F2)) r _ ltac:(lia) EF). cbn [bind].
    destruct WK as (N1 & _ & HW). destruct (HW k r HI) as [P _].
    destruct (Z.eqb_spec (r_nch r) 0) as [Z0|]; [rewrite (pl_nch _ _ _ P) in Z0; lia|].
    replace (Z.of_nat (S n) - 1) with (Z.of_nat n) by lia.
    rewrite (read_loop_fuel F2 (S (F + F2)) F2 (F + F2) r1 _ _ ltac:(lia) ltac:(lia) E2).
    cbn [bind]. split; [reflexivity|]. replace (k + S n)%nat with (S k + n)%nat by lia. split; [auto|]. split; [auto|].
    eapply firsts_ext; [|exact FO2]. intros b. split.
    + intros [[HQ|(k' & ch & K & L & E)]|(k' & ch & K & L & E)]; [auto| |]; right; exists k', ch; repeat split; auto; lia.
    + intros [HQ|(k' & ch & K & L & E)]; [auto|].
      destruct (Nat.eq_dec k' k); [left; right|right]; exists k', ch; repeat split; auto; lia.
Qed.

Lemma loop_reload : forall a o k r, I k r -> lwindowed a o r ->
  exists F r', (forall extra, r_triggerReload (F + extra) r = Ok r') /\ I k r' /\
    lwindowed (a + Z.of_nat (match o with Some d => d | None => O end)) None r'.
Proof.
  intros a o k r HI W. destruct W as (f & SF & W & WO & MK & AM).
  assert (AM' : (match o with Some d => d | None => O end < c_nbuf c)%nat).
  { destruct o; [auto|]. apply C. }
  destruct (lwin_reload c fl LS LE LX (f_of_d (r_rate r)) a f o C FS (FWD k r HI) W WO MK AM') as (F & f' & E & W1 & WO1 & MK1).
  exists F, (r <| r_src := SFile f' |>). split; [|split].
  - intro extra. unfold r_triggerReload. rewrite SF, E. reflexivity.
  - destruct WK as (_ & IS & _). auto.
  - exists f'. auto.
Qed.

(* An invariant of the window positions between updates of the admitted sizes *)
Variables (OK : nat -> Prop) (G : nat -> Z -> Prop).
Hypothesis PRES : forall k a n, G k a -> OK n -> forall b, fetched k n b -> exists p, slot a b p.
Hypothesis NEXT : forall k a n o, G k a -> OK n -> firsts a (fetched k n) o ->
  G (k + n)%nat (a + Z.of_nat (match o with Some d => d | None => O end)).

Lemma loop_session : forall ns k a r, Forall OK ns -> I k r -> G k a -> lwindowed a None r ->
  exists F r', serviced F r ns = Ok (blocks_spec loop_out k ns, r') /\ misses r' = 0.
Proof.
  induction ns as [|n ns IH]; intros k a r FA HI GK W.
  - exists O, r. split; [reflexivity|]. destruct W as (f & SF & W & _). unfold misses. rewrite SF. apply W.
  - inversion FA as [|? ? ON FN]; subst.
    destruct (loop_rest n a None (fun _ => False) k r HI W) as (F & r1 & o & E & HI1 & W1 & FO).
    { intros b []. } { apply PRES; auto. }
    assert (FO' : firsts a (fetched k n) o) by (eapply firsts_ext; [|exact FO]; intros b; tauto).
    destruct (loop_reload a o _ r1 HI1 W1) as (F1 & r2 & E1 & HI2 & W2).
    destruct (IH _ _ r2 FN HI2 (NEXT k a n o GK ON FO') W2) as (F2 & r3 & E2 & M3).
    exists (F + (F1 + F2))%nat, r3. split; [|auto]. cbn [serviced blocks_spec]. rewrite loop_pulls.
    assert (R : r_read (F + (F1 + F2)) r (Z.of_nat n) = Ok (pulls loop_out k n, r1)).
    { destruct WK as (N1 & _ & HW). destruct (HW k r HI) as [P _].
      unfold r_read. rewrite (pl_playing _ _ _ P). cbn [negb]. rewrite (pl_nch _ _ _ P).
      destruct (Z.ltb_spec (Z.of_nat nch) 0); [lia|].
      eapply read_loop_fuel; [| |exact E]; lia. }
    rewrite R. cbn [bind].
    replace (F + (F1 + F2))%nat with (F1 + (F + F2))%nat by lia. rewrite E1. cbn [bind].
    rewrite (serviced_fuel ns F2 (F1 + (F + F2))%nat r2 (blocks_spec loop_out (k + n) ns, r3)); [reflexivity|lia|exact E2|].
    intros x y Z. eapply (r_reload_fuel c); [|exact Z]. lia.
Qed.

End L.
