(* Endless walks over the buffered blocks of a ping-pong loop. *)

From Coq Require Import ZArith Lia List Bool Reals Lra.
From RecordUpdate Require Import RecordUpdate.
From Flocq Require Import Core.Core IEEE754.BinarySingleNaN.
From Verif Require Import Machine Floats FloatFacts WavModel InterpModel CacheModel ReaderModel
  ReaderFacts ReaderSpec Sessions Walk CacheFacts CacheSpec CacheProofs FileSpec WindowProofs FileProofs LoopWindow LoopFile PongWindow.
Import ListNotations.
Local Open Scope Z_scope.

Section L.
Variables (c : ccfg) (fl : file) (h : Z) (nch : nat) (LS LX : Z).
Hypothesis C : cfg_ok c.
Hypothesis FS : fsize fl <= 2 ^ 31.

Let first i := h + i * Z.of_nat nch.

Definition pwindowed (e d : Z) (o : option nat) (lr : bool) (pv : b32) (r : reader) : Prop :=
  exists f, r_src r = SFile f /\ pwin c fl LS LX e d f /\ pwin_ok c e d /\ marks o f /\ last_read f = lr /\ i_prev f = pv.

(* Block b is in buffer number p *)
Definition place (e d b : Z) (p : nat) : Prop := (p < c_nbuf c)%nat /\ e + d * Z.of_nat p = b.

(* o is the first buffer used by the lookups of the blocks in the set Q, lr tells
   whether the last buffer is used *)
Definition pfirsts (e d : Z) (Q : Z -> Prop) (o : option nat) (lr : bool) : Prop :=
  (lr = true <-> Q (e + d * (Z.of_nat (c_nbuf c) - 1))) /\
  match o with
  | None => forall b, ~ Q b
  | Some u => (u < c_nbuf c)%nat /\ (forall b p, Q b -> place e d b p -> (u <= p)%nat) /\ Q (e + d * Z.of_nat u)
  end.

Lemma pfirsts_add : forall e d Q o lr b p, direction d -> pfirsts e d Q o lr -> place e d b p ->
  pfirsts e d (fun x => Q x \/ x = b) (Some (first_use o p)) (lr || (p =? c_nbuf c - 1)%nat).
Proof.
  intros e d Q o lr b p HD [HL H] [PL PE]. split.
  - rewrite orb_true_iff, HL, Nat.eqb_eq. assert (NB : (1 <= c_nbuf c)%nat) by apply C. split; intros [Y|Y]; auto.
    + right. rewrite <- PE, Y. rewrite Nat2Z.inj_sub by lia. ring.
    + right. destruct HD as [-> | ->]; lia.
  - unfold first_use. destruct o as [u|].
    + destruct H as (UL & H1 & H2). split; [lia|]. split.
      * intros b' p' [QB| ->] P'; [pose proof (H1 _ _ QB P'); lia|]. destruct P' as [_ P']. destruct HD as [-> | ->]; lia.
      * destruct (Nat.le_gt_cases u p); [rewrite Nat.min_l by auto; auto|]. rewrite Nat.min_r by lia. auto.
    + split; [lia|]. split; [|auto].
      intros b' p' [QB| ->] P'; [destruct (H _ QB)|]. destruct P' as [_ P']. destruct HD as [-> | ->]; lia.
Qed.

Lemma pfirsts_ext : forall e d Q Q' o lr, (forall b, Q b <-> Q' b) -> pfirsts e d Q o lr -> pfirsts e d Q' o lr.
Proof.
  intros e d Q Q' o lr E [HL H]. split; [now rewrite HL|]. destruct o as [u|].
  - destruct H as (UL & H1 & H2). split; [auto|]. split; [|now apply E].
    intros b' p QB. apply H1. now apply E.
  - intros b QB. apply (H b). now apply E.
Qed.

Lemma pong_fetch : forall todo e d o lr pv Q r s ch, pwindowed e d o lr pv r -> pfirsts e d Q o lr ->
  frame_file fl nch s -> (ch + todo <= nch)%nat ->
  (forall k, (ch <= k < ch + todo)%nat -> exists p, place e d (blk c (s + Z.of_nat k)) p) ->
  exists f' o' lr', fetch_frame todo s (Z.of_nat ch) r =
     Ok (map (fun k => file_sample fl (s + Z.of_nat k)) (seq ch todo), r <| r_src := SFile f' |>) /\
     pwindowed e d o' lr' pv (r <| r_src := SFile f' |>) /\
     pfirsts e d (fun b => Q b \/ exists k, (ch <= k < ch + todo)%nat /\ b = blk c (s + Z.of_nat k)) o' lr'.
Proof.
  induction todo as [|todo IH]; intros e d o lr pv Q r s ch W FO [F0 F1] T PR.
  - destruct W as (f & SF & W). exists f, o, lr. rewrite <- SF, set_src_id. split; [reflexivity|]. split; [exists f; auto|].
    eapply pfirsts_ext; [|exact FO]. intros b. split; [auto|]. intros [H|(k & K & _)]; [auto|lia].
  - destruct W as (f & SF & W & WO & MK & LR & PV). cbn [fetch_frame seq map].
    unfold getAt. rewrite Z.mul_0_l, Z.add_0_r.
    rewrite chk32_ok by (unfold in_s32; lia). cbn [bind].
    rewrite chk32_ok by (unfold in_s32; lia). cbn [bind].
    unfold getSourceBufferValue. rewrite SF.
    destruct (PR ch ltac:(lia)) as (p & SP). pose proof (proj1 WO) as HD.
    destruct (pwin_get c fl LS LX e d f (s + Z.of_nat ch) o p C FS W HD MK) as (f1 & E & W1 & MK1 & LR1 & PV1); auto.
    { split; lia. } { apply SP. } { apply SP. }
    rewrite E. cbn [bind].
    assert (WW : pwindowed e d (Some (first_use o p)) (lr || (p =? c_nbuf c - 1)%nat) pv (r <| r_src := SFile f1 |>)).
    { exists f1. split; [reflexivity|]. split; [auto|]. split; [auto|]. split; [auto|]. split; [|congruence]. now rewrite LR1, LR. }
    destruct (IH e d _ _ pv _ _ s (S ch) WW (pfirsts_add _ _ _ _ _ _ _ HD FO SP) (conj F0 F1) ltac:(lia)) as (f2 & o2 & lr2 & E2 & W2 & FO2).
    { intros k K. apply PR. lia. }
    replace (Z.of_nat ch + 1) with (Z.of_nat (S ch)) by lia. rewrite E2. cbn [bind].
    rewrite set_src_src in *. exists f2, o2, lr2. split; [reflexivity|]. split; [auto|].
    eapply pfirsts_ext; [|exact FO2]. intros b. split.
    + intros [[H| -> ]|(k & K & -> )]; [auto|right; exists ch; split; [lia|auto]|right; exists k; split; [lia|auto]].
    + intros [H|(k & K & -> )]; [auto|]. destruct (Nat.eq_dec k ch); [subst; auto|right; exists k; split; [lia|auto]].
Qed.

Variables (I : nat -> reader -> Prop) (ix : nat -> Z).
Hypothesis WK : walk h nch I (fun k => Some (ix k)).
Hypothesis INF : forall k, frame_file fl nch (first (ix k)).

Notation fetched := (fetched c h nch ix).

Lemma pong_step : forall e d o lr pv Q k r, I k r -> pwindowed e d o lr pv r -> pfirsts e d Q o lr ->
  (forall b, fetched k 1 b -> exists p, place e d b p) ->
  exists F r' o' lr', read_frame F r = Ok (Some (file_frame fl h nch (ix k)), r') /\ I (S k) r' /\
     pwindowed e d o' lr' pv r' /\ pfirsts e d (fun b => Q b \/ fetched k 1 b) o' lr'.
Proof.
  intros e d o lr pv Q k r HI W FO PR. destruct WK as (N1 & IS & HW).
  destruct (HW k r HI) as [P W'].
  destruct W' as (n & r2 & r3 & SS & P2 & HP & AD & HI3).
  assert (W2 : pwindowed e d o lr pv r2).
  { destruct W as (f & SF & W). exists f. split; [|exact W]. rewrite (settles_keeps _ _ _ SS). exact SF. }
  destruct (pong_fetch nch e d o lr pv Q r2 (first (ix k)) 0%nat W2 FO (INF k) ltac:(lia)) as (f' & o' & lr' & EF & WF & FO').
  { intros ch K. apply PR. exists k, ch. repeat split; lia. }
  exists (S n), (r3 <| r_src := SFile f' |>), o', lr'. split; [|split; [|split]].
  - rewrite (plain_frame h nch r r2 n) by (auto; apply P).
    rewrite HP. fold (first (ix k)). change (Z.of_nat 0) with 0 in EF. rewrite EF. cbn [bind]. rewrite advance_src, AD. cbn [bind]. reflexivity.
  - apply IS, HI3.
  - destruct WF as (f & SF & WF). exists f. split; [|exact WF]. exact SF.
  - eapply pfirsts_ext; [|exact FO']. intros b. split; (intros [H|H]; [auto|right]).
    + destruct H as (ch & K & -> ). exists k, ch. repeat split; lia.
    + destruct H as (k' & ch & K & L & -> ). exists ch. replace k' with k by lia. split; [lia|auto].
Qed.

Notation loop_out := (loop_out fl h nch ix).

Lemma pong_rest : forall n e d o lr pv Q k r, I k r -> pwindowed e d o lr pv r -> pfirsts e d Q o lr ->
  (forall b, fetched k n b -> exists p, place e d b p) ->
  exists F r' o' lr', read_loop F F r (Z.of_nat n) = Ok (pulls loop_out k n, r') /\
    I (k + n)%nat r' /\ pwindowed e d o' lr' pv r' /\ pfirsts e d (fun b => Q b \/ fetched k n b) o' lr'.
Proof.
  induction n as [|n IH]; intros e d o lr pv Q k r HI W FO PR.
  - exists O, r, o, lr. cbn. rewrite Nat.add_0_r. split; [auto|]. split; [auto|]. split; [auto|].
    eapply pfirsts_ext; [|exact FO]. intros b. split; [auto|]. intros [H|(k' & ch & K & _)]; [auto|lia].
  - destruct (pong_step e d o lr pv Q k r HI W FO) as (F & r1 & o1 & lr1 & EF & HI1 & W1 & FO1).
    { intros b (k' & ch & K & L & E). apply PR. exists k', ch. repeat split; auto; lia. }
    destruct (IH e d o1 lr1 pv _ (S k) r1 HI1 W1 FO1) as (F2 & r2 & o2 & lr2 & E2 & HI2 & W2 & FO2).
    { intros b (k' & ch & K & L & E). apply PR. exists k', ch. repeat split; auto; lia. }
    exists (S (F + F2)), r2, o2, lr2. cbn [read_loop pulls]. unfold LoopFile.loop_out at 1.
    destruct (Z.leb_spec (Z.of_nat (S n)) 0); [lia|].
    rewrite (read_frame_fuel F (S (F + F2)) r _ ltac:(lia) EF). cbn [bind].
    destruct WK as (N1 & _ & HW). destruct (HW k r HI) as [P _].
    destruct (Z.eqb_spec (r_nch r) 0) as [Z0|]; [rewrite (pl_nch _ _ _ P) in Z0; lia|].
    replace (Z.of_nat (S n) - 1) with (Z.of_nat n) by lia.
    rewrite (read_loop_fuel F2 (S (F + F2)) F2 (F + F2) r1 _ _ ltac:(lia) ltac:(lia) E2).
    cbn [bind]. split; [reflexivity|]. replace (k + S n)%nat with (S k + n)%nat by lia. split; [auto|]. split; [auto|].
    eapply pfirsts_ext; [|exact FO2]. intros b. split.
    + intros [[HQ|(k' & ch & K & L & E)]|(k' & ch & K & L & E)]; [auto| |]; right; exists k', ch; repeat split; auto; lia.
    + intros [HQ|(k' & ch & K & L & E)]; [auto|].
      destruct (Nat.eq_dec k' k); [left; right|right]; exists k', ch; repeat split; auto; lia.
Qed.

(* An invariant between updates of the admitted sizes, and what a reload does *)
Variables (OK : nat -> Prop) (G : nat -> Z -> Z -> b32 -> Prop).
Hypothesis PRES : forall k e d pv n, G k e d pv -> OK n -> forall b, fetched k n b -> exists p, place e d b p.
Hypothesis NEXT : forall k e d pv n o lr r f, G k e d pv -> OK n -> I (k + n)%nat r ->
  pwin c fl LS LX e d f -> pwin_ok c e d -> marks o f -> last_read f = lr -> i_prev f = pv -> pfirsts e d (fetched k n) o lr ->
  exists F f' e' d', (forall extra, triggerReload (F + extra) f (f_of_d (r_rate r)) = Ok f') /\
    pwin c fl LS LX e' d' f' /\ pwin_ok c e' d' /\ marks None f' /\ last_read f' = false /\ G (k + n)%nat e' d' (i_prev f').

Lemma pong_session : forall ns k e d pv r, Forall OK ns -> I k r -> G k e d pv -> pwindowed e d None false pv r ->
  exists F r', serviced F r ns = Ok (blocks_spec loop_out k ns, r') /\ misses r' = 0.
Proof.
  induction ns as [|n ns IH]; intros k e d pv r FA HI GK W.
  - exists O, r. split; [reflexivity|]. destruct W as (f & SF & W & _). unfold misses. rewrite SF. apply W.
  - inversion FA as [|? ? ON FN]; subst.
    destruct (pong_rest n e d None false pv (fun _ => False) k r HI W) as (F & r1 & o & lr & E & HI1 & W1 & FO).
    { split; [split; [discriminate|tauto]|]. intros b []. } { apply (PRES k e d pv); auto. }
    assert (FO' : pfirsts e d (fetched k n) o lr) by (eapply pfirsts_ext; [|exact FO]; intros b; tauto).
    destruct W1 as (f & SF & WW & WO & MK & LR & PV).
    destruct (NEXT k e d pv n o lr r1 f GK ON HI1 WW WO MK LR PV FO') as (F1 & f' & e' & d' & E1 & W2 & WO2 & MK2 & LR2 & G2).
    assert (HI2 : I (k + n)%nat (r1 <| r_src := SFile f' |>)) by (destruct WK as (_ & IS & _); auto).
    destruct (IH (k + n)%nat e' d' (i_prev f') (r1 <| r_src := SFile f' |>) FN HI2 G2) as (F2 & r3 & E2 & M3).
    { exists f'. split; [reflexivity|]. auto. }
    exists (F + (F1 + F2))%nat, r3. split; [|auto]. cbn [serviced blocks_spec]. rewrite loop_pulls.
    assert (R : r_read (F + (F1 + F2)) r (Z.of_nat n) = Ok (pulls loop_out k n, r1)).
    { destruct WK as (N1 & _ & HW). destruct (HW k r HI) as [P _].
      unfold r_read. rewrite (pl_playing _ _ _ P). cbn [negb]. rewrite (pl_nch _ _ _ P).
      destruct (Z.ltb_spec (Z.of_nat nch) 0); [lia|].
      eapply read_loop_fuel; [| |exact E]; lia. }
    rewrite R. cbn [bind].
    assert (RL : r_triggerReload (F + (F1 + F2)) r1 = Ok (r1 <| r_src := SFile f' |>)).
    { replace (F + (F1 + F2))%nat with (F1 + (F + F2))%nat by lia. unfold r_triggerReload. rewrite SF, E1. reflexivity. }
    rewrite RL. cbn [bind].
    rewrite (serviced_fuel ns F2 (F + (F1 + F2))%nat (r1 <| r_src := SFile f' |>) (blocks_spec loop_out (k + n) ns, r3));
      [reflexivity|lia|exact E2|].
    intros x y Z. eapply (r_reload_fuel c); [|exact Z]. lia.
Qed.

End L.
