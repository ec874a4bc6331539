(* Forward playback from files while reloads are interrupted by updates *)

From Coq Require Import ZArith Lia List Bool Reals Lra.
From RecordUpdate Require Import RecordUpdate.
From Flocq Require Import Core.Core IEEE754.BinarySingleNaN.
From Verif Require Import Machine Floats FloatFacts WavModel InterpModel CacheModel ReaderModel
  ReaderFacts ReaderSpec Sessions Walk CacheFacts CacheSpec CacheProofs FileSpec WindowProofs FileProofs
  RaceModel RaceProofs RaceSpec RaceCache RacePlay.
Import ListNotations.
Local Open Scope Z_scope.

Section S.
Variables (c : ccfg) (fl : file) (h : Z) (nch : nat).
Hypothesis C : cfg_ok c.
Hypothesis FS : fsize fl <= 2 ^ 31.

Let first i := h + i * Z.of_nat nch.

(* The cache part of a state: playback has got to block Q *)
Definition racing (S : bstatus -> Prop) (Q : Z) (pc : rpoint) (r : reader) : Prop :=
  exists f, r_src r = SFile f /\ ahead c fl S Q pc f.

Lemma race_fetch_rest : forall todo Q pc r s ch, racing was_read Q pc r -> frame_file fl nch s -> Q <= blk c s ->
  (ch + todo <= nch)%nat ->
  exists f' vs, fetch_frame todo s (Z.of_nat ch) r = Ok (vs, r <| r_src := SFile f' |>) /\
    racing was_read Q pc (r <| r_src := SFile f' |>) /\
    frame_gaps (misses (r <| r_src := SFile f' |>) - misses r) (map (fun k => file_sample fl (s + Z.of_nat k)) (seq ch todo)) vs.
Proof.
  induction todo as [|todo IH]; intros Q pc r s ch W [F0 F1] B0 T.
  - destruct W as (f & SF & W). exists f, []. rewrite <- SF, set_src_id. split; [reflexivity|]. split; [exists f; auto|].
    rewrite Z.sub_diag. constructor.
  - destruct W as (f & SF & W). cbn [fetch_frame seq map].
    unfold getAt. rewrite Z.mul_0_l, Z.add_0_r.
    rewrite chk32_ok by (unfold in_s32; lia). cbn [bind].
    rewrite chk32_ok by (unfold in_s32; lia). cbn [bind].
    unfold getSourceBufferValue. rewrite SF.
    assert (IN : in_file fl (s + Z.of_nat ch)) by (split; lia).
    assert (QI : Q <= blk c (s + Z.of_nat ch)) by (pose proof (blk_mono c C s (s + Z.of_nat ch) ltac:(lia)); lia).
    pose proof (ahead_value c fl C FS _ Q pc f _ W IN QI) as V.
    pose proof (ahead_later c fl Q pc f _ W IN QI) as W1.
    destruct (if_get f (s + Z.of_nat ch)) as [v f1]. cbn [fst snd] in V, W1. cbn [bind].
    assert (WW : racing was_read Q pc (r <| r_src := SFile f1 |>)) by (exists f1; auto).
    destruct (IH Q pc _ s (S ch) WW (conj F0 F1) B0 ltac:(lia)) as (f2 & vs & E2 & W2 & G2).
    replace (Z.of_nat ch + 1) with (Z.of_nat (S ch)) by lia. rewrite E2. cbn [bind].
    rewrite set_src_src in *. exists f2, (v :: vs). split; [reflexivity|]. split; [exact W2|].
    replace (misses (r <| r_src := SFile f2 |>) - misses r)
      with (i_fails f1 - i_fails f + (misses (r <| r_src := SFile f2 |>) - misses (r <| r_src := SFile f1 |>)))
      by (unfold misses; rewrite SF; cbn; lia).
    constructor; auto.
Qed.

Lemma race_fetch : forall S Q pc r s, racing S Q pc r -> (1 <= nch)%nat -> frame_file fl nch s -> Q <= blk c s ->
  exists f' vs, fetch_frame nch s 0 r = Ok (vs, r <| r_src := SFile f' |>) /\
    racing was_read (blk c s) pc (r <| r_src := SFile f' |>) /\
    frame_gaps (misses (r <| r_src := SFile f' |>) - misses r) (map (fun k => file_sample fl (s + Z.of_nat k)) (seq 0 nch)) vs.
Proof.
  intros S Q pc r s (f & SF & W) N1 [F0 F1] B0.
  enough (X : forall t, t = nch -> exists f' vs, fetch_frame t s 0 r = Ok (vs, r <| r_src := SFile f' |>) /\
    racing was_read (blk c s) pc (r <| r_src := SFile f' |>) /\
    frame_gaps (misses (r <| r_src := SFile f' |>) - misses r) (map (fun k => file_sample fl (s + Z.of_nat k)) (seq 0 t)) vs)
    by (apply X; reflexivity).
  intros [|n'] NE; [lia|]. cbn [fetch_frame seq map].
  unfold getAt. rewrite Z.mul_0_l, Z.add_0_r.
  rewrite chk32_ok by (unfold in_s32; lia). cbn [bind].
  rewrite chk32_ok by (unfold in_s32; lia). cbn [bind].
  unfold getSourceBufferValue. rewrite SF.
  assert (IN : in_file fl s) by (split; lia). change (Z.of_nat 0) with 0. rewrite Z.add_0_r.
  pose proof (ahead_value c fl C FS _ Q pc f _ W IN B0) as V.
  pose proof (ahead_first c fl C FS _ Q pc f _ W IN B0) as W1.
  destruct (if_get f s) as [v f1]. cbn [fst snd] in V, W1. cbn [bind].
  assert (WW : racing was_read (blk c s) pc (r <| r_src := SFile f1 |>)) by (exists f1; auto).
  destruct (race_fetch_rest n' _ pc _ s 1%nat WW (conj F0 F1) (Z.le_refl _) ltac:(lia)) as (f2 & vs & E2 & W2 & G2).
  change (Z.of_nat 1) with (0 + 1) in E2. rewrite E2. cbn [bind]. rewrite set_src_src in *.
  exists f2, (v :: vs). split; [reflexivity|]. split; [exact W2|].
  replace (misses (r <| r_src := SFile f2 |>) - misses r)
    with (i_fails f1 - i_fails f + (misses (r <| r_src := SFile f2 |>) - misses (r <| r_src := SFile f1 |>)))
    by (unfold misses; rewrite SF; cbn; lia).
  constructor; auto.
Qed.

Variables (I : nat -> reader -> Prop) (idx : nat -> option Z).
Hypothesis WK : walk h nch I idx.
Hypothesis FWD : forall k r, I k r -> fle f0 (f_of_d (r_rate r)) = true.
Hypothesis INF : forall k i, idx k = Some i -> frame_file fl nch (first i).
Hypothesis MONO : forall k k' i i', (k <= k')%nat -> idx k = Some i -> idx k' = Some i' -> i <= i'.

(* Nothing before block Q is fetched from frame k on *)
Definition behind (Q : Z) (k : nat) : Prop := forall k' i, (k <= k')%nat -> idx k' = Some i -> Q <= blk c (first i).

Let out : stream := fun k => option_map (file_frame fl h nch) (idx k).

Lemma race_step : forall S Q pc k r i, I k r -> racing S Q pc r -> behind Q k -> idx k = Some i ->
  exists F fr r', read_frame F r = Ok (Some fr, r') /\ I (Datatypes.S k) r' /\
     racing was_read (blk c (first i)) pc r' /\ behind (blk c (first i)) (Datatypes.S k) /\
     frame_gaps (misses r' - misses r) (file_frame fl h nch i) fr.
Proof.
  intros S Q pc k r i HI W BH E. destruct WK as (N1 & IS & HW).
  destruct (HW k r HI) as [P W']. rewrite E in W'.
  destruct W' as (n & r2 & r3 & SS & P2 & HP & AD & HI3).
  assert (W2 : racing S Q pc r2).
  { destruct W as (f & SF & W). exists f. split; [|exact W]. rewrite (settles_keeps _ _ _ SS). exact SF. }
  destruct (race_fetch S Q pc r2 (first i) W2 N1 (INF k i E) (BH k i (le_n k) E)) as (f' & vs & EF & WF & GF).
  exists (Datatypes.S n), vs, (r3 <| r_src := SFile f' |>). split; [|split; [|split; [|split]]].
  - rewrite (plain_frame h nch r r2 n) by (auto; apply P).
    rewrite HP. fold (first i). rewrite EF. cbn [bind]. rewrite advance_src, AD. cbn [bind]. reflexivity.
  - apply IS, HI3.
  - destruct WF as (f & SF & WF). exists f. split; [|exact WF]. exact SF.
  - intros k' i' K E'. apply blk_mono; [exact C|]. pose proof (MONO k k' i i' ltac:(lia) E E'). unfold first. nia.
  - unfold file_frame. fold (first i).
    replace (misses (r3 <| r_src := SFile f' |>) - misses r) with (misses (r2 <| r_src := SFile f' |>) - misses r2); [exact GF|].
    f_equal. unfold misses. now rewrite (settles_keeps _ _ _ SS).
Qed.

Definition quiet (pc : rpoint) (k : nat) (r : reader) : Prop := exists Q, racing in_use Q pc r /\ behind Q k.

Lemma race_update : forall n pc k r, I k r -> quiet pc k r ->
  exists F fs r', read_loop F F r (Z.of_nat n) = Ok (fs, r') /\
    I (k + length (pulls out k n))%nat r' /\ quiet pc (k + length (pulls out k n)) r' /\
    block_gaps (misses r' - misses r) (pulls out k n) fs.
Proof.
  induction n as [|n IH]; intros pc k r HI (Q & W & BH).
  - exists O, [], r. cbn [read_loop pulls length]. rewrite Nat.add_0_r, Z.sub_diag. repeat (split; [solve [auto]|]). split; [exists Q; auto|constructor].
  - destruct (idx k) as [i|] eqn:E.
    + destruct (race_step _ Q pc k r i HI W BH E) as (F & fr & r1 & EF & HI1 & W1 & BH1 & G1).
      destruct (IH pc (S k) r1 HI1) as (F2 & fs & r2 & E2 & HI2 & W2 & G2).
      { exists (blk c (first i)). split; [|exact BH1]. destruct W1 as (f & SF & W1). exists f. split; [exact SF|]. now apply ahead_weaken. }
      assert (OK : out k = Some (file_frame fl h nch i)) by (unfold out; now rewrite E).
      exists (S (F + F2)), (fr :: fs), r2. cbn [read_loop pulls]. rewrite OK.
      destruct (Z.leb_spec (Z.of_nat (S n)) 0); [lia|].
      rewrite (read_frame_fuel F (S (F + F2)) r _ ltac:(lia) EF). cbn [bind].
      destruct WK as (N1 & _ & HW). destruct (HW k r HI) as [P _].
      destruct (Z.eqb_spec (r_nch r) 0) as [Z0|]; [rewrite (pl_nch _ _ _ P) in Z0; lia|].
      replace (Z.of_nat (S n) - 1) with (Z.of_nat n) by lia.
      rewrite (read_loop_fuel F2 (S (F + F2)) F2 (F + F2) r1 _ _ ltac:(lia) ltac:(lia) E2).
      cbn [bind length]. split; [reflexivity|].
      replace (k + S (length (pulls out (S k) n)))%nat
        with (S k + length (pulls out (S k) n))%nat by lia. split; [exact HI2|]. split; [exact W2|].
      replace (misses r2 - misses r) with (misses r1 - misses r + (misses r2 - misses r1)) by lia. constructor; auto.
    + destruct WK as (N1 & IS & HW). destruct (HW k r HI) as [P W']. rewrite E in W'. destruct W' as (EN & L & HI2).
      assert (OK : out k = None) by (unfold out; now rewrite E).
      exists 1%nat, [], (r <| r_cfst := 0 |>). cbn [read_loop pulls]. rewrite OK.
      destruct (Z.leb_spec (Z.of_nat (S n)) 0); [lia|].
      rewrite (frame_end r 0); auto; try apply P; [|rewrite (pl_nch _ _ _ P); lia].
      cbn [bind length]. rewrite Nat.add_0_r. split; [reflexivity|]. split; [exact HI2|]. split.
      * exists Q. split; [|exact BH]. destruct W as (f & SF & W). exists f. auto.
      * change (misses (r <| r_cfst := 0 |>)) with (misses r). rewrite Z.sub_diag. constructor.
Qed.

(* The state between two steps *)
Definition at_phase (p : phase) : rpoint := match p with Some (_, _, pc) => pc | None => AtEnd end.
Definition forward_phase (p : phase) : Prop := match p with Some (x, _, _) => fle f0 x = true | None => True end.

Definition playing_on (k : nat) (s : reader * phase) : Prop :=
  I k (fst s) /\ quiet (at_phase (snd s)) k (fst s) /\ forward_phase (snd s).

Lemma race_read : forall n k s, playing_on k s -> exists F fs r', r_read F (fst s) (Z.of_nat n) = Ok (fs, r') /\
  playing_on (k + length (pulls out k n)) (r', snd s) /\ block_gaps (misses r' - misses (fst s)) (pulls out k n) fs.
Proof.
  intros n k [r p] (HI & W & FP). cbn [fst snd] in *.
  destruct (race_update n (at_phase p) k r HI W) as (F & fs & r' & E & HI' & W' & G). exists F, fs, r'.
  split; [|split; [split; [exact HI'|split; [exact W'|exact FP]]|exact G]].
  destruct WK as (N1 & _ & HW). destruct (HW k r HI) as [P _].
  unfold r_read. rewrite (pl_playing _ _ _ P). cbn [negb]. rewrite (pl_nch _ _ _ P).
  destruct (Z.ltb_spec (Z.of_nat nch) 0); [lia|]. exact E.
Qed.

Lemma race_sketch : forall s t k, cstep s None t -> playing_on k s -> playing_on k t /\ misses (fst t) = misses (fst s).
Proof.
  intros s t k H. remember (@None (nat * list (list Z))) as e. destruct H; try discriminate; intros (HI & (Q & W & BH) & FP); cbn [fst snd at_phase forward_phase] in *.
  - split; [|reflexivity]. split; [exact HI|]. destruct W as (g & SF & W). rewrite H in SF. injection SF as <-. split.
    + exists Q. split; [|exact BH]. exists f. split; [exact H|]. exact W.
    + cbn. unfold reload_rate. destruct W as (_ & L & _). rewrite L. cbn [loop_eqb andb]. eauto.
  - destruct W as (g & SF & W). rewrite H in SF. injection SF as <-.
    pose proof (step_ahead c fl C FS x pbr _ _ Q FP H0 W) as W'. cbn [fst snd] in W'.
    split.
    + split; [apply WK; exact HI|]. split; [|exact FP]. exists Q. split; [|exact BH]. exists f'. auto.
    + unfold misses. rewrite H. cbn.
      clear - H0. inversion H0; subst; try reflexivity. destruct act; reflexivity. destruct (feq _ _); reflexivity.
  - split; [|reflexivity]. split; [exact HI|]. split; [|exact Logic.I]. exists Q. auto.
Qed.

Lemma race_session : forall s ns outs t, crun s ns outs t -> forall k, playing_on k s ->
  session_gaps (misses (fst t) - misses (fst s)) (blocks_spec out k ns) outs /\
  playing_on (k + length (concat (blocks_spec out k ns))) t.
Proof.
  intros s ns outs t H. induction H as [s|s t u ns outs H H' IH|s t u n fs ns outs H H' IH]; intros k PO.
  - rewrite Z.sub_diag. cbn [blocks_spec concat length]. rewrite Nat.add_0_r. split; [constructor|exact PO].
  - destruct (race_sketch s t k H PO) as [PO' E]. rewrite <- E. auto.
  - remember (Some (n, fs)) as e. destruct H as [| | |fuel n' r p fs' r' R]; try discriminate. injection Heqe as -> ->.
    destruct (race_read n k _ PO) as (F & fs2 & r2 & E & PO' & G). cbn [fst snd] in *.
    assert (EQ : (fs2, r2) = (fs, r')).
    { apply Ok_inj. rewrite <- (r_read_fuel F (F + fuel) _ _ _ ltac:(lia) E). apply (r_read_fuel fuel (F + fuel)); [lia|exact R]. }
    injection EQ as -> ->. destruct (IH _ PO') as [G2 K2]. cbn [blocks_spec concat]. rewrite app_length, Nat.add_assoc. split; [|exact K2].
    replace (misses (fst u) - misses r) with (misses r' - misses r + (misses (fst u) - misses r')) by lia.
    constructor; auto.
Qed.

(* A reload in progress can always go on, and an update can always be made *)
Lemma race_live : forall k s, playing_on k s ->
  (forall n, exists F fs r', r_read F (fst s) (Z.of_nat n) = Ok (fs, r')) /\ exists t, cstep s None t.
Proof.
  intros k s PO. split.
  - intros n. destruct (race_read n k s PO) as (F & fs & r' & E & _). eauto.
  - destruct s as [r [[[x pbr] pc]|]]; destruct PO as (HI & (Q & (f & SF & W) & BH) & FP); cbn [fst snd at_phase forward_phase] in *.
    + destruct (ahead_goes_on c fl x pbr _ Q pc f FP W) as [->|(pc' & f' & ST)].
      * eexists. apply cs_end.
      * eexists. eapply cs_reload; eauto.
    + eexists. eapply cs_begin; eauto.
Qed.
End S.
