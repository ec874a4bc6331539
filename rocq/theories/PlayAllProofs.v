(* sd_play_all plays the listed files in turn (C122-C124). *)

From Coq Require Import ZArith Lia List Bool Reals Lra.
From RecordUpdate Require Import RecordUpdate.
From Verif Require Import Machine Floats FloatFacts WavModel WavSpec CacheModel CacheFacts ReaderModel ResponderModel ResponderSpec QueueProofs PlayerModel LifeSpec LifeProofs WorldProofs
  ScheduleProofs SketchModel SketchSpec SketchProofs SketchArray ManySpec ManyProofs PianoModel PianoProofs PianoQuiet PlayAllModel PlayAllSpec.
Import ListNotations.
Local Open Scope Z_scope.

(* ---- names ---- *)

Lemma starts_spec : forall pat s, starts_with pat s = true <-> exists b, s = pat ++ b.
Proof.
  induction pat as [|c pat IH]; intros s; cbn [starts_with app]; [split; eauto|].
  destruct s as [|d s]; [split; [discriminate|intros [b E]; discriminate]|].
  rewrite andb_true_iff, Z.eqb_eq, IH. split.
  - intros [-> [b ->]]. eauto.
  - intros [b E]. injection E as -> ->. eauto.
Qed.

Lemma last_from_spec : forall pat s i f, -1 <= f < i -> pat <> [] -> (0 < last_from pat s i f <-> (0 < f \/ exists a b, s = a ++ pat ++ b /\ 0 < i + Z.of_nat (length a))).
Proof.
  intros pat. induction s as [|c s IH]; intros i f F P; cbn [last_from].
  - split; [auto|]. intros [H|(a & b & E & _)]; [exact H|]. destruct a; [destruct pat; [congruence|discriminate]|discriminate].
  - assert (F2 : -1 <= (if starts_with pat (c :: s) then i else f) < i + 1) by (destruct (starts_with pat (c :: s)); lia).
    rewrite (IH _ _ F2 P). clear F2. destruct (starts_with pat (c :: s)) eqn:S.
    + apply starts_spec in S. destruct S as [b0 E0]. split.
      * intros [H|(a & b & E & L)]; [right; exists [], b0; split; [exact E0|cbn [length]; lia]|].
        right. exists (c :: a), b. split; [cbn [app]; now rewrite E|]. cbn [length]. lia.
      * intros [H|(a & b & E & L)]; [left; lia|]. destruct a as [|c2 a]; [left; cbn [length] in L; lia|].
        right. cbn [app] in E. injection E as -> E. exists a, b. split; [exact E|]. cbn [length] in L. lia.
    + split.
      * intros [H|(a & b & E & L)]; [auto|]. right. exists (c :: a), b. split; [cbn [app]; now rewrite E|]. cbn [length]. lia.
      * intros [H|(a & b & E & L)]; [auto|]. right. destruct a as [|c2 a].
        -- cbn [app] in E. assert (T : starts_with pat (c :: s) = true) by (apply starts_spec; eauto). congruence.
        -- cbn [app] in E. injection E as -> E. exists a, b. split; [exact E|]. cbn [length] in L. lia.
Qed.
Lemma last_spec : forall pat s, pat <> [] -> (0 <? lastIndexOf s pat = true <-> exists a b, a <> [] /\ s = a ++ pat ++ b).
Proof.
  intros pat s P. unfold lastIndexOf. rewrite Z.ltb_lt, last_from_spec by (try exact P; lia). split.
  - intros [H|(a & b & E & L)]; [lia|]. exists a, b. split; [destruct a; [cbn in L; lia|discriminate]|exact E].
  - intros (a & b & A & E). right. exists a, b. split; [exact E|]. destruct a; [congruence|cbn [length]; lia].
Qed.
Lemma first_pos : forall pat s i, 0 <= i -> first_from pat s i = -1 \/ i <= first_from pat s i.
Proof.
  intros pat. induction s as [|c s IH]; intros i I; cbn [first_from]; [auto|]. destruct (starts_with pat (c :: s)); [lia|]. destruct (IH (i + 1)); lia.
Qed.
Lemma first_spec : forall c s, indexOf s [c] =? 0 = true <-> exists b, s = c :: b.
Proof.
  intros c s. unfold indexOf. destruct s as [|d s]; cbn [first_from]; [split; [discriminate|intros [b E]; discriminate]|].
  cbn [starts_with]. rewrite andb_true_r. destruct (Z.eqb_spec c d) as [->|N]; [split; eauto|].
  pose proof (first_pos [c] s (0 + 1) ltac:(lia)) as H. rewrite Z.eqb_eq. split; [lia|]. intros [b E]. injection E as E _. congruence.
Qed.

Theorem listed_spec : forall e, listed e = true <-> wanted (en_name e).
Proof.
  intros e. unfold listed, wanted. rewrite andb_true_iff, orb_true_iff, negb_true_iff, !last_spec by discriminate. split.
  - intros [L N]. split.
    + destruct L as [(a & b & A & E)|(a & b & A & E)]; exists a, b; auto.
    + intros Q. apply (first_spec 95) in Q. unfold underscore in N. congruence.
  - intros [(a & b & A & [E|E]) N]; (split; [first [left; now exists a, b|right; now exists a, b]|]);
    (destruct (indexOf (en_name e) underscore =? 0) eqn:Q; [|reflexivity]); elim N; apply (first_spec 95); exact Q.
Qed.

(* ---- the list of names ---- *)

Lemma picks_filter : forall d ws, picks d ws <-> ws = filter listed d.
Proof.
  intros d. induction d as [|e d IH]; intros ws; cbn [filter].
  - split; [intros H; inversion H; reflexivity|intros ->; constructor].
  - split.
    + intros H. inversion H as [|e1 d1 ws1 W P|e1 d1 ws1 W P]; subst; apply IH in P.
      * apply listed_spec in W. rewrite W. now f_equal.
      * destruct (listed e) eqn:L; [apply listed_spec in L; contradiction|exact P].
    + intros ->. destruct (listed e) eqn:L.
      * apply pk_take; [now apply listed_spec|now apply IH].
      * apply pk_skip; [intros W; apply listed_spec in W; congruence|now apply IH].
Qed.

Lemma count_spec : forall d n, 0 <= n < 2 ^ 16 -> count_files d n = (n + Z.of_nat (length (filter listed d))) mod 2 ^ 16.
Proof.
  induction d as [|e d IH]; intros n B; cbn [count_files filter].
  - cbn [length]. rewrite Z.add_0_r, Z.mod_small by exact B. reflexivity.
  - destruct (listed e); cbn [length]; [|now apply IH]. unfold u16. rewrite IH by (apply Z.mod_pos_bound; lia). rewrite Z.add_mod_idemp_l by lia. f_equal. lia.
Qed.

Definition named (d : list entry) (k : Z) (names : Z -> list Z) (names' : Z -> list Z) : Prop :=
  forall i, names' i = match nth_error (filter listed d) (Z.to_nat (i - k)) with Some e => if 0 <=? i - k then en_name e else names i | None => names i end.
Lemma populate_ok : forall size d k names, 0 <= k -> k + Z.of_nat (length (filter listed d)) <= size -> size < 2 ^ 16 ->
  exists names', populate size d k names = Ok names' /\ named d k names names'.
Proof.
  intros size. induction d as [|e d IH]; intros k names K S B; cbn [populate].
  - exists names. split; [reflexivity|]. intros i. cbn [filter]. destruct (Z.to_nat (i - k)); reflexivity.
  - unfold named. cbn [filter] in *. destruct (listed e); [|exact (IH k names K S B)].
    cbn [length] in S. rewrite at_index_in by lia. cbn [bind]. unfold u16. rewrite Z.mod_small by lia.
    destruct (IH (k + 1) (upd names k (en_name e)) ltac:(lia) ltac:(lia) B) as (names' & E & N). exists names'. split; [exact E|].
    intros i. rewrite (N i). unfold upd. destruct (Z.lt_trichotomy i k) as [L|[->|L]].
    + replace (Z.to_nat (i - (k + 1))) with O by lia. replace (Z.to_nat (i - k)) with O by lia. cbn [nth_error].
      destruct (Z.leb_spec 0 (i - (k + 1))); [lia|]. destruct (Z.leb_spec 0 (i - k)); [lia|]. destruct (Z.eqb_spec i k); [lia|].
      destruct (filter listed d); reflexivity.
    + replace (Z.to_nat (k - (k + 1))) with O by lia. replace (Z.to_nat (k - k)) with O by lia. cbn [nth_error].
      destruct (Z.leb_spec 0 (k - (k + 1))); [lia|]. destruct (Z.leb_spec 0 (k - k)); [|lia]. rewrite Z.eqb_refl. destruct (filter listed d); reflexivity.
    + replace (Z.to_nat (i - k)) with (Datatypes.S (Z.to_nat (i - (k + 1)))) by lia. cbn [nth_error]. destruct (Z.eqb_spec i k); [lia|].
      destruct (Z.leb_spec 0 (i - (k + 1))); [|lia]. destruct (Z.leb_spec 0 (i - k)); [|lia]. reflexivity.
Qed.
Lemma populate_over : forall size d k names, 0 <= k <= size -> size < k + Z.of_nat (length (filter listed d)) -> size < 2 ^ 16 ->
  populate size d k names = UB UbOutOfBounds.
Proof.
  intros size. induction d as [|e d IH]; intros k names K S B; cbn [populate filter length] in *; [lia|].
  destruct (listed e); [|now apply IH]. cbn [length] in S. unfold at_index. destruct (Z.leb_spec 0 k); [|lia]. destruct (Z.ltb_spec k size) as [L|L]; cbn [andb bind]; [|reflexivity].
  unfold u16. rewrite Z.mod_small by lia. apply IH; lia.
Qed.

Lemma same_spec : forall a b, same_name a b = true <-> a = b.
Proof.
  induction a as [|x a IH]; intros [|y b]; cbn [same_name]; split; try discriminate; auto.
  - rewrite andb_true_iff, Z.eqb_eq, IH. intros [-> ->]. reflexivity.
  - intros E. injection E as -> ->. rewrite Z.eqb_refl. cbn [andb]. now apply IH.
Qed.
Lemma open_spec : forall d e, NoDup (map en_name d) -> In e d -> open_name d (en_name e) = Some (en_file e).
Proof.
  induction d as [|e1 d IH]; intros e N I; [contradiction|]. cbn [open_name]. inversion N as [|? ? NI N2]; subst. cbn [map] in *.
  destruct (same_name (en_name e1) (en_name e)) eqn:S.
  - apply same_spec in S. destruct I as [->|I]; [reflexivity|]. elim NI. rewrite S. now apply in_map.
  - destruct I as [->|I]; [|now apply IH]. assert (T : same_name (en_name e) (en_name e) = true) by (now apply same_spec). congruence.
Qed.
Lemma open_any : forall d name fl, open_name d name = Some fl -> exists e, In e d /\ en_name e = name /\ en_file e = fl.
Proof.
  induction d as [|e d IH]; intros name fl E; [discriminate|]. cbn [open_name] in E. destruct (same_name (en_name e) name) eqn:S.
  - injection E as <-. apply same_spec in S. exists e. cbn. auto.
  - destruct (IH _ _ E) as (e2 & I & H). exists e2. split; [now right|exact H].
Qed.

(* ---- the passes ---- *)

Lemma upper_onwards : forall p, upper p -> onwards (pot_rate p).
Proof.
  intros p U. destruct (pot_upper p U) as [F [A B]]. split; [exact F|]. assert (E : IZR (2 ^ 26) = 67108864%R) by reflexivity. rewrite E. lra.
Qed.

Section Passes.
Variables (dir ws : list entry).
Hypotheses (DO : dir_ok dir) (PK : ws = filter listed dir) (N1 : (1 <= length ws)%nat) (N2 : Z.of_nat (length ws) < 2 ^ 16).
Let kinds := fun _ : nat => KSd.
Let KF : forall i, kinds i <> KArray. Proof. intros i. discriminate. Qed.
Let n := Z.of_nat (length ws).

(* After k tries *)
Definition after (k : nat) (s : pall) : Prop :=
  fleet kinds 0 (pa_world s) /\ pa_count s = n /\ pa_index s = Z.of_nat (k mod length ws) /\ named dir 0 (fun _ => []) (pa_names s).

Lemma opened : forall k s, after k s -> open_name dir (pa_names s (pa_index s)) = in_turn ws k /\ forall fl, in_turn ws k = Some fl -> wav_any fl.
Proof.
  intros k s (_ & _ & I & N). pose proof (Nat.mod_upper_bound k (length ws) ltac:(lia)) as M.
  destruct (nth_error ws (k mod length ws)) as [e|] eqn:E; [|apply nth_error_None in E; lia].
  pose proof (nth_error_In _ _ E) as IN. rewrite PK in IN. apply filter_In in IN. destruct IN as [IN LI].
  unfold in_turn. rewrite E. cbn [option_map]. split.
  - rewrite (N (pa_index s)), I, Z.sub_0_r, Nat2Z.id, <- PK, E. destruct (Z.leb_spec 0 (Z.of_nat (k mod length ws))); [|lia]. apply open_spec; [apply DO|exact IN].
  - intros fl Q. injection Q as <-. destruct DO as [_ A]. rewrite Forall_forall in A. apply (A e IN). now apply listed_spec.
Qed.

Lemma pass_turn : forall t k s, apass_ok upper t -> after k s ->
  exists tried s' m, total (fun f => all_pass dir f t s) (tried, s') /\ after (k + m) s' /\ tried = map (in_turn ws) (seq k m).
Proof.
  intros t k s [U BS] A. pose proof A as (G & C & I & N). unfold all_pass.
  destruct (fleet_ops kinds KF (bg_ops (ap_gap t 0) ++ [WCall 0 (CRate (pot_rate (ap_pot t)))] ++ bg_ops (ap_gap t 1)) (pa_world s)) as (x1 & w1 & T1 & G1).
  { apply Forall_app. split; [apply bg_mild|]. constructor; [apply upper_onwards; exact U|apply bg_mild]. }
  { exact G. }
  assert (E3 : forall w, fleet kinds 0 w -> exists xs w', total (fun f => wops f (bg_ops (ap_gap t 2) ++ [WYield]) w) (xs, w') /\ fleet kinds 0 w').
  { intros w H. apply (fleet_ops kinds KF); [|exact H]. apply Forall_app. split; [apply bg_mild|constructor; [exact Logic.I|constructor]]. }
  destruct ((u32 (pa_last s + 1000) <? ap_now t) && negb (r_playing (w_rd w1 0))) eqn:D.
  - destruct (opened k s A) as [OP WA]. pose proof (Nat.mod_upper_bound k (length ws) ltac:(lia)) as M.
    destruct (fleet_ops kinds KF [WPlayFile 0 (in_turn ws k) true 0 (ap_stack t) (ap_garbage t)] w1) as (x2 & w2 & T2 & G2).
    { constructor; [|constructor]. split; [exact BS|]. split; [discriminate|]. exact WA. }
    { exact G1. }
    destruct (E3 w2 G2) as (x3 & w3 & T3 & G3).
    do 2 eexists. exists 1%nat. split.
    { eapply total_bind; [exact T1|]. cbv beta iota. rewrite D, OP. cbv zeta. rewrite C, I. rewrite at_index_in by (unfold n; lia). cbn [bind].
      destruct (Z.eqb_spec n 0); [unfold n in *; lia|].
      eapply total_bind; [eapply total_bind; [exact T2|]; apply total_ok|]. cbv beta iota. eapply total_bind; [exact T3|]. apply total_ok. }
    split; [|reflexivity]. split; [exact G3|]. split; [exact C|]. split; [|exact N]. cbn [pa_index set].
    unfold u16. rewrite (Z.mod_small _ (2 ^ 16)) by lia. unfold n. change 1 with (Z.of_nat 1). rewrite <- Nat2Z.inj_add, <- Nat2Z.inj_mod.
    f_equal. rewrite Nat.add_mod_idemp_l by lia. reflexivity.
  - destruct (E3 w1 G1) as (x3 & w3 & T3 & G3). do 2 eexists. exists O. split.
    { eapply total_bind; [exact T1|]. cbv beta iota. rewrite D. cbn [bind]. eapply total_bind; [exact T3|]. apply total_ok. }
    split; [|reflexivity]. rewrite Nat.add_0_r. split; [exact G3|]. split; [exact C|]. split; [exact I|exact N].
Qed.

Lemma passes_turn : forall l k s, Forall (apass_ok upper) l -> after k s ->
  exists tried s' m, total (fun f => all_passes dir f l s) (tried, s') /\ tried = map (in_turn ws) (seq k m).
Proof.
  induction l as [|t l IH]; intros k s PA A; [exists [], s, O; split; [apply total_ok|reflexivity]|].
  inversion PA as [|? ? P1 P2]; subst. destruct (pass_turn t k s P1 A) as (a & s1 & m1 & T1 & A1 & E1). destruct (IH _ s1 P2 A1) as (b & s2 & m2 & T2 & E2).
  exists (a ++ b), s2, (m1 + m2)%nat. split.
  - cbn [all_passes]. eapply total_bind; [exact T1|]. cbv beta iota. eapply total_bind; [exact T2|]. apply total_ok.
  - rewrite E1, E2, seq_app, map_app. reflexivity.
Qed.
End Passes.

Lemma setup_total : forall flags analog, 0 <= flags < 256 -> upper analog ->
  exists xs w, total (fun f => wops f [WCall 0 (CInterp IQuadratic); WCall 0 (CRate (pot_rate analog))] (world0 (fun _ => KSd) flags)) (xs, w) /\ fleet (fun _ => KSd) 0 w.
Proof.
  intros flags analog FL U. destruct (fleet_ops (fun _ => KSd) (fun _ => ltac:(discriminate)) [WCall 0 (CInterp IQuadratic); WCall 0 (CRate (pot_rate analog))] (world0 (fun _ => KSd) flags)) as (xs & w & T & G).
  - constructor; [exact I|]. constructor; [apply upper_onwards; exact U|constructor].
  - split; [|intros i; apply m_new]. exists (fun _ => false), [], flags. split; [apply yinv0|repeat split; auto; try apply FL; cbn; intros; lia].
  - exists xs, w. split; [exact T|exact G].
Qed.

Theorem all_in_turn : forall dir ws flags analog l, dir_ok dir -> picks dir ws -> (1 <= length ws)%nat -> Z.of_nat (length ws) < 2 ^ 16 -> 0 <= flags < 256 -> upper analog ->
  Forall (apass_ok upper) l -> exists F s m, forall fuel, (F <= fuel)%nat -> play_all dir fuel flags analog l = Ok (map (in_turn ws) (seq 0 m), s).
Proof.
  intros dir ws flags analog l DO PK N1 N2 FL U PA. apply picks_filter in PK.
  destruct (setup_total flags analog FL U) as (xs & w & T & G).
  destruct (populate_ok (Z.of_nat (length ws)) dir 0 (fun _ => []) ltac:(lia) ltac:(rewrite <- PK; lia) N2) as (names & EP & NM).
  assert (C : count_files dir 0 = Z.of_nat (length ws)) by (rewrite count_spec, <- PK, Z.add_0_l, Z.mod_small by lia; reflexivity).
  destruct (passes_turn dir ws DO PK N1 N2 l 0 (mkPall w (Z.of_nat (length ws)) names 0 0) PA) as (tried & s & m & T2 & E).
  { split; [exact G|]. split; [reflexivity|]. split; [|exact NM]. rewrite Nat.mod_0_l by lia. reflexivity. }
  assert (Q : total (fun f => play_all dir f flags analog l) (tried, s)).
  { unfold play_all, all_setup. eapply total_bind; [|exact T2]. eapply total_bind; [exact T|]. cbv beta iota zeta. rewrite C, EP. apply total_ok. }
  destruct Q as [F Q]. subst tried. exists F, s, m. exact Q.
Qed.

(* 65536 files or more: undefined in setup() *)
Theorem all_too_many : forall dir ws flags analog l, picks dir ws -> 2 ^ 16 <= Z.of_nat (length ws) -> 0 <= flags < 256 -> upper analog ->
  exists F, forall fuel, (F <= fuel)%nat -> play_all dir fuel flags analog l = UB UbOutOfBounds.
Proof.
  intros dir ws flags analog l PK N FL U. apply picks_filter in PK. destruct (setup_total flags analog FL U) as (xs & w & [F T] & _). exists F. intros f L.
  unfold play_all, all_setup. rewrite T by exact L. cbn [bind]. cbv zeta. rewrite count_spec, <- PK, Z.add_0_l by lia.
  pose proof (Z.mod_pos_bound (Z.of_nat (length ws)) (2 ^ 16) ltac:(lia)) as M. rewrite populate_over; [reflexivity|lia| |lia].
  rewrite <- PK, Z.add_0_l. lia.
Qed.

(* No file: undefined as soon as a second has passed *)
Theorem all_none : forall dir flags analog t l, picks dir [] -> 0 <= flags < 256 -> upper analog -> upper (ap_pot t) -> 1000 < ap_now t ->
  exists F, forall fuel, (F <= fuel)%nat -> play_all dir fuel flags analog (t :: l) = UB UbOutOfBounds.
Proof.
  intros dir flags analog t l PK FL U UT NOW. apply picks_filter in PK. destruct (setup_total flags analog FL U) as (xs & w & [F1 T1] & G).
  destruct (fleet_ops (fun _ => KSd) (fun _ => ltac:(discriminate)) (bg_ops (ap_gap t 0) ++ [WCall 0 (CRate (pot_rate (ap_pot t)))] ++ bg_ops (ap_gap t 1)) w) as (x2 & w2 & [F2 T2] & _).
  { apply Forall_app. split; [apply bg_mild|]. constructor; [apply upper_onwards; exact UT|apply bg_mild]. }
  { exact G. }
  assert (R : reach flags (world0 (fun _ => KSd) flags)) by constructor.
  pose proof (T1 F1 (le_n _)) as E1. pose proof (T2 F2 (le_n _)) as E2.
  assert (C1 : Forall (calm 0) [WCall 0 (CInterp IQuadratic); WCall 0 (CRate (pot_rate analog))]) by (constructor; [exact I|constructor; [exact I|constructor]]).
  assert (C2 : Forall (calm 0) (bg_ops (ap_gap t 0) ++ [WCall 0 (CRate (pot_rate (ap_pot t)))] ++ bg_ops (ap_gap t 1))).
  { apply Forall_app. split; [apply bg_calm|]. constructor; [exact I|apply bg_calm]. }
  pose proof (ops_stopped _ _ _ _ _ _ _ R C1 eq_refl E1) as P1. pose proof (ops_reach _ _ _ _ _ _ R (calm_arrayless _ _ C1) E1) as R1.
  pose proof (ops_stopped _ _ _ _ _ _ _ R1 C2 P1 E2) as P2.
  exists (F1 + F2)%nat. intros f L. unfold play_all, all_setup. rewrite T1 by lia. cbn [bind]. cbv zeta.
  rewrite count_spec, <- PK by lia. cbn [length]. change ((0 + Z.of_nat 0) mod 2 ^ 16) with 0.
  destruct (populate_ok 0 dir 0 (fun _ => []) ltac:(lia) ltac:(rewrite <- PK; cbn; lia) ltac:(lia)) as (names & -> & _). cbn [bind all_passes].
  unfold all_pass. cbn [pa_world]. rewrite T2 by lia. cbn [bind pa_last pa_count pa_index]. rewrite P2.
  change (u32 (0 + 1000)) with 1000. destruct (Z.ltb_spec 1000 (ap_now t)); [|lia]. reflexivity.
Qed.
