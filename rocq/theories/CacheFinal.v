(* Buffered files: consequences for the reader, and concrete runs. *)

From Coq Require Import ZArith Lia List Bool Reals Lra.
From RecordUpdate Require Import RecordUpdate.
From Flocq Require Import Core.Core IEEE754.BinarySingleNaN.
From Verif Require Import Machine Floats FloatFacts WavModel InterpModel CacheModel ReaderModel
  ReaderFacts ReaderSpec Sessions CacheFacts CacheSpec CacheProofs WavSpec WavFinal FileSpec PlayProofs StreamFacts Walk ForwardProofs FilePlay FileForward.
Import ListNotations.
Local Open Scope Z_scope.

Lemma gets_store : forall f g, gets f g -> same_store f g.
Proof.
  induction 1 as [|f i g _ IH]; [apply same_store_refl|].
  eapply same_store_trans; [apply if_get_store|exact IH].
Qed.

(* C24: read() changes nothing of a file source but usage marks and the miss count *)
Lemma read_store : forall fuel r n out r' f, r_src r = SFile f -> r_read fuel r n = Ok (out, r') ->
  exists f', r_src r' = SFile f' /\ same_store f f'.
Proof.
  intros fuel r n out r' f S H. destruct (r_read_statics _ _ _ _ _ H) as [_ G]. rewrite S in G.
  inversion G; subst. eexists. split; [reflexivity|]. now apply gets_store.
Qed.

(* ---- concrete files -------------------------------------------------------- *)

(* n bytes; sample i is (i mod 128) + 256 * (i / 128 mod 100) + 1 *)
Definition ramp_file (n : Z) : file :=
  mkFile n (fun b => if Z.even b then (b / 2) mod 128 + 1 else (b / 2 / 128) mod 100).
Lemma ramp_file_bytes : forall n, bytes_ok (fbyte (ramp_file n)).
Proof.
  intros n i. unfold byte_ok, ramp_file. cbn [fbyte].
  destruct (Z.even i); Z.div_mod_to_equations; lia.
Qed.

(* Buffers freshly allocated contain 1234 everywhere *)
Definition dirty : nat -> bytes := fun _ i => if Z.even i then 210 else 4.

Definition open_raw (k : rkind) (x : b64) (n : Z) : res reader :=
  '(_, r) <- r_play_file (new_reader k <| r_rate := x |>) (Some (ramp_file n)) false 1 (fun _ => 0) dirty ;; Ok r.

Definition statuses (r : reader) : list (Z * bstatus) :=
  match r_src r with SFile f => map (fun b => (b_index b, b_status b)) (i_bufs f) | _ => [] end.

(* The cache states reached through the reader are histories of operations *)
Lemma gets_reach : forall c fl f g, gets f g -> creach c fl f -> creach c fl g.
Proof.
  intros c fl f g H. induction H as [|f i g _ IH]; intros R; auto. apply IH.
  apply (cr_op c fl 0 (CoGet i) f _ R Logic.I). reflexivity.
Qed.

(* ---- C26: a reload that does not return ----------------------------------- *)

Definition stuckb (r : reader) : bool :=
  match r_src r with
  | SFile f =>
      loop_eqb (i_loop f) LNone && negb (fle f0 (f_of_d (r_rate r))) &&
      match i_bufs f with [] => false | _ => true end &&
      forallb (fun b => is_unused (b_status b)) (i_bufs f) && (s32 (lowest (i_bufs f) - 1) <? 0)
  | _ => false
  end.

Lemma stuckb_ok : forall r, stuckb r = true -> forall fuel, r_triggerReload fuel r = NoFuel.
Proof.
  intros r H fuel. unfold stuckb in H. unfold r_triggerReload. destruct (r_src r) as [| |f]; try discriminate.
  repeat (apply andb_prop in H; destruct H as [H ?]).
  rewrite reload_hangs; [reflexivity|]. unfold reload_stuck.
  split; [destruct (i_loop f); auto; discriminate|].
  split; [now apply negb_true_iff|]. split; [intros X; rewrite X in *; discriminate|].
  split; [|now apply Z.ltb_lt].
  rewrite Forall_forall. intros b B. match goal with X : forallb _ _ = true |- _ => rewrite forallb_forall in X; apply X in B end.
  now apply is_unused_true.
Qed.

(* Play a file of more than seven blocks forwards, reverse before the first block
   is read, read one block *)
Definition c26_run : res reader :=
  r <- open_raw KSd d1 32768 ;;
  r <- setPlaybackRate r dm1 ;;
  '(_, r) <- r_read 200 r 128 ;; Ok r.

Lemma c26_hangs : exists r, c26_run = Ok r /\ r_playing r = true /\ forall fuel, r_triggerReload fuel r = NoFuel.
Proof.
  assert (X : match c26_run with Ok r => r_playing r && stuckb r | _ => false end = true) by (vm_compute; reflexivity).
  destruct c26_run as [r| |]; try discriminate. apply andb_prop in X. destruct X as [X1 X2].
  exists r. split; [reflexivity|]. split; [exact X1|]. now apply stuckb_ok.
Qed.

(* ---- C27: a short looping file ---------------------------------------------- *)

Fixpoint blocks (fuel : nat) (r : reader) (ns : list Z) : res reader :=
  match ns with
  | [] => Ok r
  | n :: ns => '(_, r) <- r_read fuel r n ;; r <- r_triggerReload fuel r ;; blocks fuel r ns
  end.

Definition c27_run (l : loop_type) : res reader :=
  r <- open_raw KSd d1 12000 ;; blocks 2200 (setLoopType r l) [2048; 128].

Lemma c27_ub : c27_run LRepeat = UB UbVector /\ c27_run LPingpong = UB UbVector.
Proof. split; vm_compute; reflexivity. Qed.

(* ---- C46: past the end of the file ------------------------------------------ *)

(* On drivers that seek past the end, a block that starts at or after the end of the
   file is never found in a buffer *)
Definition past (c : ccfg) (fl : file) (b : ibuf) : Prop :=
  forall i, 0 <= i < 2 ^ 31 -> fsize fl <= 2 * (blk c i * BS c) -> u32 (blk c i) = b_index b -> b_size b <= 0.

Lemma past_load : forall c fl f b i, cfg_ok c -> c_keep c = false -> i_cfg f = c -> i_file f = fl -> in_s32 i ->
  past c fl (fst (fst (loadBuffer f b i))).
Proof.
  intros c fl f b i C KE HC HF Hi j J PA IX. unfold loadBuffer in *. rewrite HC, HF in *. cbn [fst b_index b_size] in *.
  assert (B : blk c i = blk c j) by (symmetry in IX; apply (index_inj _ i j C Hi J); auto).
  pose proof (BS_pos _ C) as HB. pose proof (blk_nonneg c j C ltac:(lia)) as JN.
  assert (I0 : 0 <= i).
  { destruct (Z.neg_nonneg_cases i); auto. exfalso. unfold blk in *.
    assert (i / BS c < 0) by (apply Z.div_lt_upper_bound; lia). lia. }
  assert (SB : u32 i - u32 i mod BS c = blk c j * BS c).
  { rewrite <- B. apply (load_base_nonneg _ i C). destruct Hi. lia. }
  rewrite SB. pose proof (blk_mod _ j C) as JM. pose proof (mod_BS _ j C) as JR.
  rewrite u32_id by (unfold in_u32; nia). unfold fseek. rewrite KE.
  replace (if blk c j * BS c * 2 <=? fsize fl then blk c j * BS c * 2 else blk c j * BS c * 2)
    with (blk c j * BS c * 2) by (destruct (_ <=? _); reflexivity).
  unfold fread_len. rewrite Z.max_l by lia. cbn. lia.
Qed.

Lemma past_silent : forall c fl f i, cfg_ok c -> c_keep c = false -> creach c fl f -> 0 <= i < 2 ^ 31 ->
  fsize fl <= 2 * (blk c i * BS c) -> fst (if_get f i) = 0.
Proof.
  intros c fl f i C KE R Hi PA.
  assert (ST : forall b b', stored b' = stored b -> past c fl b -> past c fl b').
  { intros b b' E H. unfold stored in E. inversion E as [[E1 E2 E3]]. unfold past. rewrite E1, E2. exact H. }
  destruct (creach_kept c fl (past c fl) ST (fun f b i => past_load c fl f b i C KE) f R) as (HC & HF & HB).
  unfold if_get. destruct (find_with_index (u32 (blk (i_cfg f) i)) (i_bufs f)) as [[n|] bufs] eqn:E; [|reflexivity].
  exfalso. destruct (find_some _ _ _ _ E) as (b & N & IX & SZ).
  assert (FB : Forall (past c fl) bufs) by (eapply (Forall_stored_gen (past c fl) ST); [eapply find_stored; eauto|auto]).
  rewrite Forall_forall in FB. apply nth_error_In in N. specialize (FB b N i Hi PA ltac:(congruence)). lia.
Qed.

(* A WAV file that claims 100 samples and holds 4 *)
Definition wav_cut : list Z := canonical 236 1 1 44100 88200 2 16 ++ t_data ++ enc32 200 ++ [10; 0; 20; 0; 30; 0; 40; 0].

Definition c46_run (k : rkind) : res (list (list Z)) :=
  '(_, r) <- r_play_file (new_reader k) (Some (mkfile wav_cut)) true 1 (fun _ => 0) dirty ;;
  '(b, _) <- r_read 200 r 8 ;; Ok b.

Lemma c46_dirty : c46_run KSd = Ok [[10]; [20]; [30]; [40]; [1234]; [1234]; [1234]; [1234]] /\
  c46_run KFlash = Ok [[10]; [20]; [30]; [40]; [1234]; [1234]; [1234]; [1234]].
Proof. split; vm_compute; reflexivity. Qed.

(* ---- C28: a WAV file on serial flash ----------------------------------------- *)

(* 600 samples with values 1000+i after the 44-byte header *)
Definition wav_flash : list Z := canonical 1236 1 1 44100 88200 2 16 ++ t_data ++ enc32 1200 ++
  flat_map (fun i => [(1000 + Z.of_nat i) mod 256; (1000 + Z.of_nat i) / 256]) (seq 0 600).

Definition flash_wav : res reader :=
  '(_, r) <- r_play_file (new_reader KFlash) (Some (mkfile wav_flash)) true 1 (fun _ => 0) dirty ;; Ok r.

Definition c28_run : res (list (list (list Z)) * Z) :=
  r <- flash_wav ;; '(bs, r) <- serviced 200 r [128; 128; 128]%nat ;; Ok (map (skipn 104) bs, misses r).

Lemma wav_flash_ok : wav_file (mkfile wav_flash) 1 0 1200.
Proof.
  unfold wav_file. split; [apply bytesb_ok; vm_compute; reflexivity|].
  split; [vm_compute; repeat split; reflexivity|]. split; [vm_compute; reflexivity|].
  split; [vm_compute; reflexivity|]. split; [lia|].
  split; [split; [left; reflexivity|split; vm_compute; reflexivity]|].
  split; [reflexivity|]. split; [lia|]. split; vm_compute; intuition congruence.
Qed.

Definition flash_open : res (bool * reader) :=
  r_play_file (new_reader KFlash) (Some (mkfile wav_flash)) true 1 (fun _ => 0) dirty.
Definition flash_check (r' : reader) : bool :=
  match serviced 200 r' [128; 128]%nat with
  | Ok (bs, r2) => (misses r' =? 0) && (misses r2 =? 22) &&
      match nth 106 (nth 1 bs []) [] with [v] => v =? 0 | _ => false end
  | _ => false
  end.

Lemma opened_with : forall e (P : reader -> bool),
  match e with Ok (true, r') => P r' | _ => false end = true -> exists r', e = Ok (true, r') /\ P r' = true.
Proof. intros [[[|] r']| |] P H; try discriminate. eauto. Qed.

Lemma flash_check_inv : forall r', flash_check r' = true ->
  exists fuel bs r2, serviced fuel r' [128; 128]%nat = Ok (bs, r2) /\ misses r' = 0 /\ misses r2 = 22 /\
    nth 106 (nth 1 bs []) [] = [0].
Proof.
  intros r' X. unfold flash_check in X. destruct (serviced 200 r' [128; 128]%nat) as [[bs r2]| |] eqn:E2; try discriminate.
  exists 200%nat, bs, r2. apply andb_prop in X. destruct X as [X X3]. apply andb_prop in X. destruct X as [X1 X2].
  apply Z.eqb_eq in X1, X2. split; [exact E2|]. split; [exact X1|]. split; [exact X2|].
  destruct (nth 106 (nth 1 bs []) []) as [|v [|? ?]]; try discriminate. apply Z.eqb_eq in X3. now subst.
Qed.

Lemma flash_wav_misses : exists r', flash_open = Ok (true, r') /\
  (exists fuel bs r2, serviced fuel r' [128; 128]%nat = Ok (bs, r2) /\ misses r' = 0 /\ misses r2 = 22 /\
    nth 106 (nth 1 bs []) [] = [0]) /\
  nth 234 (file_frames (mkfile wav_flash) 22 1 600) [] = [1234].
Proof.
  destruct (opened_with flash_open flash_check) as (r' & E & H); [vm_compute; reflexivity|].
  exists r'. split; [exact E|]. split; [exact (flash_check_inv r' H)|]. vm_compute. reflexivity.
Qed.

(* ---- C27: all buffers present ------------------------------------------------- *)

Lemma full_op : forall c fl fuel o f, cfg_ok c -> creach c fl f -> length (i_bufs f) = c_nbuf c ->
  (match o with CoPreload i _ => in_s32 i | _ => True end) ->
  (match o with CoPreload _ _ => True | _ => forall w, cop_run fuel o f <> UB w end) /\
  forall f', cop_run fuel o f = Ok f' -> length (i_bufs f') = c_nbuf c.
Proof.
  intros c fl fuel o f C R L G. split.
  - destruct o; auto; cbn [cop_run]; try discriminate. intro w. eapply reload_safe; eauto.
  - intros f' E. assert (R' : creach c fl f') by (eapply cr_op; eauto).
    pose proof (creach_shaped c fl f' C R') as (_ & LE & _).
    enough (length (i_bufs f) <= length (i_bufs f'))%nat by lia. clear LE R' R L.
    destruct o; cbn [cop_run] in E; try (apply Ok_inj in E; subst; cbn; lia).
    + apply bind_ok in E. destruct E as ([t f1] & E1 & E2). apply Ok_inj in E2. subst f1.
      unfold preLoadBuffers in E1. revert E1. generalize 0%nat at 1. generalize 0 at 1. generalize (c_nbuf (i_cfg f)).
      intros todo. revert f i G. induction todo as [|todo IH]; intros f i G tot n E1; cbn [preload_loop] in E1.
      * inversion E1; subst. lia.
      * set (f1 := if Nat.leb (length (i_bufs f)) n then _ else _) in E1.
        assert (L1 : (length (i_bufs f) <= length (i_bufs f1))%nat).
        { unfold f1. destruct (Nat.leb _ _); [cbn; rewrite app_length; lia|lia]. }
        clearbody f1. destruct (nth_error (i_bufs f1) n); [|discriminate].
        destruct (loadBuffer f1 i0 i) as [[b' p] k]. destruct (k <? BS (i_cfg f)).
        -- inversion E1; subst. cbn. rewrite list_upd_length. lia.
        -- apply bind_ok in E1. destruct E1 as (i' & CK & E1). apply chk32_inv in CK. destruct CK as [-> CK].
           apply IH in E1; auto. cbn in E1. rewrite list_upd_length in E1. lia.
    + unfold triggerReload in E. apply bind_ok in E. destruct E as (f1 & E1 & E2). apply Ok_inj in E2.
      assert (LX : (length (i_bufs f') = length (i_bufs f1))%nat).
      { subst f'. destruct (feq _ _); cbn; now rewrite map_length. }
      rewrite LX. clear E2 LX f'. remember (reload_rate f rate) as x eqn:HX. clear HX. revert f f1 x E1. induction fuel as [|fuel IH]; intros f f1 x E1; cbn [reload_loop] in E1; [discriminate|].
      apply bind_ok in E1. destruct E1 as ([[go f2]|] & S1 & E1); [|inversion E1; subst; lia].
      pose proof (reload_step_move f x go f2 S1) as (_ & _ & _ & _ & _ & _ & LE & _).
      destruct go; [apply IH in E1; lia|inversion E1; subst; lia].
    + apply Ok_inj in E. subst. pose proof (if_get_store f i) as (_ & _ & _ & _ & _ & _ & _ & S). apply stored_length in S. lia.
Qed.

(* ---- C10 for files ------------------------------------------------------------ *)

(* The last block of the file holds less than half a block: one buffer is used, and
   only the last samples are heard *)
Definition rev_open : res (bool * reader) :=
  r_play_file (new_reader KFlash <| r_rate := dm1 |>) (Some (ramp_file 788)) false 1 (fun _ => 0) dirty.
Definition rev_check (r' : reader) : bool :=
  match serviced 200 r' [128; 128; 128; 128]%nat with
  | Ok (bs, r2) => (misses r' =? 0) && (misses r2 =? 384) &&
      forallb (fun fr => match fr with [v] => v =? 0 | _ => false end) (skipn 10 (concat bs))
  | _ => false
  end.
Lemma rev_check_inv : forall r', rev_check r' = true ->
  exists fuel bs r2, serviced fuel r' [128; 128; 128; 128]%nat = Ok (bs, r2) /\ misses r' = 0 /\ misses r2 = 384 /\
    forall fr, In fr (skipn 10 (concat bs)) -> fr = [0].
Proof.
  intros r' X. unfold rev_check in X. destruct (serviced 200 r' [128; 128; 128; 128]%nat) as [[bs r2]| |] eqn:E2; try discriminate.
  exists 200%nat, bs, r2. apply andb_prop in X. destruct X as [X X3]. apply andb_prop in X. destruct X as [X1 X2].
  apply Z.eqb_eq in X1, X2. split; [exact E2|]. split; [exact X1|]. split; [exact X2|].
  rewrite forallb_forall in X3. intros fr I. apply X3 in I. destruct fr as [|v [|? ?]]; try discriminate. apply Z.eqb_eq in I. now subst.
Qed.
Lemma reverse_file_lost : exists r', rev_open = Ok (true, r') /\
  (exists fuel bs r2, serviced fuel r' [128; 128; 128; 128]%nat = Ok (bs, r2) /\ misses r' = 0 /\ misses r2 = 384 /\
    forall fr, In fr (skipn 10 (concat bs)) -> fr = [0]) /\
  nth 10 (rev (file_frames (ramp_file 788) 0 1 394)) [] = [640].
Proof.
  destruct (opened_with rev_open rev_check) as (r' & E & H); [vm_compute; reflexivity|].
  exists r'. split; [exact E|]. split; [exact (rev_check_inv r' H)|]. vm_compute. reflexivity.
Qed.

(* ---- cases ---------------------------------------------------------------------- *)

Lemma wav_ex_file : wav_file (mkfile wav_ex) 2 12 12.
Proof.
  unfold wav_file. split; [apply bytesb_ok; vm_compute; reflexivity|].
  split; [vm_compute; repeat split; reflexivity|]. split; [vm_compute; reflexivity|].
  split; [vm_compute; reflexivity|]. split; [lia|].
  split; [split; [right; split; vm_compute; reflexivity|split; vm_compute; reflexivity]|].
  split; [reflexivity|]. split; [lia|]. split; vm_compute; intuition congruence.
Qed.

Lemma file_case : cfg_ok (r_cfg (new_reader KSd)) /\ r_kind (new_reader KSd) <> KArray /\
  basic_settings (new_reader KSd) LNone PSample 0 /\ r_hdr (new_reader KSd) = 0 /\
  r_rate (new_reader KSd) = d1 /\ 0 < fsize (ramp_file 32768) < 2 ^ 31 /\
  grid_rate (r_rate (new_reader KSd)) /\ keeps_up (r_cfg (new_reader KSd)) 2 128 (R64 (r_rate (new_reader KSd))) /\
  ((R64 (r_rate (new_reader KSd)) + 1) * INR 2 <= IZR (2 ^ 30))%R.
Proof.
  split; [split; cbn; lia|]. split; [discriminate|]. split; [repeat split|]. split; [reflexivity|].
  split; [reflexivity|]. split; [cbn; lia|]. split; [apply grid_d1|].
  change (r_rate (new_reader KSd)) with d1. rewrite R64_d1. split; [apply keeps_up_1; cbn; lia|].
  cbn [INR]. change (2 ^ 30) with 1073741824. lra.
Qed.

(* A cache with all seven buffers, and one with four *)
Definition cache_of (r : res reader) : option ifile :=
  match r with Ok r => match r_src r with SFile f => Some f | _ => None end | _ => None end.
Definition is_full (o : option ifile) : bool :=
  match o with Some f => Nat.eqb (length (i_bufs f)) (c_nbuf (i_cfg f)) | None => false end.
Lemma full_case : is_full (cache_of (open_raw KSd d1 32768)) = true /\ is_full (cache_of (open_raw KSd d1 12000)) = false.
Proof. split; vm_compute; reflexivity. Qed.

(* The reader's file is in a state reached by cache operations *)
Lemma preload_reach : forall c fl pos garbage i fw t f, in_s32 i ->
  preLoadBuffers (if_new c fl pos garbage) i fw = Ok (t, f) -> creach c fl f.
Proof.
  intros c fl pos garbage i fw t f Hi E. apply (cr_op c fl 0 (CoPreload i fw) (if_new c fl pos garbage)); [constructor|exact Hi|].
  cbn [cop_run]. rewrite E. reflexivity.
Qed.

Lemma reload_returns_reach : forall c fl f x, cfg_ok c -> creach c fl f ->
  ((forall fuel, triggerReload fuel f x = NoFuel) <-> reload_stuck f x).
Proof.
  intros c fl f x C R. destruct (creach_shaped c fl f C R) as (HC & HL & _). apply reload_returns. now rewrite HC.
Qed.

Lemma reload_returns_forward : forall c fl f x, cfg_ok c -> creach c fl f -> fle f0 x = true \/ i_loop f <> LNone ->
  exists fuel, triggerReload fuel f x <> NoFuel.
Proof.
  intros c fl f x C R H. destruct (creach_shaped c fl f C R) as (HC & HL & _).
  destruct (reload_loop_returns f (reload_rate f x)) as [fuel NF]; [now rewrite HC| |].
  - intros (L & F & _). unfold reload_rate in F. rewrite L in F. cbn in F. destruct H; congruence.
  - exists fuel. unfold triggerReload. destruct (reload_loop fuel f (reload_rate f x)); cbn; congruence.
Qed.

Local Notation ex_cache := (preLoadBuffers (if_new cfg_sd (ramp_file 32768) 0 dirty) 0 true).
Definition ex_check (f : ifile) : bool := (fst (if_get f 5000) =? 9993) && (fst (if_get f 16000) =? 0).
Lemma loaded_with : forall (e : res (Z * ifile)) (P : ifile -> bool),
  match e with Ok (_, f) => P f | _ => false end = true -> exists t f, e = Ok (t, f) /\ P f = true.
Proof. intros [[t f]| |] P H; try discriminate. eauto. Qed.
Lemma never_wrong_case : cfg_ok cfg_sd /\ fsize (ramp_file 32768) <= 2 ^ 31 /\ in_file (ramp_file 32768) 5000 /\
  exists f, creach cfg_sd (ramp_file 32768) f /\ fst (if_get f 5000) = 9993 /\ fst (if_get f 16000) = 0.
Proof.
  split; [apply cfg_sd_ok|]. split; [cbn; lia|]. split; [unfold in_file; cbn; lia|].
  destruct (loaded_with ex_cache ex_check) as (t & f & E & H); [vm_compute; reflexivity|].
 exists f. split; [apply preload_reach in E; [exact E|unfold in_s32; lia]|].
  unfold ex_check in H. apply andb_prop in H. rewrite !Z.eqb_eq in H. exact H.
Qed.

Definition read_check (r : reader) : bool :=
  match r_src r with SFile _ => match r_read 200 r 128 with Ok (out, _) => Nat.eqb (length out) 128 | _ => false end | _ => false end.
Lemma ok_with : forall e (P : reader -> bool), match e with Ok r => P r | _ => false end = true -> exists r, e = Ok r /\ P r = true.
Proof. intros [r| |] P H; try discriminate. eauto. Qed.
Lemma read_check_inv : forall r, read_check r = true -> exists f, r_src r = SFile f /\
  exists out r', r_read 200 r 128 = Ok (out, r') /\ length out = 128%nat.
Proof.
  intros r H. unfold read_check in H. destruct (r_src r) as [| |f] eqn:S; try discriminate.
  exists f. split; [reflexivity|].
  destruct (r_read 200 r 128) as [[out r']| |] eqn:R; try discriminate.
  exists out, r'. split; [reflexivity|]. now apply PeanoNat.Nat.eqb_eq.
Qed.
Lemma read_store_case : exists r, open_raw KSd d1 32768 = Ok r /\ exists f, r_src r = SFile f /\
  exists out r', r_read 200 r 128 = Ok (out, r') /\ length out = 128%nat.
Proof.
  destruct (ok_with (open_raw KSd d1 32768) read_check) as (r & E & H); [vm_compute; reflexivity|].
  exists r. split; [exact E|]. exact (read_check_inv r H).
Qed.

(* Single-precision rates set through setPlaybackRate, on files *)
Lemma file_pitch_wav : forall r0 x fl nch tags n nraw stack garbage ps pb B, cfg_ok (r_cfg r0) -> r_kind r0 <> KArray ->
  basic_settings r0 LNone ps pb -> bytes_ok stack -> wav_file fl nch tags n -> Z.of_nat nch < 2 ^ 15 ->
  let len := n / 2 / Z.of_nat nch in
  (ps = PArbitrary -> 0 <= pb <= len) ->
  single_rate x -> (bpow radix2 (-29) <= R64 x)%R -> ((R64 x + 1) * INR nch <= IZR (2 ^ 30))%R ->
  keeps_up (r_cfg r0) nch B (R64 x) ->
  exists r1 r2, setPlaybackRate r0 x = Ok r1 /\
    r_play_file r1 (Some fl) true nraw stack garbage = Ok (true, r2) /\
    file_delivers B r2 (file_pitch fl ((44 + tags) / 2) len nch (start_frame ps pb) (R64 x)).
Proof.
  intros r0 x fl nch tags n nraw stack garbage ps pb B C K BSET BST WF NB len PB SR L U KU.
  pose proof (bpow_gt_0 radix2 (-29)) as L0.
  assert (U30 : (R64 x <= bpow radix2 30)%R).
  { rewrite bpow_IZR by lia. assert (1 <= INR nch)%R. { change 1%R with (INR 1). apply le_INR. apply WF. } nra. }
  pose proof (single_grid x SR L U30) as G.
  destruct (setRate_fwd r0 x (proj1 G) ltac:(lra)) as (r1 & E1 & p & E2).
  assert (RX : r_rate r1 = x) by (subst r1; reflexivity).
  destruct (wav_forward r1 fl nch tags n nraw stack garbage ps pb B) as (r2 & E & D); auto;
    try (rewrite RX; auto; lra); try (subst r1; assumption).
  exists r1, r2. rewrite RX in D. auto.
Qed.

Lemma file_pitch_raw : forall r0 x fl nch stack garbage ps pb B, cfg_ok (r_cfg r0) -> r_kind r0 <> KArray ->
  basic_settings r0 LNone ps pb -> r_hdr r0 = 0 -> (1 <= nch)%nat -> Z.of_nat nch < 2 ^ 15 -> 0 < fsize fl < 2 ^ 31 ->
  let len := fsize fl / 2 / Z.of_nat nch in
  (ps = PArbitrary -> 0 <= pb <= len) ->
  single_rate x -> (bpow radix2 (-29) <= R64 x)%R -> ((R64 x + 1) * INR nch <= IZR (2 ^ 30))%R ->
  keeps_up (r_cfg r0) nch B (R64 x) ->
  exists r1 r2, setPlaybackRate r0 x = Ok r1 /\
    r_play_file r1 (Some fl) false (Z.of_nat nch) stack garbage = Ok (true, r2) /\
    file_delivers B r2 (file_pitch fl 0 len nch (start_frame ps pb) (R64 x)).
Proof.
  intros r0 x fl nch stack garbage ps pb B C K BSET HH N1 NB S len PB SR L U KU.
  pose proof (bpow_gt_0 radix2 (-29)) as L0.
  assert (U30 : (R64 x <= bpow radix2 30)%R).
  { rewrite bpow_IZR by lia. assert (1 <= INR nch)%R. { change 1%R with (INR 1). now apply le_INR. } nra. }
  pose proof (single_grid x SR L U30) as G.
  destruct (setRate_fwd r0 x (proj1 G) ltac:(lra)) as (r1 & E1 & p & E2).
  assert (RX : r_rate r1 = x) by (subst r1; reflexivity).
  destruct (raw_forward r1 fl nch stack garbage ps pb B) as (r2 & E & D); auto;
    try (rewrite RX; auto; lra); try (subst r1; assumption).
  exists r1, r2. rewrite RX in D. auto.
Qed.

Lemma wav_count : forall r fl nch tags n nraw stack garbage pb B, cfg_ok (r_cfg r) -> r_kind r <> KArray ->
  basic_settings r LNone PSample pb -> bytes_ok stack -> wav_file fl nch tags n -> Z.of_nat nch < 2 ^ 15 ->
  grid_rate (r_rate r) -> (0 < R64 (r_rate r))%R -> ((R64 (r_rate r) + 1) * INR nch <= IZR (2 ^ 30))%R ->
  keeps_up (r_cfg r) nch B (R64 (r_rate r)) ->
  exists r', r_play_file r (Some fl) true nraw stack garbage = Ok (true, r') /\
    exists frames, file_delivers B r' (nth_error frames) /\
      Z.of_nat (length frames) = Zceil (IZR (n / 2 / Z.of_nat nch) / R64 (r_rate r)).
Proof.
  intros r fl nch tags n nraw stack garbage pb B C K BSET BST WF NB G P U KU.
  destruct (wav_file_plays fl nch tags n WF) as (_ & _ & _ & _ & N0).
  assert (N1 : (1 <= nch)%nat) by apply WF.
  destruct (wav_forward r fl nch tags n nraw stack garbage PSample pb B C K BSET BST WF NB) as (r' & E & D); auto; try discriminate; try lra.
  exists r'. split; auto. cbn [start_frame] in D.
  destruct (file_count_stream fl ((44 + tags) / 2) (n / 2 / Z.of_nat nch) nch (R64 (r_rate r)) P) as (fr & F1 & F2).
  { apply Z.div_pos; [apply Z.div_pos|]; lia. }
  exists fr. split; auto. eapply file_delivers_ext; [|exact D]. exact F1.
Qed.
