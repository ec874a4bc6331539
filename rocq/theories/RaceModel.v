(* Model of src/IndexableFile.h: triggerReload (96-235) and loadBuffer (337-363)
   as they run in the user's sketch while the audio interrupt may fetch samples
   (operator[], 418-431) between any two of their writes.

   - A reload is a small-step machine; the points between which the interrupt may
     run are the constructors of [rpoint].
   - The interrupt is a fetch of any sample; a fetch itself is not interrupted.
   - _file.read (346) writes the bytes of the buffer in any order, and each byte
     any number of times: at any moment a byte is the old one or the new one.
   - The other stores of loadBuffer (355-357) happen in program order and each in
     one piece (the members are aligned words or smaller); the compiler is
     assumed not to reorder them.
   - The vector shuffle (199-226) and resetStatus (237-245) run with the audio
     interrupt disabled, so each is one step.
   - The decision (113-193) reads one value a fetch can change (the status of the
     last buffer), so it is one step, separate from the loop condition (111).
   - A decision with undefined behaviour has no step here (see reload_decide). *)

From Coq Require Import ZArith Lia List Bool.
From RecordUpdate Require Import RecordUpdate.
From Flocq Require Import IEEE754.BinarySingleNaN.
From Verif Require Import Machine Floats WavModel CacheModel.
Import ListNotations.
Local Open Scope Z_scope.

(* Where the reload is.  [i] is the argument of loadBuffer, [n] the bytes read,
   [old] what the buffer contained when the read began. *)
Inductive rpoint :=
| AtTop                                              (* 111: before the loop condition *)
| AtDecide                                           (* 113: it was true *)
| AtRead (i : Z) (act : baction) (old : bytes)       (* 346: inside _file.read *)
| AtIndex (i n : Z) (act : baction)                  (* 355: read done, index not yet written *)
| AtSize (n : Z) (act : baction)                     (* 356 *)
| AtStatus (act : baction)                           (* 357 *)
| AtShuffle (act : baction)                          (* 199 *)
| AtReset                                            (* 232 *)
| AtPrev                                             (* 233 *)
| AtEnd.

Definition rstate : Type := rpoint * ifile.

(* The buffer being reloaded is _buffers[0] until the shuffle; a fetch does not
   reorder the vector. *)
Definition set_bufs (f : ifile) (l : list ibuf) : ifile := f <| i_bufs := l |>.
Definition set_pos (f : ifile) (p : Z) : ifile := f <| i_pos := p |>.
Definition set_prev (f : ifile) (x : b32) : ifile := f <| i_prev := x |>.

(* loadBuffer: the position sought (340-345), the bytes read and the file
   position afterwards (346-352) *)
Definition load_at (f : ifile) (i : Z) : Z :=
  fseek (c_keep (i_cfg f)) (i_file f) (i_pos f) (u32 ((u32 i - u32 i mod BS (i_cfg f)) * 2)).
Definition load_len (f : ifile) (i : Z) : Z := fread_len (i_file f) (load_at f i) (BS (i_cfg f) * 2).
Definition load_bytes (f : ifile) (i : Z) (old : bytes) : bytes :=
  fread (i_file f) (load_at f i) (BS (i_cfg f) * 2) old.
Definition load_pos (f : ifile) (i : Z) : Z :=
  let p := load_at f i + load_len f i in
  if negb (c_teensy (i_cfg f)) && (fsize (i_file f) <=? p) then 0 else p.

(* Where the loop goes after the shuffle, 228-230 *)
Definition after (act : baction) : rpoint := match act with NopBuffer => AtReset | _ => AtTop end.

(* One step of the reload; [x] is the rate the decisions use, [pbr] the one passed. *)
Inductive rstep (x pbr : b32) : rstate -> rstate -> Prop :=
(* while (!_buffers.empty() && unused == _buffers[0]->status), 111 *)
| rs_loop : forall f b0 rest, i_bufs f = b0 :: rest -> is_unused (b_status b0) = true ->
    rstep x pbr (AtTop, f) (AtDecide, f)
| rs_exit : forall f, match i_bufs f with [] => True | b0 :: _ => is_unused (b_status b0) = false end ->
    rstep x pbr (AtTop, f) (AtReset, f)
(* 113-197 *)
| rs_load : forall f b0 rest nx act, i_bufs f = b0 :: rest -> reload_decide f x b0 = Ok (nx, true, act) ->
    rstep x pbr (AtDecide, f) (AtRead (s32 (nx * BS (i_cfg f))) act (b_data b0), f)
| rs_skip : forall f b0 rest nx act, i_bufs f = b0 :: rest -> reload_decide f x b0 = Ok (nx, false, act) ->
    rstep x pbr (AtDecide, f) (AtShuffle act, f)
(* 346: some bytes arrive *)
| rs_part : forall f b0 rest i act old d, i_bufs f = b0 :: rest ->
    (forall a, d a = old a \/ d a = load_bytes f i old a) ->
    rstep x pbr (AtRead i act old, f) (AtRead i act old, set_bufs f (mkBuf (b_index b0) (b_size b0) (b_status b0) d :: rest))
(* 346-352: the read is complete *)
| rs_read : forall f b0 rest i act old, i_bufs f = b0 :: rest ->
    rstep x pbr (AtRead i act old, f)
      (AtIndex i (load_len f i) act,
       set_pos (set_bufs f (mkBuf (b_index b0) (b_size b0) (b_status b0) (load_bytes f i old) :: rest)) (load_pos f i))
(* 355, 356, 357 *)
| rs_index : forall f b0 rest i n act, i_bufs f = b0 :: rest ->
    rstep x pbr (AtIndex i n act, f)
      (AtSize n act, set_bufs f (mkBuf (u32 (blk (i_cfg f) i)) (b_size b0) (b_status b0) (b_data b0) :: rest))
| rs_size : forall f b0 rest n act, i_bufs f = b0 :: rest ->
    rstep x pbr (AtSize n act, f) (AtStatus act, set_bufs f (mkBuf (b_index b0) (s16 n) (b_status b0) (b_data b0) :: rest))
| rs_status : forall f b0 rest act, i_bufs f = b0 :: rest ->
    rstep x pbr (AtStatus act, f) (AtShuffle act, set_bufs f (mkBuf (b_index b0) (b_size b0) StLoaded (b_data b0) :: rest))
(* 199-230 *)
| rs_shuffle : forall f b0 rest act, i_bufs f = b0 :: rest ->
    rstep x pbr (AtShuffle act, f)
      (after act, match act with
                  | ReverseBuffer => set_prev (set_bufs f (rev (b0 :: rest))) (fneg (i_prev f))
                  | MoveBuffer => set_bufs f (rest ++ [b0])
                  | NopBuffer => f
                  end)
(* 232-234 *)
| rs_reset : forall f, rstep x pbr (AtReset, f) (AtPrev, if_resetStatus f)
| rs_prev : forall f, rstep x pbr (AtPrev, f) (AtEnd, if feq f0 (i_prev f) then set_prev f pbr else f).

(* The reload with the interrupt: between its steps any samples are fetched *)
Inductive irun (x pbr : b32) : rstate -> rstate -> Prop :=
| ir_here : forall s, irun x pbr s s
| ir_step : forall s t u, irun x pbr s t -> rstep x pbr t u -> irun x pbr s u
| ir_fetch : forall s pc f i, irun x pbr s (pc, f) -> irun x pbr s (pc, snd (if_get f i)).

(* States inside a reload by rate [pbr] begun in state [f0] *)
Definition during (pbr : b32) (f : ifile) (s : rstate) : Prop := irun (reload_rate f pbr) pbr (AtTop, f) s.

(* The block index still written in the buffer that is being overwritten *)
Definition replacing (s : rstate) : option Z :=
  match s with
  | (AtRead _ _ _, f) | (AtIndex _ _ _, f) => match i_bufs f with b0 :: _ => Some (b_index b0) | [] => None end
  | _ => None
  end.

(* States between operations when reloads may be interrupted *)
Inductive ireach (c : ccfg) (fl : file) : ifile -> Prop :=
| ire_new : forall pos garbage, ireach c fl (if_new c fl pos garbage)
| ire_preload : forall i fw t f f', ireach c fl f -> in_s32 i -> preLoadBuffers f i fw = Ok (t, f') -> ireach c fl f'
| ire_reload : forall x f f', ireach c fl f -> during x f (AtEnd, f') -> ireach c fl f'
| ire_get : forall i f, ireach c fl f -> ireach c fl (snd (if_get f i))
| ire_loopType : forall l f, ireach c fl f -> ireach c fl (if_setLoopType f l)
| ire_loopStart : forall v f, ireach c fl f -> ireach c fl (if_setLoopStart f v)
| ire_loopFinish : forall v f, ireach c fl f -> ireach c fl (if_setLoopFinish f v).
