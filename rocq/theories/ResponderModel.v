(* Model of src/AudioEventResponder.h and .cpp, and of the parts of Teensyduino's
   EventResponder they rely on (EventResponder.h/.cpp of the Teensy cores: the yield
   list, triggerEvent, clearEvent, attach, detach, runFromYield).

   Responders are numbered; a pointer is an [option nat], None = nullptr.  Every list
   operation of the source runs with interrupts disabled, so each function is one
   atomic step. *)

From Coq Require Import ZArith List Bool.
From RecordUpdate Require Import RecordUpdate.
From Verif Require Import Machine.
Import ListNotations.
Local Open Scope Z_scope.

(* EventType, EventResponder.h *)
Inductive etype := TDetached | TYield | TImmediate.
Definition is_detached (t : etype) : bool := match t with TDetached => true | _ => false end.

(* One responder: EventResponder's _triggered, _status, _type, _prev, _next and
   AudioEventResponder's _isPolled, _aprev, _anext (AudioEventResponder.h:35-36).
   [v_fun]: a function is attached.  The _data pointer is always the player itself. *)
Record resp := mkResp {
  v_trig : bool;
  v_status : Z;
  v_type : etype;
  v_fun : bool;
  v_prev : option nat;
  v_next : option nat;
  v_polled : bool;
  v_aprev : option nat;
  v_anext : option nat }.
#[export] Instance eta_resp : Settable _ :=
  settable! mkResp <v_trig; v_status; v_type; v_fun; v_prev; v_next; v_polled; v_aprev; v_anext>.

Definition resp0 : resp := mkResp false 0 TDetached false None None false None None.

(* All responders and the static members: firstYield/lastYield of EventResponder,
   pollList (AudioEventResponder.h:41), yield_active_check_flags (uint8_t),
   active_flags_copy, disableCount, forceResponse (lines 32-34) *)
Record rsys := mkSys {
  s_resp : nat -> resp;
  s_yfirst : option nat;
  s_ylast : option nat;
  s_pfirst : option nat;
  s_plast : option nat;
  s_flags : Z;
  s_copy : Z;
  s_count : Z;
  s_force : bool }.
#[export] Instance eta_rsys : Settable _ :=
  settable! mkSys <s_resp; s_yfirst; s_ylast; s_pfirst; s_plast; s_flags; s_copy; s_count; s_force>.

Definition sys0 (flags : Z) : rsys := mkSys (fun _ => resp0) None None None None flags 0 0 false.

Definition upd_resp (s : rsys) (i : nat) (g : resp -> resp) : rsys :=
  s <| s_resp := fun j => if Nat.eqb j i then g (s_resp s i) else s_resp s j |>.

Definition ptr_is (p : option nat) (i : nat) : bool :=
  match p with Some j => Nat.eqb j i | None => false end.

(* ---- masking of the yield response ---------------------------------------- *)

(* YIELD_CHECK_EVENT_RESPONDER *)
Definition EVR : Z := 4.
(* flags &= ~YIELD_CHECK_EVENT_RESPONDER, on uint8_t *)
Definition mask_evr (f : Z) : Z := Z.land f (255 - EVR).

(* disableResponse, AudioEventResponder.h:48-57 *)
Definition disableResponse (s : rsys) : rsys :=
  let s1 := if s_count s =? 0
            then let s' := s <| s_copy := s_flags s |> in
                 if s_force s then s' else s' <| s_flags := mask_evr (s_flags s) |>
            else s in
  s1 <| s_count := s_count s1 + 1 |>.

(* enableResponse, AudioEventResponder.h:60-69 *)
Definition enableResponse (s : rsys) : rsys :=
  let s1 := s <| s_count := s_count s - 1 |> in
  if s_count s1 <=? 0 then
    (if s_force s1 then s1 else s1 <| s_flags := Z.lor (s_flags s1) (s_copy s1) |>) <| s_count := 0 |>
  else s1.

(* updateResponse, AudioEventResponder.h:73-79 *)
Definition updateResponse (s : rsys) : rsys :=
  let s1 := s <| s_copy := Z.lor (s_copy s) (Z.land (s_flags s) EVR) |> in
  if (0 <? s_count s1) && negb (s_force s1) then s1 <| s_flags := mask_evr (s_flags s1) |> else s1.

(* setForceResponse, AudioEventResponder.h:82 *)
Definition setForceResponse (b : bool) (s : rsys) : rsys := s <| s_force := b |>.

(* ---- EventResponder (Teensyduino) ------------------------------------------ *)

(* Unlink from the yield list, in clearEvent() and detachNoInterrupts() *)
Definition y_unlink (i : nat) (s : rsys) : rsys :=
  let r := s_resp s i in
  let s1 := match v_prev r with
            | Some p => upd_resp s p (fun q => q <| v_next := v_next r |>)
            | None => s <| s_yfirst := v_next r |>
            end in
  match v_next r with
  | Some n => upd_resp s1 n (fun q => q <| v_prev := v_prev r |>)
  | None => s1 <| s_ylast := v_prev r |>
  end.

(* EventResponder::clearEvent: only a yield event is unlinked *)
Definition clearEvent (i : nat) (s : rsys) : rsys :=
  if v_trig (s_resp s i) then
    let s1 := match v_type (s_resp s i) with TYield => y_unlink i s | _ => s end in
    upd_resp s1 i (fun q => q <| v_trig := false |>)
  else s.

(* EventResponder::detach / detachNoInterrupts *)
Definition base_detach (i : nat) (s : rsys) : rsys :=
  match v_type (s_resp s i) with
  | TYield =>
      let s1 := if v_trig (s_resp s i)
                then upd_resp (y_unlink i s) i (fun q => q <| v_trig := false |>) else s in
      upd_resp s1 i (fun q => q <| v_type := TDetached |>)
  | _ => s
  end.

(* EventResponder::attach: the base detach is called (it is not virtual), _isPolled is
   not touched; enables the yield check *)
Definition attach (i : nat) (s : rsys) : rsys :=
  let s1 := upd_resp (base_detach i s) i (fun q => q <| v_fun := true |> <| v_type := TYield |>) in
  s1 <| s_flags := Z.lor (s_flags s1) EVR |>.

(* Append to the yield list *)
Definition y_link (i : nat) (s : rsys) : res rsys :=
  match s_yfirst s with
  | None => Ok (upd_resp (s <| s_yfirst := Some i |> <| s_ylast := Some i |>) i
                 (fun q => q <| v_next := None |> <| v_prev := None |>))
  | Some _ =>
      match s_ylast s with
      | None => UB UbNull
      | Some l =>
          let s1 := upd_resp s i (fun q => q <| v_next := None |> <| v_prev := Some l |>) in
          let s2 := upd_resp s1 l (fun q => q <| v_next := Some i |>) in
          Ok (s2 <| s_ylast := Some i |>)
      end
  end.

(* EventResponder::triggerEvent.  The immediate type runs the function at once; no
   responder of this library triggers in that state (polled ones take the branch below),
   so that case is left out: nothing happens. *)
Definition base_trigger (i : nat) (status : Z) (s : rsys) : res rsys :=
  let s1 := upd_resp s i (fun q => q <| v_status := status |>) in
  match v_type (s_resp s1 i) with
  | TImmediate => Ok s1
  | t =>
      if v_trig (s_resp s1 i) then Ok s1
      else
        s2 <- (match t with TYield => y_link i s1 | _ => Ok s1 end) ;;
        Ok (upd_resp s2 i (fun q => q <| v_trig := true |>))
  end.

(* EventResponder::runFromYield: takes the first event off the list; the responder
   whose function is to be run, with its status *)
Definition y_pop (s : rsys) : option (nat * Z) * rsys :=
  match s_yfirst s with
  | None => (None, s)
  | Some i =>
      let nx := v_next (s_resp s i) in
      let s1 := s <| s_yfirst := nx |> in
      let s2 := match nx with
                | Some n => upd_resp s1 n (fun q => q <| v_prev := None |>)
                | None => s1 <| s_ylast := None |>
                end in
      (Some (i, v_status (s_resp s i)), upd_resp s2 i (fun q => q <| v_trig := false |>))
  end.

(* ---- AudioEventResponder: the polled list ---------------------------------- *)

(* addToList, AudioEventResponder.cpp:34-50 *)
Definition addToList (i : nat) (s : rsys) : res rsys :=
  s1 <- (match s_pfirst s with
         | None => Ok (upd_resp (s <| s_pfirst := Some i |>) i (fun q => q <| v_aprev := None |>))
         | Some _ =>
             match s_plast s with
             | None => UB UbNull
             | Some l =>
                 Ok (upd_resp (upd_resp s i (fun q => q <| v_aprev := Some l |>))
                      l (fun q => q <| v_anext := Some i |>))
             end
         end) ;;
  Ok (upd_resp (s1 <| s_plast := Some i |>) i (fun q => q <| v_anext := None |>)).

(* removeFromList, AudioEventResponder.cpp:53-68; the last test is on _prev *)
Definition removeFromList (i : nat) (s : rsys) : res rsys :=
  let s1 := if ptr_is (s_pfirst s) i then s <| s_pfirst := v_anext (s_resp s i) |> else s in
  let s2 := if ptr_is (s_plast s1) i then s1 <| s_plast := v_aprev (s_resp s1 i) |> else s1 in
  let s3 := match v_anext (s_resp s2 i) with
            | Some n => upd_resp s2 n (fun q => q <| v_aprev := v_aprev (s_resp s2 i) |>)
            | None => s2
            end in
  match v_prev (s_resp s3 i) with
  | None => Ok s3
  | Some _ =>
      match v_aprev (s_resp s3 i) with
      | None => UB UbNull
      | Some p => Ok (upd_resp s3 p (fun q => q <| v_anext := v_anext (s_resp s3 i) |>))
      end
  end.

(* detach, AudioEventResponder.h:97-110 *)
Definition detach (i : nat) (s : rsys) : res rsys :=
  if v_polled (s_resp s i) then
    let s1 := upd_resp s i (fun q => q <| v_polled := false |> <| v_type := TDetached |>) in
    if v_trig (s_resp s1 i) then removeFromList i s1 else Ok s1
  else Ok (base_detach i s).

(* attachPolled, AudioEventResponder.h:86-94 *)
Definition attachPolled (i : nat) (s : rsys) : res rsys :=
  s1 <- detach i s ;;
  Ok (upd_resp s1 i (fun q => q <| v_fun := true |> <| v_type := TImmediate |> <| v_polled := true |>)).

(* triggerEvent, AudioEventResponder.h:113-133 *)
Definition triggerEvent (i : nat) (status : Z) (s : rsys) : res rsys :=
  s1 <- (if v_polled (s_resp s i) then
           let s' := upd_resp s i (fun q => q <| v_status := status |>) in
           if v_trig (s_resp s' i) then Ok s'
           else s'' <- addToList i s' ;; Ok (upd_resp s'' i (fun q => q <| v_trig := true |>))
         else base_trigger i status s) ;;
  Ok (if is_detached (v_type (s_resp s1 i)) then upd_resp s1 i (fun q => q <| v_trig := false |>) else s1).

(* _runPolled and runPolled, AudioEventResponder.h:136-167: the value returned, the
   responder whose function runs with its status, and the state just before that.  The
   function itself is event_response (PlayerModel.v), which does not touch the lists;
   the result is therefore determined here. *)
Definition runPolled (s : rsys) : res (Z * option (nat * Z) * rsys) :=
  match s_pfirst s with
  | None => Ok (-1, None, s)
  | Some i =>
      s1 <- removeFromList i s ;;
      let s2 := upd_resp s1 i (fun q => q <| v_trig := false |>) in
      let ev := if v_fun (s_resp s2 i) then Some (i, v_status (s_resp s2 i)) else None in
      Ok (match s_pfirst s2 with None => 0 | Some _ => 1 end, ev, s2)
  end.
