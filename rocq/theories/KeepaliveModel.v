(** Model of src/input/ipa_keepalive.c together with the parts of libosmocore's
    FSM core it relies on.

    libosmocore (not in /repo), as documented: dispatch runs allstate_action for
    events of allstate_event_mask, otherwise the state's action if the event is
    in its in_event_mask, otherwise ignores the event.  state_chg to a state not
    in out_state_mask is refused and changes nothing; an accepted one deletes the
    timer, arms it if the timeout is not zero, records T and then runs onenter.
    When the timer expires it is no longer pending and timer_cb runs; the
    instance is terminated iff that returns 1.

    Time is in seconds (Z); memory allocation succeeds; a send function does not
    call back into the FSM.  The timeout callback may call start and stop and
    may terminate (free) the instance. *)
From Coq Require Import List Arith Lia Bool ZArith.
From Verif Require Import Base.
Import ListNotations.
Open Scope Z_scope.

(** ipa_keepalive.c:47-51 *)
Inductive ka_state := KA_INIT | KA_IDLE | KA_WAIT_RESP.
(** :66-69 *)
Inductive ka_timer := T_SEND_NEXT_PING | T_PONG_NOT_RECEIVED.

(** who is behind the FSM: ipa_client_conn_alloc (:246), ipa_server_conn_alloc
    (:265), ipa_generic_conn_alloc (:285); generic with its data pointer NULL or not *)
Inductive owner := Client | Server | Generic (data_nonnull : bool).
(** calls the timeout callback may make on the instance before it returns *)
Inductive cb_call := CbStart | CbStop.
(** :71-79 struct ipa_fsm_priv with :params; [timeout_cb now n]: what the n-th
    invocation does: calls, whether it terminates the instance itself, rc *)
Record cfg := mkCfg {
  interval : Z; wait_for_resp : Z; who : owner; send_fn : bool;
  timeout_cb : option (nat -> list cb_call * bool * Z) }.

Record ka := mkKa { st : ka_state; T : ka_timer; deadline : option Z; cb_count : nat }.
(** the log: the API calls made (by the user or from the callback), a PING
    handed to a sender, the timeout callback invoked, the instance terminated by
    the FSM core or by the callback *)
Inductive via := ViaSendFn | ViaServer | ViaClient.
Inductive kcall := CStart | CStop | CPong.
Inductive kout := Called (t : Z) (c : kcall) | Ping (t : Z) (v : via) (msg : list Z) | TimedOut (t : Z) | Terminated (t : Z).

(** :35-45 gen_ipa_ping: u8 IPAC_MSGT_PING = 0, then ipa_prepend_header (libosmocore):
    length (BE16, without the header), protocol IPAC_PROTO_IPACCESS = 0xfe *)
Definition gen_ipa_ping : list Z := [0; 1; 254; 0].

(** :96-122 ipa_ka_wait_resp_onenter; None: OSMO_ASSERT(ifp->client_conn) *)
Definition onenter_wait_resp (c : cfg) (now : Z) : option (list kout) :=
  match who c with
  | Generic true => if send_fn c then Some [Ping now ViaSendFn gen_ipa_ping] else None
  | Generic false => None
  | Server => Some [Ping now (if send_fn c then ViaSendFn else ViaServer) gen_ipa_ping]
  | Client => Some [Ping now (if send_fn c then ViaSendFn else ViaClient) gen_ipa_ping]
  end.

(** :178-197 out_state_mask *)
Definition may_chg (from to : ka_state) : bool :=
  match from, to with
  | KA_INIT, (KA_WAIT_RESP | KA_INIT) => true
  | KA_IDLE, (KA_WAIT_RESP | KA_INIT) => true
  | KA_WAIT_RESP, (KA_IDLE | KA_INIT) => true
  | _, _ => false
  end.

(** osmo_fsm_inst_state_chg *)
Definition state_chg (c : cfg) (now : Z) (s : ka) (to : ka_state) (secs : Z) (t : ka_timer) : option (ka * list kout) :=
  if negb (may_chg (st s) to) then Some (s, []) else
  let s := mkKa to t (if secs =? 0 then None else Some (now + secs)) (cb_count s) in
  match to with
  | KA_WAIT_RESP => do o <- onenter_wait_resp c now; Some (s, o)
  | _ => Some (s, [])
  end.

(** :332-339 ipa_keepalive_fsm_start, :81-94 ipa_ka_init (START is only in the
    event mask of INIT) *)
Definition start (c : cfg) (now : Z) (s : ka) : option (ka * list kout) :=
  match st s with
  | KA_INIT => state_chg c now s KA_WAIT_RESP (wait_for_resp c) T_PONG_NOT_RECEIVED
  | _ => Some (s, [])
  end.
(** :342-347 ipa_keepalive_fsm_stop, :166-176 ipa_ka_allstate_action *)
Definition stop (c : cfg) (now : Z) (s : ka) : option (ka * list kout) :=
  (* T = 0 in the code: no such timer; kept here as the previous T *)
  state_chg c now s KA_INIT 0 (T s).
(** :325-329 ipa_keepalive_fsm_pong_received, :124-136 ipa_ka_wait_resp *)
Definition pong (c : cfg) (now : Z) (s : ka) : option (ka * list kout) :=
  match st s with
  | KA_WAIT_RESP => state_chg c now s KA_IDLE (interval c) T_SEND_NEXT_PING
  | _ => Some (s, [])
  end.

(** log the call *)
Definition called (now : Z) (k : kcall) (r : option (ka * list kout)) : option (ka * list kout) :=
  do (s, o) <- r; Some (s, Called now k :: o).
Fixpoint cb_calls (c : cfg) (now : Z) (s : ka) (l : list cb_call) : option (ka * list kout) :=
  match l with
  | [] => Some (s, [])
  | x :: r =>
    do (s, o) <- (match x with CbStart => called now CStart (start c now s) | CbStop => called now CStop (stop c now s) end);
    do (s, o') <- cb_calls c now s r;
    Some (s, o ++ o')
  end.

(** the timer expires at [now]: :138-164 ipa_ka_fsm_timer_cb and libosmocore's
    fsm_tmr_cb.  Result None for the state: the instance is gone. *)
Definition expire (c : cfg) (now : Z) (s : ka) : option (option ka * list kout) :=
  let s := mkKa (st s) (T s) None (cb_count s) in
  match T s with
  | T_SEND_NEXT_PING =>
    do (s, o) <- state_chg c now s KA_WAIT_RESP (wait_for_resp c) T_PONG_NOT_RECEIVED;
    Some (Some s, o)
  | T_PONG_NOT_RECEIVED =>
    match timeout_cb c with
    | None => Some (None, [Terminated now])
    | Some cb =>
      let '(calls, frees, rc) := cb (cb_count s) in
      do (s, o) <- cb_calls c now (mkKa (st s) (T s) None (S (cb_count s))) calls;
      if frees then Some (None, TimedOut now :: o ++ [Terminated now])
      else if rc =? 1 then Some (None, TimedOut now :: o ++ [Terminated now])
      else Some (Some s, TimedOut now :: o)
    end
  end.

(** a history: what happens at which time; API calls on a terminated instance
    are a use after free (None) *)
Inductive kev := Start | Stop | Pong | Expire.
Definition kstep (c : cfg) (s : option ka) (te : Z * kev) : option (option ka * list kout) :=
  let '(now, e) := te in
  match s, e with
  | None, Expire => Some (None, [])   (* termination deletes the timer *)
  | None, _ => None
  | Some s, Start => do (s, o) <- called now CStart (start c now s); Some (Some s, o)
  | Some s, Stop => do (s, o) <- called now CStop (stop c now s); Some (Some s, o)
  | Some s, Pong => do (s, o) <- called now CPong (pong c now s); Some (Some s, o)
  | Some s, Expire =>
    match deadline s with
    | Some d => if d <=? now then expire c now s else Some (Some s, [])
    | None => Some (Some s, [])
    end
  end.
Fixpoint krun (c : cfg) (s : option ka) (h : list (Z * kev)) : option (option ka * list kout) :=
  match h with
  | [] => Some (s, [])
  | x :: r => do (s, o) <- kstep c s x; do (s, o') <- krun c s r; Some (s, o ++ o')
  end.
(** :219-238 __ipa_conn_alloc_keepalive_fsm *)
Definition ka_alloc : ka := mkKa KA_INIT T_PONG_NOT_RECEIVED None 0.
