(** Model of src/input/ipa.c: IPA client and server connections.
    The kernel's answers (connect result, recv, send) are part of each event; the
    user's callbacks are the list of API calls they make plus their return value.
    [None] = access to a freed connection.  ipa_msg_recv_buffered (libosmocore) is
    the environment: it yields a whole message, "not yet", or a failure.  Messages
    are octet lists; a user-supplied write_cb (IpaWriteModel.v), logging and failing talloc are left
    out. *)
From Coq Require Import List Arith Bool ZArith.
From Verif Require Import Base.
Import ListNotations.
Open Scope Z_scope.

Definition msg := list Z.
Definition EBADF : Z := -9.
Definition EIO : Z := -5.

(** what send(2) does with a message: takes all, takes [n] octets, fails with
    EPIPE or ENOTCONN, fails otherwise (EAGAIN, ...) *)
Inductive send_res := SAll | SSome (n : nat) | SPipe | SErr.
(** ipa_msg_recv_buffered: > 0, -EAGAIN, 0 or another error *)
Inductive recv_res := RMsg (m : msg) | RAgain | RFail.

Inductive out :=
| Opened | Closed                    (* a socket was made and registered / closed *)
| CloseCalled                        (* ipa_client_conn_close called by the user returned *)
| Up | Down                          (* updown_cb *)
| Acc (m : msg)                      (* accepted for transmission *)
| Tried (m : msg) (r : send_res)     (* handed to send(), then freed *)
| Cleared (ms : list msg)
| Rx (m : msg)                       (* read_cb / conn cb *)
| ClosedCb                           (* server closed_cb *)
| Ret (z : Z).

(** ** client: include/osmocom/abis/ipa.h:70-88.  [c_alive] = not talloc_free'd;
    [c_fd] = ofd->fd != -1 and registered; [c_conn] = state CONNECTED; [c_wr] =
    OSMO_FD_WRITE *)
Record client := mkC { c_alive : bool; c_fd : bool; c_conn : bool; c_wr : bool; c_timer : bool; c_q : list msg }.
(** ipa.c:190-241 ipa_client_conn_create2 *)
Definition client0 : client := mkC true false false true false [].

(** API calls, from the application or from inside a callback.  [AOpen]: connect
    timeout > 0, result of osmo_sock_init2, whether the fd was registered *)
Inductive act := AClose | AOpen (timeout : bool) (sock_rc : Z) (reg : bool) | ASend (m : msg) | AClear | ADestroy.

(** ipa.c:42-54 ipa_client_conn_close *)
Definition ipa_client_conn_close (c : client) : client * list out :=
  (mkC (c_alive c) false (c_conn c) (c_wr c) false (c_q c), if c_fd c then [Closed] else []).
(** ipa.c:253-280 ipa_client_conn_open2 *)
Definition ipa_client_conn_open2 (c : client) (timeout : bool) (sock_rc : Z) (reg : bool) : client * list out :=
  if c_fd c then (c, [Ret EINVAL]) else
  if sock_rc <? 0 then (mkC (c_alive c) false false (c_wr c) (c_timer c) (c_q c), [Ret sock_rc]) else
  if negb reg then (mkC (c_alive c) false false true (c_timer c) (c_q c), [Ret EIO]) else
  (mkC (c_alive c) true false true (c_timer c || timeout) (c_q c), [Opened; Ret 0]).
(** ipa.c:282-286 ipa_client_conn_send *)
Definition ipa_client_conn_send (c : client) (m : msg) : client * list out :=
  (mkC (c_alive c) (c_fd c) (c_conn c) true (c_timer c) (c_q c ++ [m]), [Acc m]).
(** ipa.c:288-300 ipa_client_conn_clear_queue *)
Definition ipa_client_conn_clear_queue (c : client) : client * list out :=
  (mkC (c_alive c) (c_fd c) (c_conn c) false (c_timer c) [], [Cleared (c_q c); Ret (Z.of_nat (length (c_q c)))]).
(** ipa.c:243-246 ipa_client_conn_destroy: only the memory *)
Definition ipa_client_conn_destroy (c : client) : client * list out :=
  (mkC false (c_fd c) (c_conn c) (c_wr c) (c_timer c) (c_q c), []).

Definition client_act (c : client) (a : act) : option (client * list out) :=
  if negb (c_alive c) then None else
  Some (match a with
        | AClose => let '(c, o) := ipa_client_conn_close c in (c, o ++ [CloseCalled])
        | AOpen t rc reg => ipa_client_conn_open2 c t rc reg
        | ASend m => ipa_client_conn_send c m
        | AClear => ipa_client_conn_clear_queue c
        | ADestroy => ipa_client_conn_destroy c
        end).
Fixpoint client_acts (c : client) (l : list act) : option (client * list out) :=
  match l with
  | [] => Some (c, [])
  | a :: r => do x <- client_act c a; do y <- client_acts (fst x) r; Some (fst y, snd x ++ snd y)
  end.

(** close, then updown_cb(link, 0) doing [u]: ipa.c:74-77, 109-113, 120-125 *)
Definition go_down (c : client) (u : list act) : option (client * list out) :=
  let '(c, o) := ipa_client_conn_close c in
  do y <- client_acts c u; Some (fst y, o ++ [Down] ++ snd y).
Definition ipa_connect_failure := go_down.

(** ipa.c:56-82 ipa_client_read: new state, outputs, return value; read_cb does
    [ra] and returns [rret] *)
Definition ipa_client_read (c : client) (r : recv_res) (ra : list act) (rret : Z) (u : list act) : option (client * list out * Z) :=
  match r with
  | RAgain => Some (c, [], 0)
  | RFail => do y <- go_down c u; Some (fst y, snd y, EBADF)
  | RMsg m => do y <- client_acts c ra; Some (fst y, Rx m :: snd y, rret)
  end.
(** ipa.c:84-118 ipa_client_write, ipa_client_write_default_cb; on fd -1 send fails
    with EBADF; the error is logged with link->addr after updown_cb returned *)
Definition ipa_client_write (c : client) (s : send_res) (u : list act) : option (client * list out) :=
  if negb (c_alive c) then None else
  match c_q c with
  | [] => Some (mkC (c_alive c) (c_fd c) (c_conn c) false (c_timer c) [], [])
  | m :: q =>
    let c := mkC (c_alive c) (c_fd c) (c_conn c) (c_wr c) (c_timer c) q in
    let s := if c_fd c then s else SErr in
    match s with
    | SPipe => do y <- go_down c u;
               if negb (c_alive (fst y)) then None else Some (fst y, Tried m s :: snd y)
    | _ => Some (c, [Tried m s])
    end
  end.
(** ipa.c:127-165 ipa_client_fd_cb.  [soerr]: SO_ERROR > 0.  [rd], [wr]: readable,
    writable; reported only if asked for and the fd is registered *)
Definition ipa_client_fd_cb (c : client) (rd wr soerr : bool) (r : recv_res) (ra : list act) (rret : Z)
    (s : send_res) (u : list act) : option (client * list out) :=
  if negb (c_fd c) then Some (c, []) else
  let wr := wr && c_wr c in
  if negb (rd || wr) then Some (c, []) else
  if negb (c_alive c) then None else
  if negb (c_conn c) then
    if soerr then ipa_connect_failure c u
    else do y <- client_acts (mkC (c_alive c) (c_fd c) true false false (c_q c)) u; Some (fst y, Up :: snd y)
  else
    do x <- (if rd then ipa_client_read c r ra rret u else Some (c, [], 0));
    let '(c, o, ret) := x in
    if negb (ret =? EBADF) && wr then do y <- ipa_client_write c s u; Some (fst y, o ++ snd y)
    else Some (c, o).
(** ipa.c:168-174 ipa_connect_timeout_cb, when the timer is running *)
Definition ipa_connect_timeout_cb (c : client) (u : list act) : option (client * list out) :=
  if negb (c_timer c) then Some (c, []) else
  if negb (c_alive c) then None else
  ipa_connect_failure (mkC (c_alive c) (c_fd c) (c_conn c) (c_wr c) false (c_q c)) u.

Inductive op :=
| Call (l : list act)
| FdEvent (rd wr soerr : bool) (r : recv_res) (ra : list act) (rret : Z) (s : send_res) (u : list act)
| TimerEvent (u : list act).
Definition step (c : client) (o : op) : option (client * list out) :=
  match o with
  | Call l => client_acts c l
  | FdEvent rd wr e r ra rret s u => ipa_client_fd_cb c rd wr e r ra rret s u
  | TimerEvent u => ipa_connect_timeout_cb c u
  end.
Fixpoint run (c : client) (ops : list op) : option (client * list out) :=
  match ops with
  | [] => Some (c, [])
  | o :: r => do x <- step c o; do y <- run (fst x) r; Some (fst y, snd x ++ snd y)
  end.

(** ** server connection: ipa.h struct ipa_server_conn *)
Record server := mkS { s_alive : bool; s_fd : bool; s_wr : bool; s_q : list msg }.
(** ipa.c:464-497 ipa_server_conn_create *)
Definition server0 : server := mkS true true false [].
Inductive sact := SSend (m : msg) | SDestroy.
(** ipa.c:580-584 ipa_server_conn_send *)
Definition ipa_server_conn_send (c : server) (m : msg) : server * list out :=
  (mkS (s_alive c) (s_fd c) true (s_q c ++ [m]), [Acc m]).
(** ipa.c:565-578 ipa_server_conn_destroy called from inside closed_cb: fd is -1 *)
Fixpoint closed_cb_acts (c : server) (l : list sact) : server * list out :=
  match l with
  | [] => (c, [])
  | SSend m :: r => let '(c, o) := ipa_server_conn_send c m in let '(c, o') := closed_cb_acts c r in (c, o ++ o')
  | SDestroy :: r => closed_cb_acts c r
  end.
(** ipa.c:565-578 ipa_server_conn_destroy; closed_cb does [cl].  The queue is not
    freed *)
Definition ipa_server_conn_destroy (c : server) (cl : list sact) : option (server * list out) :=
  if negb (s_alive c) then None else
  if negb (s_fd c) then Some (c, []) else
  let '(c, o) := closed_cb_acts (mkS (s_alive c) false (s_wr c) (s_q c)) cl in
  Some (mkS false (s_fd c) (s_wr c) (s_q c), [Closed; ClosedCb] ++ o).
Definition server_act (c : server) (a : sact) (cl : list sact) : option (server * list out) :=
  match a with
  | SSend m => if negb (s_alive c) then None else Some (ipa_server_conn_send c m)
  | SDestroy => ipa_server_conn_destroy c cl
  end.
Fixpoint server_acts (c : server) (l : list sact) (cl : list sact) : option (server * list out) :=
  match l with
  | [] => Some (c, [])
  | a :: r => do x <- server_act c a cl; do y <- server_acts (fst x) r cl; Some (fst y, snd x ++ snd y)
  end.
(** ipa.c:402-427 ipa_server_conn_read *)
Definition ipa_server_conn_read (c : server) (r : recv_res) (ra : list sact) (rret : Z) (cl : list sact) : option (server * list out * Z) :=
  match r with
  | RAgain => Some (c, [], 0)
  | RFail => do y <- ipa_server_conn_destroy c cl; Some (fst y, snd y, EBADF)
  | RMsg m => do y <- server_acts c ra cl; Some (fst y, Rx m :: snd y, rret)
  end.
(** ipa.c:429-447 ipa_server_conn_write *)
Definition ipa_server_conn_write (c : server) (s : send_res) : option (server * list out) :=
  if negb (s_alive c) then None else
  match s_q c with
  | [] => Some (mkS (s_alive c) (s_fd c) false [], [])
  | m :: q => Some (mkS (s_alive c) (s_fd c) (s_wr c) q, [Tried m s])
  end.
(** ipa.c:449-461 ipa_server_conn_cb *)
Definition ipa_server_conn_cb (c : server) (rd wr : bool) (r : recv_res) (ra : list sact) (rret : Z)
    (s : send_res) (cl : list sact) : option (server * list out) :=
  if negb (s_fd c) then Some (c, []) else
  let wr := wr && s_wr c in
  if negb (rd || wr) then Some (c, []) else
  if negb (s_alive c) then None else
  do x <- (if rd then ipa_server_conn_read c r ra rret cl else Some (c, [], 0));
  let '(c, o, ret) := x in
  if negb (ret =? EBADF) && wr then do y <- ipa_server_conn_write c s; Some (fst y, o ++ snd y)
  else Some (c, o).
Inductive sop :=
| SCall (a : sact) (cl : list sact)
| SEvent (rd wr : bool) (r : recv_res) (ra : list sact) (rret : Z) (s : send_res) (cl : list sact).
Definition sstep (c : server) (o : sop) : option (server * list out) :=
  match o with
  | SCall a cl => server_act c a cl
  | SEvent rd wr r ra rret s cl => ipa_server_conn_cb c rd wr r ra rret s cl
  end.
Fixpoint srun (c : server) (ops : list sop) : option (server * list out) :=
  match ops with
  | [] => Some (c, [])
  | o :: r => do x <- sstep c o; do y <- srun (fst x) r; Some (fst y, snd x ++ snd y)
  end.
(** ipa.c:499-563 ipa_server_conn_ccm: what it does to the connection and returns,
    [base] = ipa_ccm_rcvmsg_base, [idresp] = the message is an ID_RESP, [parse_ok] =
    TLVs parse, unit id present and not empty, [ccm_rc] = what ccm_cb returns *)
Definition ipa_server_conn_ccm (base : Z) (idresp parse_ok : bool) (ccm_rc : Z) : list sact * Z :=
  if base =? 1 then ([], 0) else
  if negb (base =? 0) then ([SDestroy], -1) else
  if negb idresp then ([], 0) else
  if negb parse_ok then ([SDestroy], -1) else
  if ccm_rc <? 0 then ([SDestroy], -1) else ([], 0).
