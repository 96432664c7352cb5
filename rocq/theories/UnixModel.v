(** Model of src/input/unixsocket.c (330 lines, all functions) over one line.

    The kernel is the environment: what connect(), osmo_fd_register(), write() and
    read() return is taken from lists of answers.  Descriptors are numbers; which
    ones are open is not part of the model state but is computed from the trace by
    the specification.  The LAPD instance (src/input/lapd.c, C33-C36) is the
    environment too: it may hand any message to unixsocket_write_msg_lapd_cb; what
    it is given is recorded in the trace.  Logging and out-of-memory are left out. *)
From Coq Require Import List Arith Lia Bool ZArith.
From Verif Require Import Base E1Model.
Import ListNotations.
Open Scope Z_scope.

(** include/osmocom/abis/unixsocket_proto.h:25-30 *)
Definition PROTO_VERSION : Z := 1.
Definition PROTO_DATA : Z := 0.
Definition PROTO_CONTROL : Z := 1.
(** unixsocket.c:43 *)
Definition ALLOC_SIZE : nat := 1600.

(** answers of the environment: osmo_sock_unix_init fails, or a new descriptor and
    whether osmo_fd_register succeeds *)
Inductive conn := CFail (rc : Z) | COk (fd : Z) (reg : bool).
(** answer of read(): one datagram of the peer, end of file, an error *)
Inductive rd := RdData (d : list Z) | RdEof | RdErr.

(** what happened, in order *)
Inductive eff :=
| EConn (fd : Z)                          (* a socket was connected *)
| EFail                                   (* connecting failed *)
| EReg (fd : Z) (ok : bool) | EUnreg (fd : Z)   (* select loop *)
| EWrite (fd : Z) (d : list Z) (ok : bool)  (* write(fd, d): ok, or -1 *)
| EClose (fd : Z)
| EUp (d : list Z)                        (* e1inp_rx_ts_lapd on ts[0] *)
| ELapd (tei sapi : Z) (m : list Z).      (* lapd_transmit on ts[0] *)

(** line->driver_data and what else of the line the driver touches: [u_drv] =
    driver_data is not NULL, [u_fd], [u_reg], [u_wr]: its osmo_fd (number,
    registered, OSMO_FD_WRITE), [u_lapd]: ts[i].lapd allocated, [u_links]: the
    signalling links of ts[0] *)
Record ust := mkU { u_drv : bool; u_fd : Z; u_reg : bool; u_wr : bool; u_lapd : bool; u_links : list link }.
(** a line never updated; talloc_zero makes fd.fd = 0 *)
Definition ust0 (ls : list link) : ust := mkU false 0 false false false ls.

(** the environment's answers not used up: connect, write *)
Definition env := (list conn * list bool)%type.
Definition res := (list eff * ust * env * Z)%type.
Definition pop_write (ws : list bool) : bool * list bool :=
  match ws with [] => (true, []) | b :: r => (b, r) end.

(** :53-73 unixsocket_exception_cb up to the reconnect *)
Definition drop_fd (s : ust) : list eff * ust :=
  ((if u_reg s then [EUnreg (u_fd s)] else []) ++ [EClose (u_fd s)],
   mkU (u_drv s) (u_fd s) false (u_wr s) (u_lapd s) (u_links s)).

(** :317-327 e1inp_ericsson_set_altc: the message *)
Definition altc_msg (superchannel : Z) : list Z :=
  [PROTO_VERSION; PROTO_CONTROL; 0x23; 0x00; 0x42; 0x00; if superchannel =? 0 then 0 else 1].

(** :207-282 unixsocket_line_update, :174-188 unixsocket_write_msg and :53-73
    unixsocket_exception_cb, which call each other: line_update ends with
    e1inp_ericsson_set_altc(line, 0), the write of which may fail and reconnect.
    Structural on the connect answers; without an answer connect fails. *)
Fixpoint line_update (cs : list conn) (ws : list bool) (s : ust) : res :=
  match cs with
  | [] => ([EFail], mkU true (u_fd s) (u_reg s) (u_wr s) (u_lapd s) (u_links s), ([], ws), -1)
  | CFail rc :: cs =>
    ([EFail], mkU true (u_fd s) (u_reg s) (u_wr s) (u_lapd s) (u_links s), (cs, ws), rc)
  | COk fd false :: cs =>
    ([EConn fd; EReg fd false; EClose fd], mkU true fd false false (u_lapd s) (u_links s), (cs, ws), EIO)
  | COk fd true :: cs =>
    let s := mkU true fd true false true (u_links s) in
    let '(ok, ws) := pop_write ws in
    if ok then ([EConn fd; EReg fd true; EWrite fd (altc_msg 0) true], s, (cs, ws), fd)
    else
      let '(e1, s) := drop_fd s in
      let '(e2, s, env, _) := line_update cs ws s in
      ([EConn fd; EReg fd true; EWrite fd (altc_msg 0) false] ++ e1 ++ e2, s, env, fd)
  end.

(** :53-73 unixsocket_exception_cb *)
Definition exception_cb (e : env) (s : ust) : res :=
  let '(e1, s) := drop_fd s in
  let '(e2, s, e, _) := line_update (fst e) (snd e) s in
  (e1 ++ e2, s, e, 0).

(** :174-188 unixsocket_write_msg *)
Definition write_msg (e : env) (s : ust) (m : list Z) : res :=
  let '(ok, ws) := pop_write (snd e) in
  if ok then ([EWrite (u_fd s) m true], s, (fst e, ws), 0)
  else
    let '(es, s', e', rc) := exception_cb (fst e, ws) s in
    ([EWrite (u_fd s) m false] ++ es, s', e', rc).

(** :195-205 unixsocket_write_msg_lapd_cb: msgb_push_u8 twice *)
Definition write_msg_lapd_cb (e : env) (s : ust) (m : list Z) : res :=
  write_msg e s (PROTO_VERSION :: PROTO_DATA :: m).

(** :75-129 unixsocket_read_cb; the datagram is cut to ALLOC_SIZE - 16 by read() *)
Definition read_cb (e : env) (s : ust) (r : rd) : res :=
  match r with
  | RdEof => exception_cb e s
  | RdErr => ([], s, e, -1)
  | RdData d =>
    let d := firstn (ALLOC_SIZE - 16) d in
    match d with
    | version :: controldata :: m =>
      if negb (version =? PROTO_VERSION) then ([], s, e, -1) else
      if controldata =? PROTO_DATA then ([EUp m], s, e, 0) else ([], s, e, -1)
    | _ => ([], s, e, -1)
    end
  end.

(** :131-151 unixsocket_write_cb *)
Definition write_cb (e : env) (s : ust) : res :=
  match dequeue (u_links s) with
  | None => ([], mkU (u_drv s) (u_fd s) (u_reg s) false (u_lapd s) (u_links s), e, 0)
  | Some (l, m, ls) =>
    ([ELapd (lk_tei l) (lk_sapi l) m], mkU (u_drv s) (u_fd s) (u_reg s) (u_wr s) (u_lapd s) ls, e, 0)
  end.

(** :165-172 ts_want_write, called from abis_sendmsg (e1_input.c:293-328) for a link
    of ts[0]; the driver sets no tx delay, so no tx timer.  None: driver_data is
    NULL *)
Definition send (s : ust) (id : nat) (m : list Z) : option ust :=
  if u_drv s then
    Some (mkU (u_drv s) (u_fd s) (u_reg s) true (u_lapd s)
      (map (fun l => if Nat.eqb (lk_id l) id then mkLink (lk_id l) (lk_type l) (lk_tei l) (lk_sapi l) (lk_q l ++ [m]) else l) (u_links s)))
  else None.

(** :297-329 e1inp_ericsson_set_altc on a line of this driver *)
Definition set_altc (e : env) (s : ust) (superchannel : Z) : res :=
  if u_drv s then write_msg e s (altc_msg superchannel) else ([], s, e, 0).

(** events: the user calls e1inp_line_update, e1inp_ericsson_set_altc, abis_sendmsg;
    the select loop reports the descriptor readable or writable (only while it is
    registered, and writable only while OSMO_FD_WRITE is set: unixsocket_cb,
    :153-163); the LAPD instance transmits (only once it exists) *)
Inductive ev := Update | Altc (superchannel : Z) | Send (id : nat) (m : list Z)
| Readable (r : rd) | Writable | LapdTx (m : list Z).
Definition step (e : env) (s : ust) (v : ev) : option res :=
  match v with
  | Update => Some (line_update (fst e) (snd e) s)
  | Altc b => Some (set_altc e s b)
  | Send id m => do s <- send s id m; Some ([], s, e, 0)
  | Readable r => Some (if u_reg s then read_cb e s r else ([], s, e, 0))
  | Writable => Some (if u_reg s && u_wr s then write_cb e s else ([], s, e, 0))
  | LapdTx m => Some (if u_lapd s then write_msg_lapd_cb e s m else ([], s, e, 0))
  end.
Fixpoint run (e : env) (s : ust) (vs : list ev) : option (list eff * ust * env) :=
  match vs with
  | [] => Some ([], s, e)
  | v :: r =>
    do x <- step e s v; let '(es, s, e, _) := x in
    do y <- run e s r; let '(es', s, e) := y in Some (es ++ es', s, e)
  end.
