(** Model of src/trau/osmo_ortp.c: the RTP socket (osmo_rtp_socket_create, _bind, _connect,
    _autoconnect, _free, _poll, _set_param, osmo_rtp_send_frame_ext, osmo_rtp_skipped_frame and
    the two select loop callbacks).

    The RTP library (libortp) is a record of functions of a counter that grows with every
    question asked, so every behaviour is covered.  What the application does when it is given a
    packet is a list of commands.  [Bad] ends an execution: a descriptor put in the select loop
    twice, or a socket used after it was freed.
    Left out: osmo_rtp_init, logging and statistics, _set_pt, _set_dscp, _set_priority,
    osmo_rtp_get_bound_*, osmo_rtp_set_source_desc (calls passed on), allocation failures, the
    numbers of the descriptors. *)
From Coq Require Import List Arith Lia Bool ZArith.
From Verif Require Import Base.
Import ListNotations.
Open Scope Z_scope.

Definition u32 (z : Z) : Z := z mod 2 ^ 32.
(** a packet as libortp gives it: payload, sequence number, timestamp, marker *)
Record pkt := mkP { p_data : list Z; p_seq : Z; p_ts : Z; p_mark : bool }.
(** rtp_session_recvm_with_ts, given the user timestamp; rtp_session_create_packet;
    rtp_session_sendm_with_ts; rtp_session_set_remote_addr; rtp_session_set_local_addr;
    osmo_fd_register *)
Record kern := mkK { k_recv : nat -> Z -> option pkt; k_make : nat -> bool; k_send : nat -> Z; k_remote : nat -> Z; k_local : nat -> Z; k_reg : nat -> bool }.
Inductive why := Twice | UseAfterFree.
Inductive res (A : Type) := Ok (a : A) | Bad (r : why).
Arguments Ok {A} a. Arguments Bad {A} r.
Notation "'try' x <- a ; b" := (match a with Ok x => b | Bad r => Bad r end) (at level 200, x name, a at level 100, b at level 200).

Inductive eff :=
| ESent (ts : Z) (mark : bool) (m : list Z) (dur : Z) (rc : Z)   (* a packet handed to libortp *)
| ESkip (dur : Z) | ENoMem
| ERx (p : pkt)                                                  (* rx_cb *)
| EAsk (ts : Z)                                                  (* rtp_session_recvm_with_ts *)
| EReadable                                                      (* the select loop's call is done *)
| EConnMode (b : bool) | ERemote (port : Z) (rc : Z) | ESymmetric
| ELocal (port rtcp : Z) (rc : Z)
| EUp                                                            (* OSMO_RTP_F_DISABLED is gone *)
| EReg (rtcp : bool) | EUnreg (rtcp : bool) | ERtcp | EDestroy
| EBuffer (on : bool) (ms : Z) | EAdaptive (b : bool)
| ERet (rc : Z).                                                 (* return value of an API call *)
(** struct osmo_rtp_socket: flags; the descriptors; in the select loop, and (RTP) still to be
    polled for reading; timestamps; rx_cb is set; jitter settings of the session *)
Record st := mkS { disabled : bool; poll : bool; r_reg : bool; c_reg : bool; r_read : bool; rx_ts : Z; tx_ts : Z; cb : bool; buffer : bool; adaptive : bool; freed : bool; tick : nat; out : list eff }.
(** :373-423 osmo_rtp_socket_create: [ts] the random timestamp to start with.  libortp's jitter
    buffer is on by default (rtp_session_new), not adaptive *)
Definition st_init (pl : bool) (ts : Z) : st := mkS true pl false false false 0 (u32 ts) false true false false 0 [].
Definition emit (s : st) (e : eff) : st := mkS (disabled s) (poll s) (r_reg s) (c_reg s) (r_read s) (rx_ts s) (tx_ts s) (cb s) (buffer s) (adaptive s) (freed s) (tick s) (out s ++ [e]).
Definition next (s : st) : st := mkS (disabled s) (poll s) (r_reg s) (c_reg s) (r_read s) (rx_ts s) (tx_ts s) (cb s) (buffer s) (adaptive s) (freed s) (S (tick s)) (out s).
Definition w_tx (s : st) (t : Z) : st := mkS (disabled s) (poll s) (r_reg s) (c_reg s) (r_read s) (rx_ts s) t (cb s) (buffer s) (adaptive s) (freed s) (tick s) (out s).
Definition w_rx (s : st) (t : Z) : st := mkS (disabled s) (poll s) (r_reg s) (c_reg s) (r_read s) t (tx_ts s) (cb s) (buffer s) (adaptive s) (freed s) (tick s) (out s).
Definition w_cb (s : st) (b : bool) : st := mkS (disabled s) (poll s) (r_reg s) (c_reg s) (r_read s) (rx_ts s) (tx_ts s) b (buffer s) (adaptive s) (freed s) (tick s) (out s).
Definition w_up (s : st) : st := mkS false (poll s) (r_reg s) (c_reg s) (r_read s) (rx_ts s) (tx_ts s) (cb s) (buffer s) (adaptive s) (freed s) (tick s) (out s).
Definition w_reg (s : st) (a b : bool) : st := mkS (disabled s) (poll s) a b (r_read s) (rx_ts s) (tx_ts s) (cb s) (buffer s) (adaptive s) (freed s) (tick s) (out s).
Definition w_read (s : st) (b : bool) : st := mkS (disabled s) (poll s) (r_reg s) (c_reg s) b (rx_ts s) (tx_ts s) (cb s) (buffer s) (adaptive s) (freed s) (tick s) (out s).
Definition w_jit (s : st) (b a : bool) : st := mkS (disabled s) (poll s) (r_reg s) (c_reg s) (r_read s) (rx_ts s) (tx_ts s) (cb s) b a (freed s) (tick s) (out s).
Definition w_freed (s : st) : st := mkS (disabled s) (poll s) (r_reg s) (c_reg s) (r_read s) (rx_ts s) (tx_ts s) (cb s) (buffer s) (adaptive s) true (tick s) (out s).

(** ** The API but polling *)
Inductive cmd :=
| CBind (port : Z) | CConnect (port : Z) | CAuto | CSkip (dur : Z) | CSend (m : list Z) (dur : Z) (mark : bool)
| CJitter (adapt : bool) (val : Z) | CRxTs (t : Z) | CCallback (b : bool) | CFree.
(** :255-275 osmo_rtp_socket_fdreg *)
Definition fdreg (k : kern) (s : st) : res (st * Z) :=
  let s := w_read s true in
  if r_reg s then Bad Twice else
  if negb (k_reg k (tick s)) then Ok (next s, -1) else
  let s := emit (next (w_reg s true (c_reg s))) (EReg false) in
  if c_reg s then Bad Twice else
  if negb (k_reg k (tick s)) then Ok (emit (next (w_reg s false (c_reg s))) (EUnreg false), -1) else
  Ok (emit (next (w_reg s true true)) (EReg true), 0).
(** :427-447 osmo_rtp_socket_bind *)
Definition bind (k : kern) (port : Z) (s : st) : st * Z :=
  let rtcp := if port =? -1 then -1 else port + 1 in
  let rc := k_local k (tick s) in
  (emit (next s) (ELocal port rtcp rc), if rc <? 0 then rc else 0).
(** :462-495 osmo_rtp_socket_connect *)
Definition connect (k : kern) (port : Z) (s : st) : res (st * Z) :=
  if port =? 0 then Ok (s, 0) else
  let s := emit s (EConnMode false) in
  let rc := k_remote k (tick s) in
  let s := emit (next s) (ERemote port rc) in
  if rc <? 0 then Ok (s, rc) else
  let s := emit (w_up (emit s (EConnMode true))) EUp in
  if poll s then Ok (s, rc) else fdreg k s.
(** :509-519 osmo_rtp_socket_autoconnect *)
Definition autoconnect (k : kern) (s : st) : res (st * Z) :=
  let s := emit (w_up (emit (emit s ESymmetric) (EConnMode true))) EUp in
  if poll s then Ok (s, 0) else fdreg k s.
(** :536-543 osmo_rtp_skipped_frame *)
Definition skipped (dur : Z) (s : st) : st * Z :=
  if disabled s then (s, 0) else (emit (w_tx s (u32 (tx_ts s + dur))) (ESkip dur), 0).
(** :568-595 osmo_rtp_send_frame_ext *)
Definition send (k : kern) (m : list Z) (dur : Z) (mark : bool) (s : st) : st * Z :=
  if disabled s then (s, 0) else
  if negb (k_make k (tick s)) then (emit (next s) ENoMem, -12) else
  let s := next s in
  let rc := k_send k (tick s) in
  (emit (next (w_tx s (u32 (tx_ts s + dur)))) (ESent (tx_ts s) mark m dur rc), rc).
(** :344-365 osmo_rtp_socket_set_param *)
Definition set_param (adapt : bool) (val : Z) (s : st) : st * Z :=
  let v := negb (val =? 0) in
  let s := if adapt then emit (w_jit s (buffer s) v) (EAdaptive v) else s in
  let s := emit (w_jit s v (adaptive s)) (EBuffer v val) in
  (s, if (if adapt then adaptive s else buffer s) then 1 else 0).
(** :649-668 osmo_rtp_socket_free *)
Definition free (s : st) : st :=
  let s := if r_reg s then emit (w_reg s false (c_reg s)) (EUnreg false) else s in
  let s := if c_reg s then emit (w_reg s (r_reg s) false) (EUnreg true) else s in
  emit (w_freed s) EDestroy.
Definition ret (p : st * Z) : st := emit (fst p) (ERet (snd p)).
Definition exec (k : kern) (s : st) (c : cmd) : res st :=
  if freed s then Bad UseAfterFree else
  match c with
  | CBind port => Ok (ret (bind k port s))
  | CConnect port => try p <- connect k port s; Ok (ret p)
  | CAuto => try p <- autoconnect k s; Ok (ret p)
  | CSkip d => Ok (ret (skipped d s))
  | CSend m d mk => Ok (ret (send k m d mk s))
  | CJitter a v => Ok (ret (set_param a v s))
  | CRxTs t => Ok (w_rx s (u32 t))
  | CCallback b => Ok (w_cb s b)
  | CFree => Ok (free s)
  end.
Fixpoint execs (k : kern) (cs : list cmd) (s : st) : res st :=
  match cs with [] => Ok s | c :: r => try s <- exec k s c; execs k r s end.
(** :173-189 recv_with_cb; [act]: what the application does in its callback.  The packet's
    payload is looked at again after the callback, the socket is not *)
Definition recv (k : kern) (act : list cmd) (s : st) : res (st * bool) :=
  match k_recv k (tick s) (rx_ts s) with
  | None => Ok (emit (next s) (EAsk (rx_ts s)), false)
  | Some p =>
    let s := emit (next s) (EAsk (rx_ts s)) in
    let some := negb (Nat.eqb (length (p_data p)) 0) in
    try s <- (if cb s && some then execs k act (emit s (ERx p)) else Ok s);
    Ok (s, some)
  end.
(** :195-208 osmo_rtp_socket_poll *)
Definition poll_socket (k : kern) (act : list cmd) (s : st) : res st :=
  if freed s then Bad UseAfterFree else
  if disabled s then Ok (emit s (ERet 0)) else
  try p <- recv k act s; Ok (emit (fst p) (ERet (if snd p then 1 else 0))).
(** :212-232 osmo_rtp_fd_cb *)
Definition fd_cb (k : kern) (act : list cmd) (s : st) : res st :=
  if poll s then Ok (w_read s false) else
  try p <- recv k act s;
  if freed (fst p) then Bad UseAfterFree else Ok (emit (w_rx (fst p) (u32 (rx_ts (fst p) + 160))) EReadable).
(** [Ready]: the select loop finds a packet; [Rtcp]: one on the RTCP descriptor (:238-246) *)
Inductive ev := App (cs : list cmd) | Poll (act : list cmd) | Ready (act : list cmd) | Rtcp.
Definition step (k : kern) (s : st) (v : ev) : res st :=
  match v with
  | App cs => execs k cs s
  | Poll act => poll_socket k act s
  | Ready act => if r_reg s && r_read s then fd_cb k act s else Ok s
  | Rtcp => Ok (if c_reg s then emit s ERtcp else s)
  end.
Fixpoint run (k : kern) (s : st) (vs : list ev) : res st :=
  match vs with [] => Ok s | v :: r => try s <- step k s v; run k s r end.
