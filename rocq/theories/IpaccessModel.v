(** Model of src/input/ipaccess.c, BSC side: connections accepted on the OML and RSL
    ports, the virtual lines they are attached to, keepalive machines, signalling
    links, transmission and reception.  (BTS side: IpaccessBtsModel.v.)

    Objects (virtual lines, connections, keepalive machines, signalling links) are
    numbered in order of creation; a freed object is no longer in the state and any
    access to it is [None], as are failing OSMO_ASSERTs.  The application's callbacks
    are environment: what it does in them is given as a tree of commands
    ([ucmd]); it is taken to touch live objects only (a command on a dead object is
    skipped).  libosmo-netif: osmo_stream_srv_destroy closes the socket, calls the
    closed callback and then frees the connection with what is allocated under it.
    Left out: signal dispatch, socket options, TCP statistics, ts->driver.ipaccess.fd.fd, logging,
    allocation failures. *)
From Coq Require Import List Arith Lia Bool ZArith.
From Verif Require Import Base.
Import ListNotations.
Open Scope Z_scope.

(** include/osmocom/abis/e1_input.h:25-30 enum e1inp_sign_type; :16 NUM_E1_TS *)
Definition OML : Z := 1. Definition RSL : Z := 2. Definition OSMO : Z := 3.
Definition NUM_E1_TS : nat := 32.
(** libosmocore gsm/protocol/ipaccess.h *)
Definition PROTO_IPACCESS : Z := 0xfe.
Definition MSGT_PONG : Z := 1. Definition MSGT_ID_RESP : Z := 5.

(** what the driver uses of struct e1inp_ts: driver.ipaccess.fd.data, .priv_nr, ka_fsm,
    and whether the timeslot is configured for signalling *)
Record ts := mkT { t_data : option nat; t_priv : Z; t_ka : option nat; t_sign : bool }.
Definition ts0 : ts := mkT None 0 None false.
(** struct e1inp_line: its use count by token ("ipa_bfd", "e1inp_sign_link", the others)
    and its timeslots *)
Record line := mkN { n_bfd : Z; n_lnk : Z; n_tmp : Z; n_ts : nat -> ts }.
(** struct osmo_stream_srv: its data, the timeslot it is attached to *)
Record conn := mkC { c_id : nat; c_at : option (nat * nat) }.
(** struct e1inp_sign_link *)
Record lk := mkL { l_id : nat; l_line : nat; l_ts : nat; l_type : Z; l_tei : Z; l_sapi : Z; l_tx : list (list Z) }.
(** observable effects; [EQueue]: abis_sendmsg is called on a link; [ESend l c]: octets
    are handed to connection [c] for link [l]; [ETxDrop]: a message is discarded *)
Inductive eff :=
| EQueue (l : nat) (m : list Z) | ESend (l c : nat) (octets : list Z) | EDeliver (l : nat) (octets : list Z) | ETxDrop (l : nat) (octets : list Z)
| EUp (ln : nat) (type : Z) | EDown (ln : nat) | EClose (c : nat) | EFreeLine (ln : nat)
| EKaStart (k c : nat) | EKaTerm (k : nat) | EKaPong (k : nat).
(** [kas]: the keepalive machines that exist, with the connection they are allocated
    under and supervise; [kap]: keepalive is configured on the line (line->ipa_kap) *)
Record st := mkSt { lines : nat -> option line; conns : list conn; kas : nat -> option nat; lks : list lk; kap : bool; nxt : nat; out : list eff }.
(** line 0 is the configured line, which the listening sockets refer to *)
Definition st_init (k : bool) : st := mkSt (fun i => if Nat.eqb i 0 then Some (mkN 0 0 1 (fun _ => ts0)) else None) [] (fun _ => None) [] k 1 [].

Definition upd {A} (f : nat -> A) (i : nat) (v : A) : nat -> A := fun j => if Nat.eqb j i then v else f j.
Definition emit (s : st) (e : eff) : st := mkSt (lines s) (conns s) (kas s) (lks s) (kap s) (nxt s) (out s ++ [e]).
Definition set_line (s : st) (l : nat) (n : option line) : st := mkSt (upd (lines s) l n) (conns s) (kas s) (lks s) (kap s) (nxt s) (out s).
Definition set_conns (s : st) (c : list conn) : st := mkSt (lines s) c (kas s) (lks s) (kap s) (nxt s) (out s).
Definition set_kas (s : st) (k : nat -> option nat) : st := mkSt (lines s) (conns s) k (lks s) (kap s) (nxt s) (out s).
Definition set_lks (s : st) (k : list lk) : st := mkSt (lines s) (conns s) (kas s) k (kap s) (nxt s) (out s).
Definition fresh (s : st) : st := mkSt (lines s) (conns s) (kas s) (lks s) (kap s) (S (nxt s)) (out s).
Definition set_ts (n : line) (t : nat) (x : ts) : line := mkN (n_bfd n) (n_lnk n) (n_tmp n) (upd (n_ts n) t x).

(** e1inp_line_get2, e1inp_line_put2 (e1_input.h:300-301, src/e1_input.c:530-570): the
    line is freed when no token is left; a put without get fails an assertion *)
Inductive tok := Tbfd | Tlnk | Ttmp.
Definition use_add (n : line) (t : tok) (d : Z) : line :=
  match t with
  | Tbfd => mkN (n_bfd n + d) (n_lnk n) (n_tmp n) (n_ts n)
  | Tlnk => mkN (n_bfd n) (n_lnk n + d) (n_tmp n) (n_ts n)
  | Ttmp => mkN (n_bfd n) (n_lnk n) (n_tmp n + d) (n_ts n)
  end.
Definition use_of (n : line) (t : tok) : Z := match t with Tbfd => n_bfd n | Tlnk => n_lnk n | Ttmp => n_tmp n end.
Definition line_get (s : st) (l : nat) (t : tok) : option st :=
  do n <- lines s l; Some (set_line s l (Some (use_add n t 1))).
Definition line_put (s : st) (l : nat) (t : tok) : option st :=
  do n <- lines s l;
  if use_of n t <=? 0 then None else
  let n := use_add n t (-1) in
  if n_bfd n + n_lnk n + n_tmp n =? 0 then Some (emit (set_line s l None) (EFreeLine l))
  else Some (set_line s l (Some n)).

Definition find_conn (s : st) (c : nat) : option conn := find (fun x => Nat.eqb (c_id x) c) (conns s).
Definition set_at (s : st) (c : nat) (a : option (nat * nat)) : st :=
  set_conns s (map (fun x => if Nat.eqb (c_id x) c then mkC (c_id x) a else x) (conns s)).
Definition find_lk (s : st) (l : nat) : option lk := find (fun x => Nat.eqb (l_id x) l) (lks s).

(** ipaccess.c:81-90 ipaccess_keepalive_fsm_cleanup *)
Definition ka_cleanup (s : st) (l t : nat) : option st :=
  do n <- lines s l;
  let x := n_ts n t in
  match t_ka x with
  | None => Some s
  | Some k =>
    do _c <- kas s k;
    Some (emit (set_line (set_kas s (upd (kas s) k None)) l (Some (set_ts n t (mkT (t_data x) (t_priv x) None (t_sign x))))) (EKaTerm k))
  end.
(** :105-124 ipaccess_bsc_keepalive_fsm_alloc (with ipa_keepalive_fsm_start) *)
Definition ka_alloc (s : st) (l t c : nat) : option st :=
  do s <- ka_cleanup s l t;
  if kap s then
    do n <- lines s l;
    let x := n_ts n t in
    let k := nxt s in
    Some (fresh (emit (set_line (set_kas s (upd (kas s) k (Some c))) l (Some (set_ts n t (mkT (t_data x) (t_priv x) (Some k) (t_sign x))))) (EKaStart k c)))
  else Some s.

(** :593-612 ipaccess_bsc_conn_closed_cb; [down]: what the application does in
    sign_link_down *)
Definition closed_cb (down : st -> option st) (s : st) (c : nat) : option st :=
  do x <- find_conn s c;
  do at_ <- c_at x;
  let '(l, t) := at_ in
  do s <- line_get s l Ttmp;
  do s <- line_put s l Tbfd;
  do s <- ka_cleanup s l t;
  let s := set_at s c None in
  do n <- lines s l;
  let y := n_ts n t in
  let s := set_line s l (Some (set_ts n t (mkT None (t_priv y) (t_ka y) (t_sign y)))) in
  do s <- down (emit s (EDown l));
  line_put s l Ttmp.
(** osmo_stream_srv_destroy *)
Definition srv_destroy (down : st -> option st) (s : st) (c : nat) : option st :=
  do _x <- find_conn s c;
  do s <- closed_cb down (emit s (EClose c)) c;
  let s := set_conns s (filter (fun x => negb (Nat.eqb (c_id x) c)) (conns s)) in
  Some (set_kas s (fun k => match kas s k with Some c' => if Nat.eqb c' c then None else Some c' | None => None end)).
(** :362-405 ipaccess_close (BSC) *)
Definition ipaccess_close (down : st -> option st) (s : st) (l t : nat) : option st :=
  do n <- lines s l;
  do _k <- match t_ka (n_ts n t) with Some k => do _c <- kas s k; Some tt | None => Some tt end;
  match t_data (n_ts n t) with
  | Some c => srv_destroy down s c
  | None => Some s
  end.
(** src/e1_input.c:809-837 e1inp_sign_link_destroy: the link leaves the timeslot, what it
    had queued is freed, the driver closes the connection, the line is released *)
Definition sign_link_destroy (down : st -> option st) (s : st) (id : nat) : option st :=
  match find_lk s id with
  | None => Some s
  | Some k =>
    let s := set_lks s (filter (fun x => negb (Nat.eqb (l_id x) id)) (lks s)) in
    do s <- ipaccess_close down s (l_line k) (l_ts k);
    line_put s (l_line k) Tlnk
  end.

(** ipa_prepend_header: length of the payload, stream identifier *)
Definition ipa_header (proto len : Z) : list Z := [len / 256 mod 256; len mod 256; proto].
Definition known_type (t : Z) : bool := (t =? OML) || (t =? RSL) || (t =? OSMO).
(** :460-483 ipaccess_bsc_send_msg *)
Definition send_msg (k : lk) (c : nat) (m : list Z) : eff :=
  if known_type (l_type k) then ESend (l_id k) c (ipa_header (l_tei k) (Z.of_nat (length m)) ++ m) else ETxDrop (l_id k) m.
(** src/e1_input.c:985-994 e1inp_tx_ts: the next message of the timeslot, from the first
    link that has one *)
Fixpoint tx_ts (l t : nat) (ks : list lk) : option (lk * list Z * list lk) :=
  match ks with
  | [] => None
  | k :: r =>
    match (if Nat.eqb (l_line k) l && Nat.eqb (l_ts k) t then l_tx k else []) with
    | m :: q => Some (k, m, mkL (l_id k) (l_line k) (l_ts k) (l_type k) (l_tei k) (l_sapi k) q :: r)
    | [] => do x <- tx_ts l t r; Some (fst x, k :: snd x)
    end
  end.
(** :406-416 e1i_ts_has_pending_tx_msgs, :487-511 ipaccess_bsc_write_cb; the loop takes as
    many turns as messages are pending; the list of links of a timeslot that has not been
    configured for signalling is a null pointer *)
Fixpoint write_loop (fuel : nat) (l t c : nat) (s : st) : st :=
  match fuel with
  | O => s
  | S fuel => match tx_ts l t (lks s) with
              | None => s
              | Some (k, m, ks) => write_loop fuel l t c (emit (set_lks s ks) (send_msg k c m))
              end
  end.
Definition pending (l t : nat) (ks : list lk) : nat :=
  length (flat_map (fun k => if Nat.eqb (l_line k) l && Nat.eqb (l_ts k) t then l_tx k else []) ks).
Definition write_cb (s : st) (l t : nat) : option st :=
  do n <- lines s l;
  match t_data (n_ts n t) with
  | None => Some s
  | Some c => do _x <- find_conn s c; if negb (t_sign (n_ts n t)) then None else Some (write_loop (pending l t (lks s)) l t c s)
  end.

(** ** The application *)
(** [UDestroy l down]: it destroys the link; [down] is what it does in sign_link_down if
    that closes a connection.  It does not configure timeslots or create links on the
    line the listening sockets refer to (line 0). *)
Inductive ucmd :=
| UConfig (l t : nat) | UCreate (l t : nat) (type tei sapi : Z) | USend (k : nat) (m : list Z) | UDestroy (k : nat) (down : list ucmd).
(** src/e1_input.c:455-471 e1inp_ts_config_sign *)
Definition config_sign (s : st) (l t : nat) : st :=
  match lines s l with
  | Some n => if Nat.ltb t NUM_E1_TS && negb (Nat.eqb l 0) then
      let x := n_ts n t in set_line s l (Some (set_ts n t (mkT (t_data x) (t_priv x) (t_ka x) true))) else s
  | None => s
  end.
(** src/e1_input.c:781-807 e1inp_sign_link_create *)
Definition link_create (s : st) (l t : nat) (type tei sapi : Z) : option st :=
  match lines s l with
  | Some n => if Nat.ltb t NUM_E1_TS && t_sign (n_ts n t) && negb (Nat.eqb l 0) then
      do s <- line_get s l Tlnk;
      Some (fresh (set_lks s (lks s ++ [mkL (nxt s) l t type tei sapi []])))
    else Some s
  | None => Some s
  end.
(** src/e1_input.c:294-327 abis_sendmsg, ipaccess.c:513-536 ts_want_write (role BSC) *)
Definition link_send (s : st) (id : nat) (m : list Z) : option st :=
  match find_lk s id with
  | None => Some s
  | Some k =>
    let s := set_lks (emit s (EQueue id m)) (map (fun x => if Nat.eqb (l_id x) id then mkL (l_id x) (l_line x) (l_ts x) (l_type x) (l_tei x) (l_sapi x) (l_tx x ++ [m]) else x) (lks s)) in
    write_cb s (l_line k) (l_ts k)
  end.
Fixpoint exec (c : ucmd) (s : st) {struct c} : option st :=
  match c with
  | UConfig l t => Some (config_sign s l t)
  | UCreate l t ty tei sapi => link_create s l t ty tei sapi
  | USend k m => link_send s k m
  | UDestroy k down =>
    sign_link_destroy ((fix execs (cs : list ucmd) (s : st) : option st :=
       match cs with [] => Some s | c :: r => do s <- exec c s; execs r s end) down) s k
  end.
Fixpoint execs (cs : list ucmd) (s : st) : option st :=
  match cs with [] => Some s | c :: r => do s <- exec c s; execs r s end.

(** ** Events *)
(** src/e1_input.c:657-700 e1inp_line_clone of line 0, whose timeslots are unused *)
Definition clone (s : st) : st * nat :=
  let l := nxt s in (fresh (set_line s l (Some (mkN 1 0 0 (fun _ => ts0)))), l).
(** :666-719 ipaccess_bsc_oml_accept_cb; [idreq]: ID_GET could be sent *)
Definition oml_accept (s : st) (idreq : bool) (down : list ucmd) : option st :=
  let '(s, l) := clone s in
  do n <- lines s l;
  let c := nxt s in
  let s := set_line s l (Some (set_ts n 0 (mkT (Some c) OML None true))) in
  let s := fresh (set_conns s (mkC c (Some (l, 0%nat)) :: conns s)) in
  if idreq then Some s else srv_destroy (execs down) s c.
(** e1_input.h:253 e1inp_line_ipa_rsl_ts *)
Definition rsl_ts (trx : nat) : option nat := if Nat.ltb (1 + trx) NUM_E1_TS then Some (1 + trx)%nat else None.
(** :721-773 ipaccess_bsc_rsl_accept_cb *)
Definition rsl_accept (s : st) (idreq : bool) (down : list ucmd) : option st :=
  let '(s, l) := clone s in
  do n <- lines s l;
  let n := set_ts n 0 (mkT None 0 None true) in
  let c := nxt s in
  do t <- rsl_ts 0;
  let s := set_line s l (Some (set_ts n t (mkT (Some c) RSL None false))) in
  let s := fresh (set_conns s (mkC c (Some (l, t)) :: conns s)) in
  if idreq then Some s else srv_destroy (execs down) s c.

(** what the environment answers while a message is processed: [base] the result of
    ipa_ccm_rcvmsg_base, [unit] the TRX number of the unit identifier if the ID_RESP is
    well-formed, [up], [up_ret] the application's actions in sign_link_up and the link it
    returns, [act] its actions in sign_link and [rc] whether that returns an error, [down] its
    actions in sign_link_down *)
Record env := mkE { e_base : Z; e_unit : option nat; e_up : list ucmd; e_ret : option nat; e_act : list ucmd; e_rc : bool; e_down : list ucmd }.
(** the link returned by sign_link_up; a dead one is taken for NULL *)
Definition up_ret (s : st) (e : env) : option lk := match e_ret e with Some id => find_lk s id | None => None end.
(** :216-360 ipaccess_bsc_rcvmsg; [mt]: the message type *)
Definition rcvmsg (e : env) (s : st) (c : nat) (mt : Z) : option st :=
  do x <- find_conn s c;
  do at_ <- c_at x;
  let '(l, t) := at_ in
  do n <- lines s l;
  do s <- match t_ka (n_ts n t) with
          | Some k => if mt =? MSGT_PONG then do _c <- kas s k; Some (emit s (EKaPong k)) else Some s
          | None => Some s end;
  let err := fun s => srv_destroy (execs (e_down e)) s c in
  if e_base e =? 1 then Some s else
  if negb (e_base e =? 0) then err s else
  if negb (mt =? MSGT_ID_RESP) then err s else
  match e_unit e with
  | None => err s
  | Some trx =>
    if t_priv (n_ts n t) =? OML then
      do s <- execs (e_up e) (emit s (EUp l OML));
      match up_ret s e with
      | None => err s
      | Some _ => do _x <- find_conn s c; ka_alloc s l t c
      end
    else if t_priv (n_ts n t) =? RSL then
      do s <- execs (e_up e) (emit s (EUp l RSL));
      match up_ret s e with
      | None => err s
      | Some k =>
        let nl := l_line k in
        if Nat.eqb nl l then Some s else
        do s <- line_get s nl Tbfd;
        do nt <- rsl_ts trx;
        do nn <- lines s nl;
        let y := n_ts nn nt in
        let s := set_line s nl (Some (set_ts nn nt (mkT (Some c) (RSL + Z.of_nat trx) (t_ka y) (t_sign y)))) in
        do _x <- find_conn s c;
        let s := set_at s c (Some (nl, nt)) in
        do n <- lines s l;
        let z := n_ts n t in
        if negb (match t_data z with Some d => Nat.eqb d c | None => false end) then None else
        let s := set_line s l (Some (set_ts n t (mkT None (t_priv z) (t_ka z) (t_sign z)))) in
        do s <- line_put s l Tbfd;
        do s <- ka_alloc s nl nt c;
        write_cb s nl nt
      end
    else Some s
  end.
(** src/e1_input.c:766-777 e1inp_lookup_sign_link *)
Definition lookup_link (s : st) (l t : nat) (tei sapi : Z) : option lk :=
  find (fun k => Nat.eqb (l_line k) l && Nat.eqb (l_ts k) t && (l_sapi k =? sapi) && (l_tei k =? tei)) (lks s).
(** :538-591 ipaccess_bsc_conn_read_cb; [m]: None for a read error or end of file, else
    stream identifier and payload, whose first octet is the message type; sign_link is set;
    an error it returns is logged with the number of the line *)
Definition read_cb (e : env) (s : st) (c : nat) (m : option (Z * list Z)) : option st :=
  do x <- find_conn s c;
  do at_ <- c_at x;
  let '(l, t) := at_ in
  do n <- lines s l;
  let err := fun s => srv_destroy (execs (e_down e)) s c in
  match m with
  | None => err s
  | Some (proto, d) =>
    if proto =? PROTO_IPACCESS then rcvmsg e s c (hd 0 d) else
    if negb (t_sign (n_ts n t)) then err s else
    match lookup_link s l t proto 0 with
    | None => err s
    | Some k => do s <- execs (e_act e) (emit s (EDeliver (l_id k) d));
                if e_rc e then do _n <- lines s l; Some s else Some s
    end
  end.
(** :98-103 ipa_bsc_keepalive_timeout_cb *)
Definition ka_timeout (s : st) (k : nat) (down : list ucmd) : option st :=
  match kas s k with
  | Some c => srv_destroy (execs down) s c
  | None => Some s
  end.
Inductive ev :=
| OmlAccept (idreq : bool) (down : list ucmd) | RslAccept (idreq : bool) (down : list ucmd)
| Rx (e : env) (c : nat) (m : option (Z * list Z)) | KaTimeout (k : nat) (down : list ucmd) | App (c : ucmd).
(** a message on a connection that does not exist does not happen *)
Definition step (s : st) (v : ev) : option st :=
  match v with
  | OmlAccept i d => oml_accept s i d
  | RslAccept i d => rsl_accept s i d
  | Rx e c m => match find_conn s c with Some _ => read_cb e s c m | None => Some s end
  | KaTimeout k d => ka_timeout s k d
  | App c => exec c s
  end.
Fixpoint run (s : st) (vs : list ev) : option st :=
  match vs with [] => Some s | v :: r => do s <- step s v; run s r end.
