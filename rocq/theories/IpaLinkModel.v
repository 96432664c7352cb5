(** Model of the listening side of src/input/ipa.c (ipa_server_link_*, 302-400) and of
    the accept callback of src/ipa_proxy.c.  Descriptors are numbers, given out and
    reused by the kernel; addresses are octet lists.  The kernel's answers and what the
    application does are part of each operation.  A run gives the trace of what could be
    observed and the final state, [None] after an access to a freed link.  Failing talloc,
    logging, DSCP and priority are left out. *)
From Coq Require Import List Bool ZArith.
From Verif Require Import Base.
Import ListNotations.
Open Scope Z_scope.

Definition EIO : Z := -5.
Definition ENOMEM : Z := -12.
Definition addr := list Z.

Inductive out :=
| CallOpen | RetOpen (rc : Z) | CallClose | RetClose | CallDestroy | RetDestroy      (* the API *)
| Listen (f : Z) (a : option addr)       (* a listening socket made and bound; None: any address *)
| Reg (f : Z) | Unreg (f : Z)            (* watched by the event loop, as a listener *)
| LibClose (f : Z)                       (* close() called by the library *)
| Accepted (f : Z) | LocalIp (a : addr)  (* accept(); what osmo_sock_get_local_ip says *)
| CbStart (f : Z) | CbEnd (f rc : Z) | RetEvent (rc : Z)
| UserOpen (f : Z) | UserClose (f : Z)   (* another part of the program; also from within accept_cb *)
| UserReg (f : Z).                       (* ... watches a descriptor *)

(** include/osmocom/abis/ipa.h:10-22 struct ipa_server_link; [l_fd]: ofd.fd, None is -1;
    [l_reg]: in the list of the event loop; [k]: the open descriptors of the process *)
Record st := mk { l_alive : bool; l_fd : option Z; l_reg : bool; l_addr : option addr; k : list Z }.
(** ipa.c:353-378 ipa_server_link_create *)
Definition link_create (a : option addr) : st := mk true None false a [].

Definition drop (f : Z) (l : list Z) : list Z := filter (fun g => negb (g =? f)) l.
Definition inb (f : Z) (l : list Z) : bool := existsb (Z.eqb f) l.

(** ipa.c:385-403 ipa_server_link_open; [sock]: the result of osmo_sock_init, [reg]: that of
    osmo_fd_register *)
Definition link_open (s : st) (sock : Z) (reg : bool) : list out * st :=
  if sock <? 0 then ([RetOpen sock], s) else
  if negb reg then ([Listen sock (l_addr s); LibClose sock; RetOpen EIO], mk (l_alive s) None (l_reg s) (l_addr s) (k s)) else
  ([Listen sock (l_addr s); Reg sock; RetOpen 0], mk (l_alive s) (Some sock) true (l_addr s) (sock :: k s)).
(** ipa.c:405-413 ipa_server_link_close *)
Definition link_close (s : st) : list out * st :=
  match l_fd s with
  | None => ([RetClose], s)
  | Some f => ([Unreg f; LibClose f; RetClose], mk (l_alive s) None false (l_addr s) (drop f (k s)))
  end.
(** ipa.c:380-383 ipa_server_link_destroy *)
Definition link_destroy (s : st) : list out * st :=
  ([RetDestroy], mk false (l_fd s) (l_reg s) (l_addr s) (k s)).

(** what the application does, outside or inside accept_cb *)
Inductive act := AOpen (sock : Z) (reg : bool) | AClose | ADestroy | UOpen (f : Z) | UClose (f : Z) | UReg (f : Z).
(** the kernel never gives out a number that is in use: such an operation does not happen *)
Definition do_act (s : st) (a : act) : list out * option st :=
  match a with
  | AOpen sock reg =>
    if inb sock (k s) then ([], Some s) else
    if negb (l_alive s) then ([CallOpen], None) else let '(o, s) := link_open s sock reg in (CallOpen :: o, Some s)
  | AClose => if negb (l_alive s) then ([CallClose], None) else let '(o, s) := link_close s in (CallClose :: o, Some s)
  | ADestroy => if negb (l_alive s) then ([CallDestroy], None) else let '(o, s) := link_destroy s in (CallDestroy :: o, Some s)
  | UOpen f => if (f <? 0) || inb f (k s) then ([], Some s) else ([UserOpen f], Some (mk (l_alive s) (l_fd s) (l_reg s) (l_addr s) (f :: k s)))
  | UClose f => ([UserClose f], Some (mk (l_alive s) (l_fd s) (l_reg s) (l_addr s) (drop f (k s))))
  | UReg f => ([UserReg f], Some s)
  end.
Fixpoint acts (s : st) (l : list act) : list out * option st :=
  match l with
  | [] => ([], Some s)
  | a :: r => let '(o, s) := do_act s a in
              match s with None => (o, None) | Some s => let '(o', s) := acts s r in (o ++ o', s) end
  end.

(** ipa.c:302-342 ipa_server_fd_cb, when the event loop reports the listening socket;
    [ac]: the result of accept, [ip]: that of osmo_sock_get_local_ip; accept_cb does [cb]
    and returns [ret].  After accept_cb the link is not touched *)
Definition server_fd_cb (s : st) (ac : Z) (ip : option addr) (cb : list act) (ret : Z) : list out * option st :=
  if negb (l_alive s) then ([], None) else
  if ac <? 0 then ([RetEvent ac], Some s) else
  let '(o1, s) := match l_addr s, ip with
                  | None, Some a => ([LocalIp a], mk (l_alive s) (l_fd s) (l_reg s) (Some a) (ac :: k s))
                  | _, _ => ([], mk (l_alive s) (l_fd s) (l_reg s) (l_addr s) (ac :: k s)) end in
  let '(o2, s) := acts s cb in
  match s with
  | None => ([Accepted ac] ++ o1 ++ [CbStart ac] ++ o2, None)
  | Some s =>
    if ret <? 0 then ([Accepted ac] ++ o1 ++ [CbStart ac] ++ o2 ++ [CbEnd ac ret; LibClose ac; RetEvent ret],
                      Some (mk (l_alive s) (l_fd s) (l_reg s) (l_addr s) (drop ac (k s))))
    else ([Accepted ac] ++ o1 ++ [CbStart ac] ++ o2 ++ [CbEnd ac ret; RetEvent 0], Some s)
  end.
(** a listener that is not registered, or whose number is not open any more, is not reported *)
Inductive op := Do (a : act) | Readable (ac : Z) (ip : option addr) (cb : list act) (ret : Z).
Definition step (s : st) (p : op) : list out * option st :=
  match p with
  | Do a => do_act s a
  | Readable ac ip cb ret =>
    if l_reg s && negb (inb ac (k s)) then server_fd_cb s ac ip cb ret else ([], Some s)
  end.
Fixpoint run (s : st) (ps : list op) : list out * option st :=
  match ps with
  | [] => ([], Some s)
  | p :: r => let '(o, s) := step s p in
              match s with None => (o, None) | Some s => let '(o', s) := run s r in (o ++ o', s) end
  end.

(** src/ipa_proxy.c:161-206 ipa_sock_src_accept_cb on descriptor [f]: what it does with the
    descriptor and returns; ipa.c:464-497 ipa_server_conn_create registers it.
    [alloc], [src]: memory and ipa_server_conn_create succeed; [dst]: the connection to the
    destination could be created and started *)
Definition proxy_cb (f : Z) (alloc src dst : bool) : list act * Z :=
  if negb alloc then ([UClose f], ENOMEM) else
  if negb src then ([], ENOMEM) else
  if negb dst then ([UReg f], ENOMEM) else ([UReg f], 0).
