(** Model of src/ipa_proxy.c (656 lines): the configuration commands and the
    forwarding callbacks.

    Objects are numbered in order of creation; a freed object is no longer in the
    state, and any access to it is [None], as is any other undefined behaviour.
    Strings are lists of non-zero octets.  Numbers of the command line are what
    strtoul/atoi return.  Command syntax, the show and write commands, and
    allocation failures are left out; the sockets are src/input/ipa.c (C41, C42). *)
From Coq Require Import List Arith Lia Bool ZArith.
From Verif Require Import Base.
Import ListNotations.
Open Scope Z_scope.

Inductive net_type := T_BIND | T_CONNECT.
(** ipa_proxy.c:35-54 struct ipa_proxy_instance_net, struct ipa_proxy_instance *)
Record inst := mkI { i_id : nat; i_name : list Z; i_type : net_type; i_addr : list Z; i_port : Z; i_refcnt : Z }.
(** :58-79 struct ipa_proxy_route_shared: the bit maps and the stream tables, 256
    entries each *)
Record shared := mkS { s_id : nat; s_src : nat; s_dst : nat; s_refcnt : Z;
  s_smap : list bool; s_stab : list Z; s_dmap : list bool; s_dtab : list Z }.
(** :81-93 struct ipa_proxy_route *)
Record route := mkR { r_id : nat; r_ss : Z; r_ds : Z; r_shared : nat }.
(** a listening socket (struct ipa_server_link): its user data is the route *)
Record lnk := mkL { l_id : nat; l_route : nat; l_port : Z }.
(** :102-109 struct ipa_proxy_conn *)
(** [c_src]: the connection from the source is open; when it is closed, src/input/ipa.c:402-427
    (ipa_server_conn_read) frees it, and the proxy, which passes no closed_cb, keeps the pointer *)
Record conn := mkC { c_id : nat; c_route : nat; c_src : bool }.
Record st := mkSt { insts : list inst; routes : list route; shareds : list shared; links : list lnk; conns : list conn; next : nat }.
Definition st0 : st := mkSt [] [] [] [] [] 0.

(** strncmp(a, b, n) == 0 *)
Fixpoint strncmp_eq (n : nat) (a b : list Z) : bool :=
  match n with
  | O => true
  | S n => match a, b with
           | [], [] => true
           | x :: a, y :: b => (x =? y) && strncmp_eq n a b
           | _, _ => false
           end
  end.
Definition IPA_INSTANCE_NAME : nat := 16.
Definition name_is (name : list Z) (i : inst) : bool := strncmp_eq IPA_INSTANCE_NAME (i_name i) name.
(** a message of the user interface; CMD_SUCCESS, CMD_WARNING *)
Inductive ret := Ok | Warn | Done.
Inductive fwd := Dropped | Forwarded (proto : Z).
Inductive out := Ret (r : ret) | Fwd (f : fwd).

(** :211-255 __ipa_instance_add; osmo_strlcpy cuts the name to 15 octets;
    inet_aton (:236) never returns a negative value: any address is taken; the port
    is stored in 16 bits *)
Definition instance_add (s : st) (name : list Z) (ty : net_type) (addr : list Z) (port : Z) : st * ret :=
  if existsb (name_is name) (insts s) then (s, Warn)
  else (mkSt (insts s ++ [mkI (next s) (firstn 15 name) ty addr (port mod 65536) 0]) (routes s) (shareds s) (links s) (conns s) (S (next s)), Ok).
(** :264-290 ipa_instance_del: the loop ends with [ipi] at the list head, so for an
    unknown name the message prints what lies behind it: None *)
Definition instance_del (s : st) (name : list Z) : option (st * ret) :=
  do i <- find (name_is name) (insts s);
  if 0 <? i_refcnt i then Some (s, Warn)
  else Some (mkSt (filter (fun x => negb (Nat.eqb (i_id x) (i_id i))) (insts s)) (routes s) (shareds s) (links s) (conns s) (next s), Ok).

(** :319-328, :478-487: the last instance of each name, one that has both names
    counting as source *)
Definition find_src (s : st) (n : list Z) : option inst := find (name_is n) (rev (insts s)).
Definition find_dst (s : st) (n n' : list Z) : option inst := find (fun i => name_is n' i && negb (name_is n i)) (rev (insts s)).
Definition uint32 (v : Z) : Z := v mod 2^32.
(** :329-360, :488-519: the checks common to both commands *)
Definition route_args (s : st) (n1 : list Z) (v1 : Z) (n2 : list Z) (v2 : Z) : option (inst * Z * inst * Z) :=
  do a <- find_src s n1; do b <- find_dst s n1 n2;
  match i_type a, i_type b with
  | T_BIND, T_CONNECT =>
    if (0xff <? uint32 v1) || (0xff <? uint32 v2) then None
    else Some (a, uint32 v1, b, uint32 v2)
  | _, _ => None
  end.

Definition find_shared (s : st) (id : nat) : option shared := find (fun x => Nat.eqb (s_id x) id) (shareds s).
Definition find_route (s : st) (id : nat) : option route := find (fun x => Nat.eqb (r_id x) id) (routes s).
Definition find_inst (s : st) (id : nat) : option inst := find (fun x => Nat.eqb (i_id x) id) (insts s).
(** walk over the routes, reading route->shared of each up to the match *)
Fixpoint find_routeM (s : st) (p : route -> shared -> bool) (l : list route) : option (option (route * shared)) :=
  match l with
  | [] => Some None
  | r :: l => do sh <- find_shared s (r_shared r); if p r sh then Some (Some (r, sh)) else find_routeM s p l
  end.
Definition pair_is (a b : nat) (sh : shared) : bool := Nat.eqb (s_src sh) a && Nat.eqb (s_dst sh) b.

Definition add_ref (d : Z) (a b : nat) (l : list inst) : list inst :=
  map (fun i => mkI (i_id i) (i_name i) (i_type i) (i_addr i) (i_port i)
     (i_refcnt i + (if Nat.eqb (i_id i) a then d else 0) + (if Nat.eqb (i_id i) b then d else 0))) l.
Definition set_shared (l : list shared) (sh : shared) : list shared :=
  map (fun x => if Nat.eqb (s_id x) (s_id sh) then sh else x) l.
(** :440-452: the tables and bit maps a route sets *)
Definition map_route (sh : shared) (a b : Z) : option shared :=
  do st <- put (s_stab sh) (Z.to_nat a) b;
  do dt <- put (s_dtab sh) (Z.to_nat b) a;
  do sm <- put (s_smap sh) (Z.to_nat a) true;
  do dm <- put (s_dmap sh) (Z.to_nat b) true;
  Some (mkS (s_id sh) (s_src sh) (s_dst sh) (s_refcnt sh + 1) sm st dm dt).
(** :307-456 __ipa_route_add; [bound]: the source port could be bound (ipa_server_link_open) *)
Definition route_add (s : st) (n1 : list Z) (v1 : Z) (n2 : list Z) (v2 : Z) (bound : bool) : option (st * ret) :=
  match route_args s n1 v1 n2 v2 with
  | None => Some (s, Warn)
  | Some (a, ss, b, ds) =>
    do m <- find_routeM s (fun _ sh => pair_is (i_id a) (i_id b) sh) (routes s);
    match m with
    | Some (r, sh) =>
      if (r_ss r =? ss) && (r_ds r =? ds) then Some (s, Warn) else
      let rid := next s in
      do sh <- map_route sh ss ds;
      Some (mkSt (add_ref 1 (i_id a) (i_id b) (insts s)) (routes s ++ [mkR rid ss ds (s_id sh)]) (set_shared (shareds s) sh) (links s) (conns s) (S rid), Ok)
    | None =>
      if negb bound then Some (s, Warn) else
      let rid := next s in
      do sh <- map_route (mkS rid (i_id a) (i_id b) 0 (repeat false 256) (repeat 0 256) (repeat false 256) (repeat 0 256)) ss ds;
      Some (mkSt (add_ref 1 (i_id a) (i_id b) (insts s)) (routes s ++ [mkR rid ss ds rid]) (shareds s ++ [sh])
              (links s ++ [mkL rid rid (i_port a)]) (conns s) (S rid), Ok)
    end
  end.
(** :552-557: the mapping of a deleted route is reverted *)
Definition unmap_route (sh : shared) (a b : Z) : option shared :=
  do sm <- put (s_smap sh) (Z.to_nat a) false;
  do dm <- put (s_dmap sh) (Z.to_nat b) false;
  do st <- put (s_stab sh) (Z.to_nat a) 0;
  do dt <- put (s_dtab sh) (Z.to_nat b) 0;
  Some (mkS (s_id sh) (s_src sh) (s_dst sh) (s_refcnt sh - 1) sm st dm dt).
(** :465-564 ipa_route_del.  The last route of a pair (:537-549): osmo_fd_unregister
    of shared->bfd, which is never registered (its list pointers are NULL), and the
    use of shared (:559) after talloc_free: None *)
Definition route_del (s : st) (n1 : list Z) (v1 : Z) (n2 : list Z) (v2 : Z) : option (st * ret) :=
  match route_args s n1 v1 n2 v2 with
  | None => Some (s, Warn)
  | Some (a, ss, b, ds) =>
    do m <- find_routeM s (fun r sh => pair_is (i_id a) (i_id b) sh && (r_ss r =? ss) && (r_ds r =? ds)) (routes s);
    match m with
    | None => Some (s, Warn)
    | Some (r, sh) =>
      if s_refcnt sh - 1 =? 0 then None else
      do sh <- unmap_route sh ss ds;
      Some (mkSt (add_ref (-1) (i_id a) (i_id b) (insts s)) (filter (fun x => negb (Nat.eqb (r_id x) (r_id r))) (routes s))
              (set_shared (shareds s) sh) (links s) (conns s) (next s), Ok)
    end
  end.

(** :161-206 ipa_sock_src_accept_cb; [ok]: the connection to the destination could be
    started; otherwise ipa_server_fd_cb closes the new socket, the connection from the
    source stays registered with it (not modelled), and no connection is listed *)
Definition accept (s : st) (lid : nat) (ok : bool) : option (st * ret) :=
  do l <- find (fun x => Nat.eqb (l_id x) lid) (links s);
  do r <- find_route s (l_route l);
  do sh <- find_shared s (r_shared r);
  do _i <- find_inst s (s_dst sh);
  if ok then Some (mkSt (insts s) (routes s) (shareds s) (links s) (mkC (next s) (r_id r) true :: conns s) (S (next s)), Ok)
  else Some (s, Done).
(** :138-159 ipa_sock_src_cb: a message with stream identifier [p] from the source side *)
Definition conn_shared (s : st) (cid : nat) : option shared :=
  do c <- find (fun x => Nat.eqb (c_id x) cid) (conns s);
  do r <- find_route s (c_route c);
  find_shared s (r_shared r).
(** ipa.c:402-427: the source closes its connection *)
Definition src_closed (s : st) (cid : nat) : st :=
  mkSt (insts s) (routes s) (shareds s) (links s)
    (map (fun c => if Nat.eqb (c_id c) cid then mkC (c_id c) (c_route c) false else c) (conns s)) (next s).
Definition sock_src_cb (s : st) (cid : nat) (p : Z) : option fwd :=
  do sh <- conn_shared s cid;
  do b <- get (s_smap sh) (Z.to_nat p);
  if b then do q <- get (s_dtab sh) (Z.to_nat p); Some (Forwarded q) else Some Dropped.
(** :114-136 ipa_sock_dst_cb; ipa_server_conn_send on a freed connection: None *)
Definition sock_dst_cb (s : st) (cid : nat) (p : Z) : option fwd :=
  do sh <- conn_shared s cid;
  do b <- get (s_dmap sh) (Z.to_nat p);
  if b then do q <- get (s_stab sh) (Z.to_nat p);
    do c <- find (fun x => Nat.eqb (c_id x) cid) (conns s);
    if c_src c then Some (Forwarded q) else None
  else Some Dropped.

Inductive op :=
| InstAdd (name : list Z) (ty : net_type) (addr : list Z) (port : Z) | InstDel (name : list Z)
| RouteAdd (n1 : list Z) (v1 : Z) (n2 : list Z) (v2 : Z) (bound : bool) | RouteDel (n1 : list Z) (v1 : Z) (n2 : list Z) (v2 : Z)
| Accept (lid : nat) (ok : bool)
| SrcClosed (cid : nat) | SrcMsg (cid : nat) (p : Z) | DstMsg (cid : nat) (p : Z).
Definition step (s : st) (o : op) : option (st * out) :=
  match o with
  | InstAdd n ty a p => let '(s, r) := instance_add s n ty a p in Some (s, Ret r)
  | InstDel n => do x <- instance_del s n; Some (fst x, Ret (snd x))
  | RouteAdd n1 v1 n2 v2 b => do x <- route_add s n1 v1 n2 v2 b; Some (fst x, Ret (snd x))
  | RouteDel n1 v1 n2 v2 => do x <- route_del s n1 v1 n2 v2; Some (fst x, Ret (snd x))
  | Accept l ok => do x <- accept s l ok; Some (fst x, Ret (snd x))
  | SrcClosed c => Some (src_closed s c, Ret Done)
  | SrcMsg c p => do f <- sock_src_cb s c p; Some (s, Fwd f)
  | DstMsg c p => do f <- sock_dst_cb s c p; Some (s, Fwd f)
  end.
Fixpoint run (s : st) (os : list op) : option (st * list out) :=
  match os with
  | [] => Some (s, [])
  | o :: r => do x <- step s o; do y <- run (fst x) r; Some (fst y, snd x :: snd y)
  end.
