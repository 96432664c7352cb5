(** Model of how the ip.access driver (src/input/ipaccess.c) puts lines in the BSC role into
    service: ipaccess_line_update (:1011-1133), the listening sockets for OML and RSL, what is set
    on accepted and connected sockets (update_fd_settings :614-663); with the configuration of
    VtyModel.v (lines by number, bind address, parameters).  A listening socket
    (osmo_stream_srv_link, libosmo-netif) is its port, address, priority and DSCP, and the line it
    was made for.  Left out: the connections themselves (C53, C54), the BTS role (C55, C56) except
    for the socket options, failing talloc. *)
From Coq Require Import List Bool ZArith String.
From Verif Require Import Base VtyModel.
Import ListNotations.
Open Scope string_scope.
Open Scope Z_scope.

Definition EIO : Z := -5.
Definition ENOENT : Z := -2.
(** libosmocore: IPA_TCP_PORT_OML, IPA_TCP_PORT_RSL *)
Definition port_of (oml : bool) : Z := if oml then 3002 else 3003.
Inductive opt1 := SO_KEEPALIVE (v : Z) | TCP_KEEPIDLE (v : Z) | TCP_KEEPINTVL (v : Z) | TCP_KEEPCNT (v : Z) | TCP_USER_TIMEOUT (v : Z) | TCP_NODELAY (v : Z).
(** a listening socket; [n_live]: its line still exists *)
Record lsn := mkN { n_line : Z; n_oml : bool; n_addr : string; n_prio : Z; n_dscp : Z; n_live : bool }.
Inductive obs := Ret (n rc : Z) | Opts (n : Z) (oml : bool) (o : list opt1).
(** [inits]: lines whose driver data says line_already_initialized *)
Record sst := mkT { cfg : st; inits : list Z; lsns : list lsn; obss : list obs }.
Definition sst_init : sst := mkT st_init [] [] [].
Definition zin (n : Z) (l : list Z) : bool := existsb (Z.eqb n) l.

(** :614-663 update_fd_settings; a line with E1INP_USE_DEFAULT (-1) *)
Definition update_fd_settings (l : line) : list opt1 :=
  (if l_probes l =? 0 then [] else
   let idle := if 0 <? l_idle l then l_idle l else 30 in
   let intvl := if -1 <? l_intvl l then l_intvl l else 3 in
   let cnt := if 0 <? l_probes l then l_probes l else 10 in
   [SO_KEEPALIVE 1; TCP_KEEPIDLE idle; TCP_KEEPINTVL intvl; TCP_KEEPCNT cnt; TCP_USER_TIMEOUT (1000 * cnt * (intvl + idle))]) ++ [TCP_NODELAY 1].

(** the kernel refuses a second listening socket on a port whose address overlaps *)
Definition overlap (a b : string) : bool := String.eqb a b || String.eqb a "0.0.0.0" || String.eqb b "0.0.0.0".
Definition busy (ls : list lsn) (oml : bool) (a : string) : bool := existsb (fun x => Bool.eqb (n_oml x) oml && overlap (n_addr x) a) ls.
(** osmo_stream_srv_link_open; [ok]: nothing else stands in the way *)
Definition srv_open (s : sst) (n : Z) (oml ok : bool) : option sst :=
  let a := bound (cfg s) in
  if ok && negb (busy (lsns s) oml a) then
    Some (mkT (cfg s) (inits s) (lsns s ++ [mkN n oml a (fst (socket_options oml (cfg s))) (snd (socket_options oml (cfg s))) true]) (obss s))
  else None.
(** the role in the line's ops; [NoOps]: e1inp_line_bind_ops was not called *)
Inductive role := NoOps | Bsc | OtherRole.
Definition ret (s : sst) (n rc : Z) : sst := mkT (cfg s) (inits s) (lsns s) (obss s ++ [Ret n rc]).
Definition set_init (s : sst) (n : Z) : sst := mkT (cfg s) (n :: inits s) (lsns s) (obss s).
(** e1_input.c:1075-1101 e1inp_line_update, ipaccess.c:1011-1133 ipaccess_line_update; when the
    second link cannot be opened the first one is left as it is (:1064-1068) *)
Definition line_update (s : sst) (n : Z) (r : role) (ok_oml ok_rsl : bool) : sst :=
  match r with
  | NoOps => ret s n 0
  | Bsc =>
    if zin n (inits s) then ret s n 0 else
    match srv_open s n true ok_oml with
    | None => ret s n EIO
    | Some s =>
      match srv_open s n false ok_rsl with
      | None => ret s n EIO
      | Some s => ret (set_init s n) n 0
      end
    end
  | OtherRole => ret (set_init s n) n ENOENT
  end.
(** e1_input.c:721-755 e1inp_line_put2, last reference: the line and its driver data are freed;
    ipaccess_close (:469-511) concerns connections only *)
Definition line_free (s : sst) (n : Z) : sst :=
  mkT (w_lines (cfg s) (filter (fun l => negb (l_num l =? n)) (lines (cfg s)))) (filter (fun m => negb (m =? n)) (inits s))
      (map (fun x => if n_line x =? n then mkN (n_line x) (n_oml x) (n_addr x) (n_prio x) (n_dscp x) false else x) (lsns s)) (obss s).
(** :666-773 the accept callbacks: the line is cloned (None: it was freed), the settings of the
    clone are those of the line *)
Definition accept (s : sst) (i : nat) : option sst :=
  match nth_error (lsns s) i with
  | None => Some s
  | Some x =>
    if negb (n_live x) then None else
    do l <- find_line (n_line x) (cfg s);
    Some (mkT (cfg s) (inits s) (lsns s) (obss s ++ [Opts (n_line x) (n_oml x) (update_fd_settings l)]))
  end.
Inductive sev := Cfg (v : ev) | Update (n : Z) (r : role) (ok_oml ok_rsl : bool) | Free (n : Z) | Conn (i : nat).
(** only lines that exist and have this driver are updated here *)
Definition is_ipa (s : sst) (n : Z) : bool := match find_line n (cfg s) with Some l => String.eqb (l_driver l) "ipa" | None => false end.
Definition sstep (e : env) (k : kern) (s : sst) (v : sev) : option sst :=
  match v with
  | Cfg v => match step e k (cfg s) v with Done c _ => Some (mkT c (inits s) (lsns s) (obss s)) | Crash => None end
  | Update n r a b => if is_ipa s n then Some (line_update s n r a b) else Some s
  | Free n => Some (line_free s n)
  | Conn i => accept s i
  end.
Fixpoint srun (e : env) (k : kern) (s : sst) (vs : list sev) : option sst :=
  match vs with [] => Some s | v :: r => do s <- sstep e k s v; srun e k s r end.
