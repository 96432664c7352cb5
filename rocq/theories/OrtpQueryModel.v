(** src/trau/osmo_ortp.c, the part OrtpModel.v leaves out: which descriptors the library believes
    a socket to have, the queries for its address and port, its priority, its statistics.

    Any number of sockets, numbered; the answers of libortp, of the system and of its resolver are
    part of the events, so they are arbitrary.  Registration with the select loop, timestamps and
    packets are in OrtpModel.v.  Not modelled: osmo_rtp_socket_log_stats, osmo_rtp_set_source_desc,
    osmo_rtp_socket_set_pt / _dscp (one call passed on). *)
From Coq Require Import List Arith Lia Bool ZArith.
From Verif Require Import Base.
Import ListNotations.
Open Scope Z_scope.

(** struct osmo_rtp_socket: flags, the two sockets of the libortp session, rtp_bfd.fd, rtcp_bfd.fd *)
Record sock := mkSock { k_poll : bool; k_sess : Z * Z; k_fd : Z * Z }.
(** rtp_stats_t, the figures used: packet_sent, sent, packet_recv, recv, cum_packet_loss *)
Record stats := mkStats { g_psent : Z; g_sent : Z; g_precv : Z; g_recv : Z; g_lost : Z }.

Inductive eff :=
| EPrio (fd prio : Z)                        (* osmo_sock_set_priority *)
| EName (fd : Z)                             (* getsockname *)
| EIp (ip port : Z)                          (* the caller's variables are written *)
| EAddr (port : Z)                           (* likewise; the string is the static buffer *)
| ESee (t : list Z)                          (* the string the application reads *)
| EStats (l : list Z)                        (* the caller's six variables *)
| ERet (rc : Z).
(** the sockets; the static buffer of osmo_rtp_get_bound_addr *)
Record st := mkQ { q_sock : nat -> sock; q_buf : list Z; q_out : list eff }.

(** [ss]: the session's sockets after the call; [look]: the application reads the string it was
    given by an earlier osmo_rtp_get_bound_addr *)
Inductive ev :=
| Bind (i : nat) (rc : Z) (ss : Z * Z)
| Connect (i : nat) (port : Z) (rc : Z) (ss : Z * Z)
| Auto (i : nat)
| Priority (i : nat) (prio rc rc' : Z)
| IpPort (i : nat) (rc : Z) (inet : bool) (a b c d : Z) (port : Z)
| Addr (i : nat) (rc rc' : Z) (t : list Z) (port : Z)
| Look
| Stats (i : nat) (g : option stats) (jitter : option Z).

(** :373-423 osmo_rtp_socket_create: talloc_zero, so both descriptors are 0; a new session of
    libortp has no sockets (-1) *)
Definition st_init (pl : nat -> bool) : st := mkQ (fun i => mkSock (pl i) (-1, -1) (0, 0)) [] [].
Definition set (q : st) (i : nat) (k : sock) : st := mkQ (fun j => if Nat.eqb j i then k else q_sock q j) (q_buf q) (q_out q).
Definition emit (q : st) (l : list eff) : st := mkQ (q_sock q) (q_buf q) (q_out q ++ l).
Definition w_buf (q : st) (t : list Z) : st := mkQ (q_sock q) t (q_out q).
Definition sess (k : sock) (ss : Z * Z) : sock := mkSock (k_poll k) ss (k_fd k).
(** :438-439 and osmo_fd_setup in :251-253: the descriptors are asked for again *)
Definition learn (k : sock) : sock := mkSock (k_poll k) (k_sess k) (k_sess k).

(** :430-442 osmo_rtp_socket_bind *)
Definition bind (i : nat) (rc : Z) (ss : Z * Z) (q : st) : st :=
  let k := sess (q_sock q i) ss in
  if rc <? 0 then emit (set q i k) [ERet rc] else emit (set q i (learn k)) [ERet 0].
(** :455-486 osmo_rtp_socket_connect; the value returned is OrtpModel.v's *)
Definition connect (i : nat) (port rc : Z) (ss : Z * Z) (q : st) : st :=
  if port =? 0 then q else
  let k := sess (q_sock q i) ss in
  if rc <? 0 then set q i k else
  if k_poll k then set q i k else set q i (learn k).
(** :498-508 osmo_rtp_socket_autoconnect *)
Definition auto (i : nat) (q : st) : st :=
  if k_poll (q_sock q i) then q else set q i (learn (q_sock q i)).
(** :613-621 osmo_rtp_socket_set_priority *)
Definition priority (i : nat) (prio rc rc' : Z) (q : st) : st :=
  let k := q_sock q i in
  if rc <? 0 then emit q [EPrio (fst (k_fd k)) prio; ERet rc] else
  emit q [EPrio (fst (k_fd k)) prio; EPrio (snd (k_fd k)) prio; ERet rc'].
(** :652-671 osmo_rtp_get_bound_ip_port; [a].[b].[c].[d] the address as it is on the wire *)
Definition ip_port (i : nat) (rc : Z) (inet : bool) (a b c d port : Z) (q : st) : st :=
  let q := emit q [EName (fst (k_fd (q_sock q i)))] in
  if rc <? 0 then emit q [ERet rc] else
  if negb inet then emit q [ERet (-5)] else
  emit q [EIp (a * 2 ^ 24 + b * 2 ^ 16 + c * 2 ^ 8 + d) port; ERet 0].
(** :681-705 osmo_rtp_get_bound_addr; [t]: what getnameinfo puts into the buffer *)
Definition bound_addr (i : nat) (rc rc' : Z) (t : list Z) (port : Z) (q : st) : st :=
  let q := w_buf q [] in
  let q := emit q [EName (fst (k_fd (q_sock q i)))] in
  if rc <? 0 then emit q [ERet rc] else
  let q := w_buf q t in
  if rc' <? 0 then emit q [ERet rc'] else emit q [EAddr port; ERet 0].
Definition u32 (z : Z) : Z := z mod 2 ^ 32.
(** :726-751 osmo_rtp_socket_stats: 64 bits to 32 *)
Definition get_stats (g : option stats) (jitter : option Z) (q : st) : st :=
  let l := match g with
           | Some g => [u32 (g_psent g); u32 (g_sent g); u32 (g_precv g); u32 (g_recv g); u32 (g_lost g)]
           | None => [0; 0; 0; 0; 0] end in
  emit q [EStats (l ++ [match jitter with Some j => u32 j | None => 0 end])].

Definition step (q : st) (v : ev) : st :=
  match v with
  | Bind i rc ss => bind i rc ss q
  | Connect i port rc ss => connect i port rc ss q
  | Auto i => auto i q
  | Priority i p rc rc' => priority i p rc rc' q
  | IpPort i rc inet a b c d port => ip_port i rc inet a b c d port q
  | Addr i rc rc' t port => bound_addr i rc rc' t port q
  | Look => emit q [ESee (q_buf q)]
  | Stats i g j => get_stats g j q
  end.
Definition run (pl : nat -> bool) (vs : list ev) : st := fold_left step vs (st_init pl).
