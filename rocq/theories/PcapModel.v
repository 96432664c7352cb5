(** Model of src/input/lapd_pcap.c (all functions) and of the PCAP code of
    src/e1_input.c (:88-263 header structures, e1_set_pcap_fd2, e1_set_pcap_fd,
    write_pcap_packet; :1075-1117 e1inp_line_update, e1i_sig_cb; the calls in
    abis_sendmsg, e1inp_rx_ts and lapd.c).

    Octets are Z in 0..255.  The structures are packed; a little-endian host is
    assumed for fields stored in host byte order.  What write() returns and the clock
    are inputs.  Logging is left out. *)
From Coq Require Import List Arith Lia Bool ZArith.
From Verif Require Import Base.
Import ListNotations.
Open Scope Z_scope.

(** memory image of uint16_t / uint32_t / uint64_t fields, little-endian host *)
Fixpoint le (n : nat) (v : Z) : list Z := match n with O => [] | S n => v mod 256 :: le n (v / 256) end.
(** htons on a little-endian host *)
Definition htons (v : Z) : Z := (v mod 256) * 256 + (v / 256) mod 256.

(** what write() returned: all of it, or only [k] octets (0 stands for -1 too: the
    callers only compare) *)
Inductive wres := WFull | WPart (k : nat).
Inductive eff := PWrite (fd : Z) (d : list Z) | PClose (fd : Z).
Definition do_write (ws : list wres) (fd : Z) (d : list Z) : eff * bool * list wres :=
  match ws with
  | [] => (PWrite fd d, true, [])
  | WFull :: r => (PWrite fd d, true, r)
  | WPart k :: r => (PWrite fd (firstn k d), (length d <=? k)%nat, r)
  end.

(** ** src/input/lapd_pcap.c *)
(** :45-53 struct pcap_hdr, :82-92 = e1_input.c:147-155, :184-192 *)
Definition pcap_hdr : list Z := le 4 0xa1b2c3d4 ++ le 2 2 ++ le 2 4 ++ le 4 0 ++ le 4 0 ++ le 4 65535 ++ le 4 177.
(** :82-103 osmo_pcap_lapd_set_fd *)
Definition osmo_pcap_lapd_set_fd (ws : list wres) (fd : Z) : list eff * Z * list wres :=
  let '(e, ok, ws) := do_write ws fd pcap_hdr in
  if ok then ([e], 0, ws) else ([e; PClose fd], -1, ws).
(** :105-125 osmo_pcap_lapd_open; [fd]: what open() returned *)
Definition osmo_pcap_lapd_open (ws : list wres) (fd : Z) : list eff * Z * list wres :=
  if fd <? 0 then ([], -1, ws) else
  let '(es, rc, ws) := osmo_pcap_lapd_set_fd ws fd in
  if rc <? 0 then (es ++ [PClose fd], rc, ws) else (es, fd, ws).
(** :55-60 struct pcap_rechdr *)
Definition pcap_rechdr (ts_sec ts_usec incl_len orig_len : Z) : list Z := le 4 ts_sec ++ le 4 ts_usec ++ le 4 incl_len ++ le 4 orig_len.
(** :62-68 struct pcap_lapdhdr *)
Definition pcap_lapdhdr (pkttype hatype halen : Z) (addr : list Z) (protocol : Z) : list Z :=
  le 2 pkttype ++ le 2 hatype ++ le 2 halen ++ addr ++ le 2 protocol.
Definition LINUX_SLL_HOST : Z := 0.
Definition LINUX_SLL_OUTGOING : Z := 4.
(** :128-172 osmo_pcap_lapd_write; [out] = direction == OSMO_LAPD_PCAP_OUTPUT *)
Definition lapd_record (out : bool) (sec usec : Z) (m : list Z) : list Z :=
  pcap_rechdr sec usec (Z.of_nat (length m) + 16) (Z.of_nat (length m) + 16) ++
  pcap_lapdhdr (htons (if out then LINUX_SLL_OUTGOING else LINUX_SLL_HOST)) 0 0 [1; 0; 0; 0; 0; 0; 0; 0] (htons 48) ++ m.
Definition osmo_pcap_lapd_write (ws : list wres) (fd : Z) (out : bool) (sec usec : Z) (m : list Z) : list eff * Z * list wres :=
  if fd <? 0 then ([], 0, ws) else
  let pkt := lapd_record out sec usec m in
  let '(e, ok, ws) := do_write ws fd pkt in
  ([e], if ok then Z.of_nat (length pkt) else -1, ws).

(** ** src/e1_input.c *)
(** :110-116 struct fake_linux_lapd_header, :118-132 struct lapd_header, :221-263
    write_pcap_packet: four writes, no result checked; ts_usec is 0 *)
Definition fake_header (out : bool) : list Z := le 2 4 ++ le 2 0 ++ le 2 0 ++ le 8 (if out then 0 else 1) ++ le 2 (htons 48).
Definition lapd_header (out : bool) (sapi tei : Z) : list Z :=
  [(sapi mod 64) * 4 + (if out then 1 else 0) * 2 + 0; (tei mod 128) * 2 + 1; 3].
Definition write_pcap_packet (ws : list wres) (out : bool) (sapi tei sec : Z) (m : list Z) (fd : Z) : list eff * list wres :=
  if fd <? 0 then ([], ws) else
  let '(e1, _, ws) := do_write ws fd (pcap_rechdr sec 0 (Z.of_nat (length m) + 16 + 3) (Z.of_nat (length m) + 16 + 3)) in
  let '(e2, _, ws) := do_write ws fd (fake_header out) in
  let '(e3, _, ws) := do_write ws fd (lapd_header out sapi tei) in
  let '(e4, _, ws) := do_write ws fd m in
  ([e1; e2; e3; e4], ws).

(** a line: line->pcap_fd, the pcap_fd of each timeslot's LAPD instance (None: no
    instance), and whether it is in e1inp_line_list (clones are not) *)
Record pline := mkPL { pl_fd : Z; pl_lapd : list (option Z); pl_listed : bool }.
(** :172 static int pcap_fd, and the lines *)
Record pst := mkP { g_fd : Z; p_lines : list pline }.
Definition pst0 : pst := mkP (-1) [].
Definition set_lapd (fd : Z) (l : list (option Z)) : list (option Z) := map (option_map (fun _ => fd)) l.

Inductive op :=
| SetGlobal (fd : Z) | SetLine (i : nat) (fd : Z)
| LineCreate | LineClone (i : nat)
| LapdAlloc (i n : nat)                       (* a driver allocates an instance: lapd.c:690 *)
| LineUpdate (i : nat)
| Shutdown                                    (* S_L_GLOBAL_SHUTDOWN *)
| Capture (i n : nat) (out : bool) (sapi tei sec usec : Z) (m : list Z).

(** :145-170 e1_set_pcap_fd2, :174-218 e1_set_pcap_fd: the header first; a negative
    result of write leaves everything as it was (a short write is not noticed).
    [bad]: the header write fails *)
Definition e1_set_pcap_fd2 (bad : bool) (s : pst) (i : nat) (fd : Z) : option (list eff * pst) :=
  do l <- get (p_lines s) i;
  if (0 <=? fd) && bad then Some ([], s) else
  do ls <- put (p_lines s) i (mkPL fd (set_lapd fd (pl_lapd l)) (pl_listed l));
  Some ((if 0 <=? fd then [PWrite fd pcap_hdr] else []) ++ (if 0 <=? pl_fd l then [PClose (pl_fd l)] else []), mkP (g_fd s) ls).
Definition e1_set_pcap_fd (bad : bool) (s : pst) (fd : Z) : list eff * pst :=
  if (0 <=? fd) && bad then ([], s) else
  ((if 0 <=? fd then [PWrite fd pcap_hdr] else []) ++ (if 0 <=? g_fd s then [PClose (g_fd s)] else []),
   mkP fd (map (fun l => if pl_listed l then mkPL (pl_fd l) (set_lapd fd (pl_lapd l)) (pl_listed l) else l) (p_lines s))).
(** :590-659 e1inp_line_create (:620 pcap_fd = -1), 32 timeslots without LAPD *)
Definition line_create (s : pst) : pst := mkP (g_fd s) (p_lines s ++ [mkPL (-1) (repeat None 32) true]).
(** :661-708 e1inp_line_clone: memcpy of the whole structure.  Only lines without
    LAPD instances are cloned in the model (the callers are in ipaccess.c, which has
    none) *)
Definition line_clone (s : pst) (i : nat) : option pst :=
  do l <- get (p_lines s) i;
  if negb (forallb (fun t => match t with None => true | Some _ => false end) (pl_lapd l)) then None else Some (mkP (g_fd s) (p_lines s ++ [mkPL (pl_fd l) (pl_lapd l) false])).
Definition lapd_alloc (s : pst) (i n : nat) : option pst :=
  do l <- get (p_lines s) i;
  do la <- put (pl_lapd l) n (Some (-1));
  do ls <- put (p_lines s) i (mkPL (pl_fd l) la (pl_listed l)); Some (mkP (g_fd s) ls).
(** :1075-1100 e1inp_line_update after the driver's part *)
Definition line_update (s : pst) (i : nat) : option pst :=
  do l <- get (p_lines s) i;
  do ls <- put (p_lines s) i (mkPL (pl_fd l) (set_lapd (pl_fd l) (pl_lapd l)) (pl_listed l)); Some (mkP (g_fd s) ls).
(** :1102-1118 e1i_sig_cb *)
Definition shutdown (s : pst) : list eff * pst :=
  (flat_map (fun l => if pl_listed l && (0 <=? pl_fd l) then [PClose (pl_fd l)] else []) (p_lines s),
   mkP (g_fd s) (map (fun l => if pl_listed l then mkPL (-1) (pl_lapd l) true else l) (p_lines s))).
(** a signalling message passes timeslot [n] of line [i]: with an LAPD instance
    lapd.c:355, :381, :628 write it, without abis_sendmsg (:321-324) or e1inp_rx_ts
    (:853-854) *)
Definition target (s : pst) (i n : nat) : option (bool * Z) :=
  do l <- get (p_lines s) i; do t <- get (pl_lapd l) n;
  Some (match t with Some fd => (true, fd) | None => (false, pl_fd l) end).
Definition capture (ws : list wres) (s : pst) (i n : nat) (out : bool) (sapi tei sec usec : Z) (m : list Z) : option (list eff) :=
  do t <- target s i n;
  Some (if fst t then fst (fst (osmo_pcap_lapd_write ws (snd t) out sec usec m))
        else fst (write_pcap_packet ws out sapi tei sec m (snd t))).
Definition step (bad : bool) (ws : list wres) (s : pst) (o : op) : option (list eff * pst) :=
  match o with
  | SetGlobal fd => Some (e1_set_pcap_fd bad s fd)
  | SetLine i fd => e1_set_pcap_fd2 bad s i fd
  | LineCreate => Some ([], line_create s)
  | LineClone i => do s <- line_clone s i; Some ([], s)
  | LapdAlloc i n => do s <- lapd_alloc s i n; Some ([], s)
  | LineUpdate i => do s <- line_update s i; Some ([], s)
  | Shutdown => Some (shutdown s)
  | Capture i n out sapi tei sec usec m => do e <- capture ws s i n out sapi tei sec usec m; Some (e, s)
  end.
(** each call with what write() does during it *)
Fixpoint run (s : pst) (os : list (op * bool * list wres)) : option (list eff * pst) :=
  match os with
  | [] => Some ([], s)
  | (o, bad, ws) :: r =>
    do x <- step bad ws s o; let '(e, s) := x in
    do y <- run s r; let '(e', s) := y in Some (e ++ e', s)
  end.
