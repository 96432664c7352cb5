(** Model of src/e1_input_vty.c: the configuration commands of the "e1_input" node, writing the
    configuration, and showing timeslots; with e1inp_line_create, e1inp_line_find
    (src/e1_input.c :595-655, :572-585) and e1_set_pcap_fd2 (:145-175) as far as they matter.

    Texts are strings.  libosmocore splits a line in words at white space and finds the command
    (keywords in full here; abbreviations and completion left out; numbers as decimal digits in
    the range given); "argv" are the words that are not keywords.  In a configuration file the
    lines of the node are those after "e1_input" that are indented by one blank.
    The kernel's answers are functions of a counter; a descriptor is the counter when it was
    opened.  Left out: counters, names of line types in "show", "show e1_line" (only which lines),
    the driver's vty_show, allocation failures, the deprecated "pcap" commands, that a path set
    a second time is not freed. *)
From Coq Require Import List Arith Lia Bool ZArith Ascii String DecimalString.
From Coq Require Decimal DecimalN.
From Verif Require Import Base.
Import ListNotations.
Open Scope string_scope.
Open Scope Z_scope.

(** ** Words and lines of a text (libosmocore: cmd_make_strvec, config file reading) *)
Definition is_space (a : ascii) : bool := let n := nat_of_ascii a in Nat.eqb n 32 || (Nat.leb 9 n && Nat.leb n 13).
Definition push (w : string) (ws : list string) : list string := match w with EmptyString => ws | _ => w :: ws end.
Fixpoint span (s : string) : string * list string :=
  match s with
  | EmptyString => (EmptyString, [])
  | String a r => let (w, ws) := span r in if is_space a then (EmptyString, push w ws) else (String a w, ws)
  end.
Definition words (s : string) : list string := let (w, ws) := span s in push w ws.
Definition nl : ascii := ascii_of_nat 10.
Fixpoint lspan (s : string) : string * list string :=
  match s with
  | EmptyString => (EmptyString, [])
  | String a r => let (w, ws) := lspan r in if Ascii.eqb a nl then (EmptyString, match w, ws with EmptyString, [] => [] | _, _ => w :: ws end) else (String a w, ws)
  end.
Definition lines_of (s : string) : list string := let (w, ws) := lspan s in match w, ws with EmptyString, [] => [] | _, _ => w :: ws end.
(** printf %u, %d *)
Definition num (z : Z) : string := match z with Zneg p => "-" ++ NilEmpty.string_of_uint (N.to_uint (Npos p)) | _ => NilEmpty.string_of_uint (N.to_uint (Z.to_N z)) end.
(** a number in a range, and atoi *)
Definition rng (lo hi : Z) (w : string) : option Z :=
  match NilEmpty.uint_of_string w with
  | Some d => let v := Z.of_N (N.of_uint d) in if (lo <=? v) && (v <=? hi) then Some v else None
  | None => None
  end.

(** ** State *)
(** struct e1inp_line: num, driver->name, port_nr, name, sock_path, connect_timeout, keepalive_*
    (num_probes, idle_timeout, probe_interval; E1INP_USE_DEFAULT is -1), ipa_kap (interval,
    wait_for_resp), pcap_file, pcap_fd (-1: None), types of the timeslots (0: none) *)
Record line := mkL { l_num : Z; l_driver : string; l_port : Z; l_name : option string; l_sock : option string; l_tmo : Z; l_probes : Z; l_idle : Z; l_intvl : Z; l_kap : option (Z * Z); l_pcap : option string; l_fd : option nat; l_ts : list nat }.
Inductive eff := POpen (f : nat) (file : string) | PHeader (f : nat) | PClose (f : nat).
(** e1inp_line_list; ipaccess_driver.bind_addr; g_e1inp_ipaccess_pars *)
Record st := mkS { lines : list line; bind : option string; o_dscp : Z; r_dscp : Z; o_prio : Z; r_prio : Z; tick : nat; out : list eff }.
Definition st_init : st := mkS [] None 0 0 0 0 0 [].
(** drivers registered with their has_keepalive; what libosmocore takes for an IPv4 address *)
Record env := mkE { drv : string -> option bool; ipv4 : string -> bool }.
(** open(), write() of the pcap header, driver->line_create *)
Record kern := mkK { k_open : nat -> bool; k_write : nat -> bool; k_create : nat -> bool }.
Definition w_lines (s : st) (ls : list line) : st := mkS ls (bind s) (o_dscp s) (r_dscp s) (o_prio s) (r_prio s) (tick s) (out s).
Definition w_bind (s : st) (b : option string) : st := mkS (lines s) b (o_dscp s) (r_dscp s) (o_prio s) (r_prio s) (tick s) (out s).
Definition w_dscp (s : st) (o r : Z) : st := mkS (lines s) (bind s) o r (o_prio s) (r_prio s) (tick s) (out s).
Definition w_prio (s : st) (o r : Z) : st := mkS (lines s) (bind s) (o_dscp s) (r_dscp s) o r (tick s) (out s).
Definition emit (s : st) (es : list eff) : st := mkS (lines s) (bind s) (o_dscp s) (r_dscp s) (o_prio s) (r_prio s) (tick s) (out s ++ es).
Definition next (s : st) : st := mkS (lines s) (bind s) (o_dscp s) (r_dscp s) (o_prio s) (r_prio s) (S (tick s)) (out s).
(** e1_input.c:572-585 e1inp_line_find *)
Definition find_line (n : Z) (s : st) : option line := find (fun l => l_num l =? n) (lines s).
Fixpoint upd (n : Z) (f : line -> line) (ls : list line) : list line :=
  match ls with [] => [] | l :: r => if l_num l =? n then f l :: r else l :: upd n f r end.
Definition w_port (p : Z) (l : line) : line := mkL (l_num l) (l_driver l) p (l_name l) (l_sock l) (l_tmo l) (l_probes l) (l_idle l) (l_intvl l) (l_kap l) (l_pcap l) (l_fd l) (l_ts l).
Definition w_name (x : string) (l : line) : line := mkL (l_num l) (l_driver l) (l_port l) (Some x) (l_sock l) (l_tmo l) (l_probes l) (l_idle l) (l_intvl l) (l_kap l) (l_pcap l) (l_fd l) (l_ts l).
Definition w_sock (x : string) (l : line) : line := mkL (l_num l) (l_driver l) (l_port l) (l_name l) (Some x) (l_tmo l) (l_probes l) (l_idle l) (l_intvl l) (l_kap l) (l_pcap l) (l_fd l) (l_ts l).
Definition w_tmo (t : Z) (l : line) : line := mkL (l_num l) (l_driver l) (l_port l) (l_name l) (l_sock l) t (l_probes l) (l_idle l) (l_intvl l) (l_kap l) (l_pcap l) (l_fd l) (l_ts l).
Definition w_ka (idle probes intvl : Z) (l : line) : line := mkL (l_num l) (l_driver l) (l_port l) (l_name l) (l_sock l) (l_tmo l) probes idle intvl (l_kap l) (l_pcap l) (l_fd l) (l_ts l).
Definition w_kap (k : option (Z * Z)) (l : line) : line := mkL (l_num l) (l_driver l) (l_port l) (l_name l) (l_sock l) (l_tmo l) (l_probes l) (l_idle l) (l_intvl l) k (l_pcap l) (l_fd l) (l_ts l).
Definition w_pcap (p : option string) (f : option nat) (l : line) : line := mkL (l_num l) (l_driver l) (l_port l) (l_name l) (l_sock l) (l_tmo l) (l_probes l) (l_idle l) (l_intvl l) (l_kap l) p f (l_ts l).
Definition w_ts (t : list nat) (l : line) : line := mkL (l_num l) (l_driver l) (l_port l) (l_name l) (l_sock l) (l_tmo l) (l_probes l) (l_idle l) (l_intvl l) (l_kap l) (l_pcap l) (l_fd l) t.
(** e1_input.c:618-638, NUM_E1_TS 32 (a driver may lower num_ts: left out) *)
Definition new_line (n : Z) (d : string) : line := mkL n d 0 None None 0 (-1) (-1) (-1) None None None (repeat 0%nat 32).

(** ** Commands *)
Inductive cmd :=
| Driver (n : Z) (d : string)            (* :60-80 *)
| Port (n p : Z)                         (* :82-101 *)
| Socket (n : Z) (path : string)         (* :103-130 *)
| Keep (n idle probes intvl : Z)         (* :155-183 cfg_e1line_keepalive, _params, _no_keepalive *)
| IpaKeep (n intvl wait : Z)             (* :210-226 *)
| Name (n : Z) (x : string)              (* :228-249 *)
| Timeout (n t : Z)                      (* :251-270 *)
| Pcap (n : Z) (file : string)           (* :273-305 *)
| NoPcap (n : Z)                         (* :307-324 *)
| Bind (a : string)                      (* :346-356 *)
| Dscp (oml : bool) (v : Z)              (* :358-372 *)
| Prio (oml : bool) (v : Z).             (* :374-388 *)
(** E1_DRIVER_NAMES :50 *)
Definition driver_names : list string := ["misdn"; "misdn_lapd"; "dahdi"; "e1d"; "ipa"; "unixsocket"].
Definition is_in (w : string) (l : list string) : bool := existsb (String.eqb w) l.
Notation "'opt' x <- a ; b" := (match a with Some x => b | None => None end) (at level 200, x name, a at level 100, b at level 200).
(** the commands "e1_line <0-255> ..." *)
Definition parse_line (n : Z) (k : string) (args : list string) : option cmd :=
  if String.eqb k "driver" then match args with [d] => if is_in d driver_names then Some (Driver n d) else None | _ => None end
  else if String.eqb k "port" then match args with [p] => opt p <- rng 0 255 p; Some (Port n p) | _ => None end
  else if String.eqb k "socket" then match args with p :: _ => Some (Socket n p) | _ => None end
  else if String.eqb k "keepalive" then
    match args with
    | [] => Some (Keep n (-1) (-1) (-1))
    | [a; b; c] => opt a <- rng 1 300 a; opt b <- rng 1 20 b; opt c <- rng 1 300 c; Some (Keep n a b c)
    | _ => None
    end
  else if String.eqb k "ipa-keepalive" then match args with [a; b] => opt a <- rng 1 300 a; opt b <- rng 1 300 b; Some (IpaKeep n a b) | _ => None end
  else if String.eqb k "name" then match args with x :: _ => Some (Name n x) | _ => None end
  else if String.eqb k "connect-timeout" then match args with [t] => opt t <- rng 0 60 t; Some (Timeout n t) | _ => None end
  else if String.eqb k "pcap" then match args with f :: _ => Some (Pcap n f) | _ => None end
  else None.
Definition parse_no (ws : list string) : option cmd :=
  match ws with
  | [w; n; k] =>
    if String.eqb w "e1_line" then
      opt n <- rng 0 255 n;
      if String.eqb k "keepalive" then Some (Keep n 0 0 0)
      else if String.eqb k "ipa-keepalive" then Some (IpaKeep n 0 0)
      else if String.eqb k "pcap" then Some (NoPcap n)
      else None
    else None
  | _ => None
  end.
Definition which (w : string) : option bool := if String.eqb w "oml" then Some true else if String.eqb w "rsl" then Some false else None.
Definition parse_ipa (e : env) (ws : list string) : option cmd :=
  match ws with
  | [k; a] => if String.eqb k "bind" && ipv4 e a then Some (Bind a) else None
  | [k; o; v] =>
    if String.eqb k "ip-dscp" then opt o <- which o; opt v <- rng 0 63 v; Some (Dscp o v)
    else if String.eqb k "socket-priority" then opt o <- which o; opt v <- rng 0 255 v; Some (Prio o v)
    else None
  | _ => None
  end.
Definition parse (e : env) (ws : list string) : option cmd :=
  match ws with
  | w :: r =>
    if String.eqb w "e1_line" then match r with n :: k :: args => opt n <- rng 0 255 n; parse_line n k args | _ => None end
    else if String.eqb w "no" then parse_no r
    else if String.eqb w "ipa" then parse_ipa e r
    else None
  | [] => None
  end.
(** [Crash]: a NULL pointer is followed *)
Inductive res := Done (s : st) (success : bool) | Crash.
Definition warn (s : st) : res := Done s false.
(** on a line that exists *)
Definition on (n : Z) (s : st) (f : line -> res) : res := match find_line n s with Some l => f l | None => warn s end.
Definition set (n : Z) (s : st) (f : line -> line) : res := Done (w_lines s (upd n f (lines s))) true.
Definition closing (f : option nat) : list eff := match f with Some f => [PClose f] | None => [] end.
Definition exec (e : env) (k : kern) (s : st) (c : cmd) : res :=
  match c with
  | Driver n d =>
    match find_line n s with
    | Some _ => warn s
    | None =>
      match drv e d with
      | None => warn s
      | Some _ => if k_create k (tick s) then Done (next (w_lines s (lines s ++ [new_line n d]))) true else Done (next s) false
      end
    end
  | Port n p => on n s (fun _ => set n s (w_port p))
  | Socket n p => if Nat.ltb 107 (String.length p) then warn s else on n s (fun _ => set n s (w_sock p))
  | Keep n a b c =>
    on n s (fun l =>
      if negb (match drv e (l_driver l) with Some true => true | _ => false end) && negb (b =? 0) then warn s
      else set n s (w_ka a b c))
  | IpaKeep n a b =>
    on n s (fun l =>
      if negb (String.eqb (l_driver l) "ipa") then warn s
      else set n s (w_kap (if a =? 0 then None else Some (a, b))))
  | Name n x => on n s (fun _ => set n s (w_name x))
  | Timeout n t => on n s (fun _ => set n s (w_tmo t))
  | Pcap n file =>
    on n s (fun l =>
      if negb (k_open k (tick s)) then Done (next s) false else
      let f := tick s in
      let s := emit (next s) [POpen f file] in
      if negb (k_write k (tick s)) then Done (emit (next s) [PClose f]) false else
      let s := emit (next s) (PHeader f :: closing (l_fd l)) in
      set n s (w_pcap (Some file) (Some f)))
  | NoPcap n =>
    match find_line n s with
    | None => Crash
    | Some l => set n (emit s (closing (l_fd l))) (w_pcap None None)
    end
  | Bind a => Done (w_bind s (Some a)) true
  | Dscp o v => Done (if o then w_dscp s v (r_dscp s) else w_dscp s (o_dscp s) v) true
  | Prio o v => Done (if o then w_prio s v (r_prio s) else w_prio s (o_prio s) v) true
  end.
(** a line typed or read; None: libosmocore knows no such command *)
Definition vty (e : env) (k : kern) (s : st) (text : string) : option res := opt c <- parse e (words text); Some (exec e k s c).

(** ** :390-436 e1inp_config_write *)
Definition ln (ws : list string) : string := " " ++ String.concat " " ws ++ String nl EmptyString.
Definition write_line (l : line) : list (list string) :=
  let e1 ws := ("e1_line" :: num (l_num l) :: ws)%list in
  [e1 ["driver"; l_driver l]; e1 ["port"; num (l_port l)]] ++
  (match l_name l with Some x => [e1 ["name"; x]] | None => [] end) ++
  (if l_tmo l =? 0 then [] else [e1 ["connect-timeout"; num (l_tmo l)]]) ++
  (if l_probes l =? 0 then [("no" :: e1 ["keepalive"])%list]
   else if negb (l_idle l =? -1) || negb (l_probes l =? -1) || negb (l_intvl l =? -1) then [e1 ["keepalive"; num (l_idle l); num (l_probes l); num (l_intvl l)]] else []) ++
  (match l_kap l with Some (a, b) => [e1 ["ipa-keepalive"; num a; num b]] | None => [] end) ++
  (match l_pcap l with Some f => [e1 ["pcap"; f]] | None => [] end).
(** ipaccess.c:1259-1264 e1inp_ipa_get_bind_addr *)
Definition bound (s : st) : string := match bind s with Some a => a | None => "0.0.0.0" end.
Definition write_globals (s : st) : list (list string) :=
  (if String.eqb (bound s) "0.0.0.0" then [] else [["ipa"; "bind"; bound s]]) ++
  (if o_dscp s =? 0 then [] else [["ipa"; "ip-dscp"; "oml"; num (o_dscp s)]]) ++
  (if r_dscp s =? 0 then [] else [["ipa"; "ip-dscp"; "rsl"; num (r_dscp s)]]) ++
  (if o_prio s =? 0 then [] else [["ipa"; "socket-priority"; "oml"; num (o_prio s)]]) ++
  (if r_prio s =? 0 then [] else [["ipa"; "socket-priority"; "rsl"; num (r_prio s)]]).
Fixpoint text (ls : list (list string)) : string := match ls with [] => EmptyString | l :: r => ln l ++ text r end.
Definition write (s : st) : string :=
  match lines s with
  | [] => EmptyString
  | _ => "e1_input" ++ String nl EmptyString ++ text (flat_map write_line (lines s) ++ write_globals s)
  end.
(** ** Reading it at the next start *)
(** a line of the node: one blank, then the command; None: the program stops with an error *)
Definition read_line (e : env) (k : kern) (s : st) (t : string) : option st :=
  match t with
  | String a r =>
    if Ascii.eqb a " " && negb (match r with String b _ => is_space b | _ => true end) then
      match vty e k s r with Some (Done s true) => Some s | _ => None end
    else None
  | EmptyString => None
  end.
Fixpoint read_lines (e : env) (k : kern) (s : st) (ts : list string) : option st :=
  match ts with [] => Some s | t :: r => opt s <- read_line e k s t; read_lines e k s r end.
Definition read (e : env) (k : kern) (t : string) : option st :=
  match lines_of t with
  | [] => Some st_init
  | h :: r => if String.eqb h "e1_input" then read_lines e k st_init r else None
  end.

(** ** What the parameters are used for: (priority, DSCP) of the sockets of a link; ipaccess.c
    :1043-1044 and :1060-1061 (BSC), :1101-1102 and :1179-1180 (BTS) *)
Definition socket_options (oml : bool) (s : st) : Z * Z := if oml then (o_dscp s, o_prio s) else (r_dscp s, r_prio s).

(** ** What happens: lines typed; the application creates a line (e1inp_line_create) or
    configures a timeslot (index, type) *)
Inductive ev := Typed (t : string) | Create (n : Z) (d : string) | Config (n : Z) (i ty : nat).
Fixpoint set_nth (i : nat) (x : nat) (l : list nat) : list nat :=
  match l, i with [], _ => [] | _ :: r, O => x :: r | y :: r, S i => y :: set_nth i x r end.
Definition step (e : env) (k : kern) (s : st) (v : ev) : res :=
  match v with
  | Typed t => match vty e k s t with Some r => r | None => warn s end
  | Create n d => exec e k s (Driver n d)
  | Config n i ty => on n s (fun _ => set n s (fun l => w_ts (set_nth i ty (l_ts l)) l))
  end.
Fixpoint run (e : env) (k : kern) (s : st) (vs : list ev) : option st :=
  match vs with [] => Some s | v :: r => match step e k s v with Done s _ => run e k s r | Crash => None end end.

(** ** :539-548 show_e1line: the lines shown; :560-620 show_e1ts: timeslots shown as (number
    shown, number of the line, type), and whether the command succeeds *)
Definition show_lines (n : option Z) (s : st) : list Z * bool :=
  match n with
  | None => (map l_num (lines s), true)
  | Some n => match find_line n s with Some l => ([l_num l], true) | None => ([], false) end
  end.
Fixpoint show_from (i : nat) (n : Z) (ts : list nat) : list (nat * Z * nat) :=
  match ts with [] => [] | t :: r => (if Nat.eqb t 0 then [] else [(i, n, t)]) ++ show_from (S i) n r end.
Definition show_ts (n : option Z) (i : option nat) (s : st) : list (nat * Z * nat) * bool :=
  match n with
  | None => (flat_map (fun l => show_from 0 (l_num l) (l_ts l)) (lines s), true)
  | Some n =>
    match find_line n s with
    | None => ([], false)
    | Some l =>
      match i with
      | Some i => match nth_error (l_ts l) i with Some t => (show_from i (l_num l) [t], true) | None => ([], false) end
      | None => (show_from 0 (l_num l) (l_ts l), true)
      end
    end
  end.
