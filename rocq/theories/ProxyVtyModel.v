(** Model of the command texts of the IPA proxy (src/ipa_proxy.c): what is typed in the enable
    node and in the configuration node, showing instances and routes, writing the configuration
    (:612-638) and reading it at the next start.  What the commands do is ProxyModel.v.

    Words and lines of a text, and printf of numbers, as in VtyModel.v; keywords in full
    (abbreviations and completion of libosmocore are left out).  NAME, IP, PORT and HEXNUM stand
    for any word.  The kernel's answer to bind() and listen() is a function of the ports that are
    listened on and the port wanted. *)
From Coq Require Import List Arith Lia Bool ZArith Ascii String.
From Verif Require Import Base ProxyModel.
From Verif Require VtyModel.
Import ListNotations.
Open Scope string_scope.
Open Scope Z_scope.

(** ** Octets of a string *)
Definition code (a : ascii) : Z := Z.of_N (N_of_ascii a).
Definition chr (z : Z) : ascii := ascii_of_N (Z.to_N z).
Fixpoint codes (s : string) : list Z := match s with EmptyString => [] | String a r => code a :: codes r end.
Fixpoint str (l : list Z) : string := match l with [] => EmptyString | z :: r => String (chr z) (str r) end.

(** ** Numbers *)
(** value of a digit of base 16 *)
Definition digit (a : ascii) : option Z :=
  let n := code a in
  if (48 <=? n) && (n <=? 57) then Some (n - 48)
  else if (65 <=? n) && (n <=? 70) then Some (n - 55)
  else if (97 <=? n) && (n <=? 102) then Some (n - 87)
  else None.
(** the digits at the start of a word *)
Fixpoint digits (base acc : Z) (s : string) : Z :=
  match s with
  | String a r => match digit a with Some d => if d <? base then digits base (acc * base + d) r else acc | None => acc end
  | EmptyString => acc
  end.
Definition sign (s : string) : bool * string :=
  match s with
  | String a r => if Ascii.eqb a "-" then (true, r) else if Ascii.eqb a "+" then (false, r) else (false, s)
  | EmptyString => (false, s)
  end.
Definition prefix16 (s : string) : string :=
  match s with
  | String a (String x r) => if Ascii.eqb a "0" && (Ascii.eqb x "x" || Ascii.eqb x "X") then r else s
  | _ => s
  end.
(** strtoul(s, NULL, 16) of the C library with 64 bits *)
Definition strtoul16 (s : string) : Z :=
  let (n, r) := sign s in
  let v := digits 16 0 (prefix16 r) in
  if 2^64 - 1 <? v then 2^64 - 1 else if n then (- v) mod 2^64 else v.
(** atoi(s): strtol(s, NULL, 10) cut to an int *)
Definition atoi (s : string) : Z :=
  let (n, r) := sign s in
  let v := digits 10 0 r in
  let v := if n then (if 2^63 <? v then - 2^63 else - v) else (if 2^63 - 1 <? v then 2^63 - 1 else v) in
  (v + 2^31) mod 2^32 - 2^31.
(** printf 0x%.2x of a uint8_t *)
Definition hexd (z : Z) : ascii := chr (if z <? 10 then z + 48 else z + 87).
Definition hex2 (z : Z) : string := String "0" (String "x" (String (hexd (z / 16)) (String (hexd (z mod 16)) EmptyString))).

(** ** Commands *)
Inductive cmd :=
| CInst (name : string) (bind : bool) (addr port : string)     (* :257-262, :599-604 *)
| CNoInst (name : string)                                      (* :264-290 *)
| CShowInst                                                    (* :292-305 *)
| CRoute (n1 v1 n2 v2 : string)                                (* :458-463, :592-597 *)
| CNoRoute (n1 v1 n2 v2 : string)                              (* :465-564 *)
| CShowRoute                                                   (* :566-579 *)
.
Definition is (a b : string) : bool := String.eqb a b.
(** "instance NAME (bind|connect) IP tcp port PORT" *)
Definition parse_inst (ws : list string) : option cmd :=
  match ws with
  | [i; n; ty; a; t; p; v] =>
    if is i "instance" && is t "tcp" && is p "port" then
      if is ty "bind" then Some (CInst n true a v) else if is ty "connect" then Some (CInst n false a v) else None
    else None
  | _ => None
  end.
(** "route instance NAME streamid HEXNUM instance NAME streamid HEXNUM" *)
Definition parse_route (ws : list string) : option (string * string * string * string) :=
  match ws with
  | [r; i; n1; s1; v1; j; n2; s2; v2] =>
    if is r "route" && is i "instance" && is s1 "streamid" && is j "instance" && is s2 "streamid" then Some (n1, v1, n2, v2) else None
  | _ => None
  end.
(** the node: [true] the configuration node "ipa", [false] the enable node *)
Definition parse_cfg (ws : list string) : option cmd :=
  match parse_inst ws with
  | Some c => Some c
  | None => do x <- parse_route ws; let '(n1, v1, n2, v2) := x in Some (CRoute n1 v1 n2 v2)
  end.
Definition parse_enable (ws : list string) : option cmd :=
  match ws with
  | i :: r =>
    if is i "ipa" then
      match r with
      | [a; b] => if is b "show" then (if is a "instance" then Some CShowInst else if is a "route" then Some CShowRoute else None) else None
      | _ => parse_cfg r
      end
    else if is i "no" then
      match r with
      | j :: r => if is j "ipa" then
          match r with
          | [a; n] => if is a "instance" then Some (CNoInst n) else None
          | _ => do x <- parse_route r; let '(n1, v1, n2, v2) := x in Some (CNoRoute n1 v1 n2 v2)
          end else None
      | [] => None
      end
    else None
  | [] => None
  end.
Definition parse (cfg : bool) (ws : list string) : option cmd := if cfg then parse_cfg ws else parse_enable ws.

(** ports listened on; ports wanted that can be had *)
Definition kern := list Z -> Z -> bool.
Definition ports (s : st) : list Z := map l_port (links s).
Definition wanted (s : st) (n1 : list Z) : Z := match find_src s n1 with Some a => i_port a | None => 0 end.

(** ** Showing and writing: lines as words *)
Definition ty_word (t : net_type) : string := match t with T_BIND => "bind" | T_CONNECT => "connect" end.
(** :621-626 *)
Definition inst_words (i : inst) : list string := ["instance"; str (i_name i); ty_word (i_type i); str (i_addr i); "tcp"; "port"; VtyModel.num (i_port i)].
(** :297-303: the address before the type *)
Definition inst_shown (i : inst) : list string := ["instance"; str (i_name i); str (i_addr i); ty_word (i_type i); "tcp"; "port"; VtyModel.num (i_port i)].
(** :572-576, :630-634; None: freed memory *)
Definition route_words (s : st) (r : route) : option (list string) :=
  do sh <- find_shared s (r_shared r); do a <- find_inst s (s_src sh); do b <- find_inst s (s_dst sh);
  Some ["route"; "instance"; str (i_name a); "streamid"; hex2 (r_ss r); "instance"; str (i_name b); "streamid"; hex2 (r_ds r)].
Fixpoint all_routes (s : st) (rs : list route) : option (list (list string)) :=
  match rs with [] => Some [] | r :: rs => do w <- route_words s r; do ws <- all_routes s rs; Some (w :: ws) end.
(** :612-638 ipa_cfg_write *)
Definition write (s : st) : option string :=
  do rs <- all_routes s (routes s);
  Some ((match insts s with [] => EmptyString | _ => "ipa" ++ String VtyModel.nl EmptyString end) ++ VtyModel.text (map inst_words (insts s) ++ rs)%list).

(** ** What happens *)
Inductive reply := Unknown | Said (r : ret) | Shown (ls : list string) | Fw (f : fwd).
Definition exec (k : kern) (s : st) (c : cmd) : option (st * reply) :=
  match c with
  | CInst n b a p => let '(s, r) := instance_add s (codes n) (if b then T_BIND else T_CONNECT) (codes a) (atoi p) in Some (s, Said r)
  | CNoInst n => do x <- instance_del s (codes n); Some (fst x, Said (snd x))
  | CShowInst => Some (s, Shown (map (fun i => String.concat " " (inst_shown i)) (insts s)))
  | CRoute n1 v1 n2 v2 =>
    do x <- route_add s (codes n1) (strtoul16 v1) (codes n2) (strtoul16 v2) (k (ports s) (wanted s (codes n1)));
    Some (fst x, Said (snd x))
  | CNoRoute n1 v1 n2 v2 => do x <- route_del s (codes n1) (strtoul16 v1) (codes n2) (strtoul16 v2); Some (fst x, Said (snd x))
  | CShowRoute => do ws <- all_routes s (routes s); Some (s, Shown (map (String.concat " ") ws))
  end.
(** connections and messages *)
Inductive net := NAccept (lid : nat) (ok : bool) | NClosed (cid : nat) | NSrc (cid : nat) (p : Z) | NDst (cid : nat) (p : Z).
Definition net_op (n : net) : op := match n with NAccept l ok => Accept l ok | NClosed c => SrcClosed c | NSrc c p => SrcMsg c p | NDst c p => DstMsg c p end.
Inductive ev := Typed (cfg : bool) (t : string) | Net (n : net).
Definition reply_of (o : out) : reply := match o with Ret r => Said r | Fwd f => Fw f end.
Definition vstep (k : kern) (s : st) (e : ev) : option (st * reply) :=
  match e with
  | Typed cfg t => match parse cfg (VtyModel.words t) with Some c => exec k s c | None => Some (s, Unknown) end
  | Net n => do x <- step s (net_op n); Some (fst x, reply_of (snd x))
  end.

(** ** Reading it at the next start: libosmocore enters the node at the line "ipa"; its lines are
    indented by one blank.  The lines refused are reported. *)
Definition read_line (k : kern) (s : st) (t : string) : option (st * list string) :=
  match t with
  | String a r =>
    if Ascii.eqb a " " && negb (match r with String b _ => VtyModel.is_space b | _ => true end) then
      do x <- vstep k s (Typed true r); match x with (s, Said Ok) => Some (s, []) | (s, _) => Some (s, [t]) end
    else Some (s, [t])
  | EmptyString => Some (s, [])
  end.
Fixpoint read_lines (k : kern) (s : st) (ts : list string) : option (st * list string) :=
  match ts with
  | [] => Some (s, [])
  | t :: r => do x <- read_line k s t; do y <- read_lines k (fst x) r; Some (fst y, snd x ++ snd y)%list
  end.
Definition read (k : kern) (t : string) : option (st * list string) :=
  match VtyModel.lines_of t with
  | [] => Some (st0, [])
  | h :: r => if is h "ipa" then read_lines k st0 r else Some (st0, h :: r)
  end.
