(** Model of src/input/rs232.c: the driver for a serial port, with its "CRAPD" framing.
    Of src/e1_input.c: abis_sendmsg, e1inp_tx_ts and the signalling links of timeslot 1.

    The kernel is a record of functions of a counter that grows with every question asked.
    A descriptor is named by the counter: names are never used twice, whatever number the
    kernel gives it.  [Bad] ends an execution: a freed message buffer used, a message buffer
    written past its end, a descriptor put in the select loop twice.
    Simplified: timeslot 1 is a signalling timeslot.  Messages to be sent have room for ten
    more octets in front (msgb_push aborts otherwise).  A message goes to a link that exists.
    Left out: logging, pcap, allocation failures, the delay after a write, terminal settings. *)
From Coq Require Import List Arith Lia Bool ZArith.
From Verif Require Import Base.
Import ListNotations.
Open Scope Z_scope.

(** open(); tcgetattr(); tcsetattr(); osmo_fd_register(); write(): how many octets are taken *)
Record kern := mkK { k_open : nat -> bool; k_get : nat -> bool; k_set : nat -> bool; k_reg : nat -> bool; k_write : nat -> nat }.
Inductive why := UseAfterFree | Overflow | Twice.
Inductive res (A : Type) := Ok (a : A) | Bad (r : why).
Arguments Ok {A} a. Arguments Bad {A} r.
Notation "'try' x <- a ; b" := (match a with Ok x => b | Bad r => Bad r end) (at level 200, x name, a at level 100, b at level 200).

(** sh->rx_msg: none, a buffer of 300 octets with these in it, a freed one *)
Inductive buf := NoBuf | Buf (o : list Z) | Freed.
(** effects; [ERx]: the message given to the application, and its l2h *)
Inductive eff :=
| EOpen (f : nat) | EClose (f : nat) | EReg (f : nat)
| ERead (f : nat) (o : list Z) | EReadErr (f : nat)
| ERx (o : list Z) (l2 : option (list Z)) | ELeak (o : list Z)
| EAcc (i : nat) (m : list Z) | ETake (i : nat) (m : list Z) | EWire (f : nat) (o : list Z) | EShort
| ELink (i : nat) | EUnlink (i : nat) | ERet (rc : Z).
(** :43-50 struct serial_handle; bfd->fd, in the select loop, OSMO_FD_WRITE; the signalling
    links with the messages that wait; [cb]: line->ops->sign_link is set *)
Record st := mkS { cb : bool; fd : option nat; reg : bool; wr : bool; rx : buf; missing : Z; links : list (nat * list (list Z)); tick : nat; out : list eff }.
Definition st_init (c : bool) : st := mkS c None false false NoBuf 0 [] 0 [].
Definition emit (s : st) (e : eff) : st := mkS (cb s) (fd s) (reg s) (wr s) (rx s) (missing s) (links s) (tick s) (out s ++ [e]).
Definition next (s : st) : st := mkS (cb s) (fd s) (reg s) (wr s) (rx s) (missing s) (links s) (S (tick s)) (out s).
Definition w_wr (s : st) (b : bool) : st := mkS (cb s) (fd s) (reg s) b (rx s) (missing s) (links s) (tick s) (out s).
Definition w_rx (s : st) (b : buf) (m : Z) : st := mkS (cb s) (fd s) (reg s) (wr s) b m (links s) (tick s) (out s).
Definition w_links (s : st) (l : list (nat * list (list Z))) : st := mkS (cb s) (fd s) (reg s) (wr s) (rx s) (missing s) l (tick s) (out s).
Definition w_fd (s : st) (f : option nat) (r : bool) : st := mkS (cb s) f r (wr s) (rx s) (missing s) (links s) (tick s) (out s).

(** :54-78 rs232_build_msg: length of what follows the first two octets, ..., length of the
    message (eight bits of it), the same exclusive-or 0x38 *)
Definition build (m : list Z) : list Z :=
  let n := Z.of_nat (length m) in
  let len := n + 10 - 2 in
  [Z.land (Z.shiftr len 8) 255; Z.land len 255; 0; 7; 1; 62; 0; 0; n mod 256; Z.lxor (n mod 256) 56] ++ m.

(** e1_input.c:985-994 of e1inp_tx_ts: the oldest message of the first link that has one *)
Fixpoint take (q : list (nat * list (list Z))) : option (nat * list Z * list (nat * list (list Z))) :=
  match q with
  | [] => None
  | (i, []) :: r => match take r with Some (j, m, r') => Some (j, m, (i, []) :: r') | None => None end
  | (i, m :: ms) :: r => Some (i, m, (i, ms) :: r)
  end.
(** :81-113 handle_ser_write; [f] the descriptor *)
Definition ser_write (k : kern) (f : nat) (s : st) : st :=
  let s := w_wr s false in
  match take (links s) with
  | None => s
  | Some (i, m, q) =>
    let s := emit (w_links s q) (ETake i m) in
    let o := build m in
    let s' := emit (next s) (EWire f (firstn (k_write k (tick s)) o)) in
    if (k_write k (tick s) <? length o)%nat then emit s' EShort else s'
  end.

(** ** The application *)
Inductive cmd := CUpdate | CLink (i : nat) | CUnlink (i : nat) | CSend (i : nat) (m : list Z).
Definition has (i : nat) (q : list (nat * list (list Z))) : bool := existsb (fun a => Nat.eqb (fst a) i) q.
Fixpoint append (i : nat) (m : list Z) (q : list (nat * list (list Z))) : list (nat * list (list Z)) :=
  match q with [] => [] | (j, ms) :: r => if Nat.eqb j i then (j, ms ++ [m]) :: r else (j, ms) :: append i m r end.
(** :215-269 rs232_setup, :279-286 rs232_line_update *)
Definition setup (k : kern) (s : st) : res (st * Z) :=
  let f := tick s in
  if negb (k_open k f) then Ok (next s, -1) else
  let s := next (emit (w_fd s (Some f) (reg s)) (EOpen f)) in
  if negb (k_get k (tick s)) then Ok (next s, -1) else
  let s := next s in
  if negb (k_set k (tick s)) then Ok (next s, -1) else
  let s := w_wr (w_rx (next s) NoBuf 0) false in                   (* a new serial_handle; osmo_fd_setup *)
  if reg s then Bad Twice else
  if negb (k_reg k (tick s)) then Ok (emit (next s) (EClose f), -1) else
  Ok (emit (next (w_fd s (fd s) true)) (EReg f), 0).
(** e1_input.c:294-327 abis_sendmsg with :208-213 rs232_want_write; :782-837 links *)
Definition exec (k : kern) (s : st) (c : cmd) : res st :=
  match c with
  | CUpdate => try p <- setup k s; Ok (emit (fst p) (ERet (snd p)))
  | CLink i => Ok (if has i (links s) then s else emit (w_links s (links s ++ [(i, [])])) (ELink i))
  | CUnlink i => Ok (if has i (links s) then emit (w_links s (filter (fun a => negb (Nat.eqb (fst a) i)) (links s))) (EUnlink i) else s)
  | CSend i m => Ok (if has i (links s) then emit (w_wr (w_links s (append i m (links s))) true) (EAcc i m) else s)
  end.
Fixpoint execs (k : kern) (cs : list cmd) (s : st) : res st :=
  match cs with [] => Ok s | c :: r => try s <- exec k s c; execs k r s end.

(** ** Receiving *)
(** read(): an error, or as many of these octets as were asked for *)
Inductive rd := RdErr | Rd (avail : list Z).
(** :115 SERIAL_ALLOC_SIZE, msgb_put *)
Definition fill (b o : list Z) : res (list Z) := if (300 <? length (b ++ o))%nat then Bad Overflow else Ok (b ++ o).
(** :118-189 handle_ser_read; the second component: rc < 0.  [act]: what the application does in
    its callback *)
Definition ser_read (k : kern) (f : nat) (s : st) (r : rd) (act : list cmd) : res (st * bool) :=
  match rx s with
  | Freed => Bad UseAfterFree
  | b =>
    let b := match b with Buf o => o | _ => [] end in
    match r with
    | RdErr => Ok (emit (w_rx s Freed (missing s)) (EReadErr f), true)
    | Rd avail =>
      if (length b <? 2)%nat then
        let o := firstn (2 - length b) avail in
        try b <- fill b o;
        let s := emit s (ERead f o) in
        Ok (w_rx s (Buf b) (if (2 <=? length b)%nat then Z.shiftl (nth 0 b 0) 8 + nth 1 b 0 else missing s), false)
      else
        let o := firstn (Z.to_nat (missing s)) avail in
        try b <- fill b o;
        let s := emit s (ERead f o) in
        let miss := missing s - Z.of_nat (length o) in
        if miss =? 0 then
          let s := w_rx s NoBuf 0 in
          if negb (cb s) then Ok (emit s (ELeak b), true)
          else try s <- execs k act (emit s (ERx b (if (10 <? length b)%nat then Some (skipn 10 b) else None))); Ok (s, false)
        else Ok (w_rx s (Buf b) miss, false)
    end
  end.
(** :192-206 serial_fd_cb; [r], [w]: OSMO_FD_READ, WRITE *)
Definition fd_cb (k : kern) (s : st) (f : nat) (r : option rd) (w : bool) (act : list cmd) : res st :=
  try p <- match r with Some r => ser_read k f s r act | None => Ok (s, false) end;
  let (s, bad) := p in
  if negb bad && w then Ok (ser_write k (match fd s with Some f => f | None => f end) s) else Ok s.
(** [Ready]: the select loop finds something *)
Inductive ev := App (cs : list cmd) | Ready (r : option rd) (w : bool) (act : list cmd).
Definition step (k : kern) (s : st) (v : ev) : res st :=
  match v with
  | App cs => execs k cs s
  | Ready r w act => match fd s with
                     | Some f => if reg s then fd_cb k s f r (w && wr s) act else Ok s
                     | None => Ok s
                     end
  end.
Fixpoint run (k : kern) (s : st) (vs : list ev) : res st :=
  match vs with [] => Ok s | v :: r => try s <- step k s v; run k s r end.
