(** Model of src/input/e1d.c (all functions but e1inp_port_find and
    e1d_client_event_cb, which are in E1dEvtModel.v): the driver for osmo-e1d.  Lines of this driver, their
    timeslots' descriptors, the connection to the daemon and its state machine.

    The daemon and the kernel are a record of functions of a counter that grows with
    every question asked, so every behaviour is covered.  A descriptor the daemon
    hands out is named by the counter: names are never used twice, whatever number the
    kernel gives it.  What the application does in a receive callback is a list of
    commands.

    [Bad] ends an execution: osmo_fd_unregister of a descriptor that is not
    registered, a null LAPD instance or daemon client dereferenced.
    Simplified: a timeslot has one queue (of its signalling link, or the raw or HDLC
    queue); the LAPD instance is the environment: what it is given is recorded, and it
    may write at any time while it exists; the TRAU octets sent come from the multiplexer
    (C10-C13), which is the environment here: [d_mux].  Lines are not destroyed.  Logging and
    allocation failures are left out. *)
From Coq Require Import List Arith Lia Bool ZArith.
From Verif Require Import Base E1Model IpaccessModel.
Import ListNotations.
Open Scope Z_scope.

(** osmo-e1d proto.h: the modes the driver asks for, and others *)
Inductive mode := HDLCFCS | RAW | OTHER.
Definition mode_eqb (a b : mode) : bool := match a, b with HDLCFCS, HDLCFCS | RAW, RAW | OTHER, OTHER => true | _, _ => false end.
(** the environment: creating the client (:156), a timeslot query (:695), opening a
    timeslot (:738, :769, :794), osmo_fd_register (:808), write(), subchan_mux_out(160) of the timeslot served *)
Record daemon := mkDm { d_client : nat -> bool; d_query : nat -> option (list mode); d_open : nat -> bool; d_reg : nat -> bool; d_write : nat -> Z; d_mux : nat -> list Z }.

Inductive why := NotRegistered | NullLapd | NullClient.
Inductive res (A : Type) := Ok (a : A) | Bad (r : why).
Arguments Ok {A} a. Arguments Bad {A} r.
Notation "'try' x <- a ; b" := (match a with Ok x => b | Bad r => Bad r end) (at level 200, x name, a at level 100, b at level 200).

(** struct e1inp_ts with its driver.e1d.fd: [e_fd] the descriptor (None: -1), [e_reg]: in
    the select loop, [e_wr]: OSMO_FD_WRITE, [e_lapd]: instance allocated, [e_tmr]: the tx
    delay timer runs *)
Record ets := mkE { e_type : ts_type; e_fd : option nat; e_reg : bool; e_wr : bool; e_lapd : bool; e_q : list (list Z); e_tmr : bool }.
Definition ets0 : ets := mkE TS_NONE None false false false [] false.
(** effects *)
Inductive deff :=
| DOpen (l t : nat) (m : mode) (fd : nat) | DClose (fd : nat) | DReg (fd : nat) | DUnreg (fd : nat)
| DSend (l t fd : nat) (d : list Z) (ret : Z)       (* write() of a message *)
| DTrau (l t fd : nat) (o : list Z) (ret : Z)       (* write() of 160 octets of the multiplexer: octets written *)
| DDrop (l t : nat) (d : list Z)                    (* a message that cannot be written *)
| DLapdWr (l t fd : nat) (d : list Z) (ret : Z)     (* write() of a frame of the LAPD instance *)
| DAcc (l t : nat) (d : list Z)                     (* a message taken from the application *)
| DFlush (l t : nat)                                (* the type changes: queue freed *)
| DRx (l t : nat) (d : list Z)                      (* e1inp_rx_ts *)
| DLapdRx (l t : nat) (d : list Z) | DLapdTx (l t : nat) (d : list Z)
| DClient (up : bool) | DUpdate (l : nat) | DRet (l : nat) (rc : Z).   (* e1inp_line_update called, its result *)
(** [client]: g_e1d; [fsm]: None not created, else connected; [fsm_tmr]: its timer runs;
    [flag]: lines[]; [exist]: lines created *)
Record st := mkS { client : bool; fsm : option bool; fsm_tmr : bool; flag : nat -> bool; exist : nat -> bool; tsl : nat -> nat -> ets; tick : nat; out : list deff }.
Definition st_init : st := mkS false None false (fun _ => false) (fun _ => false) (fun _ _ => ets0) 0 [].

Definition emit (s : st) (e : deff) : st := mkS (client s) (fsm s) (fsm_tmr s) (flag s) (exist s) (tsl s) (tick s) (out s ++ [e]).
Definition next (s : st) : st := mkS (client s) (fsm s) (fsm_tmr s) (flag s) (exist s) (tsl s) (S (tick s)) (out s).
Definition set_ts (s : st) (l t : nat) (x : ets) : st := mkS (client s) (fsm s) (fsm_tmr s) (flag s) (exist s) (upd (tsl s) l (upd (tsl s l) t x)) (tick s) (out s).
Definition set_fsm (s : st) (c : bool) (f : option bool) (tm : bool) : st := mkS c f tm (flag s) (exist s) (tsl s) (tick s) (out s).
Definition set_flag (s : st) (l : nat) : st := mkS (client s) (fsm s) (fsm_tmr s) (upd (flag s) l true) (exist s) (tsl s) (tick s) (out s).
Definition w_fd (x : ets) (f : option nat) (r : bool) : ets := mkE (e_type x) f r (e_wr x) (e_lapd x) (e_q x) (e_tmr x).
Definition w_wr (x : ets) (w : bool) : ets := mkE (e_type x) (e_fd x) (e_reg x) w (e_lapd x) (e_q x) (e_tmr x).
Definition w_lapd (x : ets) (b : bool) : ets := mkE (e_type x) (e_fd x) (e_reg x) (e_wr x) b (e_q x) (e_tmr x).
Definition w_q (x : ets) (q : list (list Z)) : ets := mkE (e_type x) (e_fd x) (e_reg x) (e_wr x) (e_lapd x) q (e_tmr x).
Definition w_tmr (x : ets) (b : bool) : ets := mkE (e_type x) (e_fd x) (e_reg x) (e_wr x) (e_lapd x) (e_q x) b.

(** timeslots the loops visit: ts = 1 .. num_ts-1 (num_ts = 32, e1_input.c:606) *)
Definition slots : list nat := seq 1 31.
(** ARRAY_SIZE(lines) *)
Definition all_lines : list nat := seq 0 256.

(** :174-195 terminate_line, one timeslot *)
Definition terminate_ts (s : st) (l t : nat) : res st :=
  let x := tsl s l t in
  match e_fd x with
  | None => Ok s
  | Some fd =>
    if e_reg x then Ok (emit (emit (set_ts s l t (w_fd x None false)) (DUnreg fd)) (DClose fd)) else Bad NotRegistered
  end.
Fixpoint each (f : st -> nat -> res st) (ts : list nat) (s : st) : res st :=
  match ts with [] => Ok s | t :: r => try s <- f s t; each f r s end.
Definition terminate_line (s : st) (l : nat) : res st := each (fun s t => terminate_ts s l t) slots s.
(** :221-255 EV_CONN_LOST; in ST_DISCONNECTED it is not an allowed event and ignored *)
Definition conn_lost (s : st) : res st :=
  match fsm s with
  | Some true =>
    let s := if client s then emit (set_fsm s false (fsm s) (fsm_tmr s)) (DClient false) else s in
    try s <- each (fun s l => if flag s l && exist s l then terminate_line s l else Ok s) all_lines s;
    Ok (set_fsm s (client s) (Some false) true)
  | _ => Ok s
  end.

Definition mode_of (ty : ts_type) : mode := match ty with TS_SIGN | TS_HDLC => HDLCFCS | _ => RAW end.
(** :704-815, one turn of the loop over the timeslots; the second component: Some rc: return *)
Definition close_ts (s : st) (l t : nat) : st :=
  match e_fd (tsl s l t) with
  | None => s
  | Some fd => emit (set_ts s l t (w_fd (tsl s l t) None (e_reg (tsl s l t)))) (DClose fd)
  end.
Definition unreg_ts (s : st) (l t : nat) : st :=
  match e_fd (tsl s l t) with
  | Some fd => if e_reg (tsl s l t) then emit (set_ts s l t (w_fd (tsl s l t) (Some fd) false)) (DUnreg fd) else s
  | None => s
  end.
(** :733-737 and alike: the old descriptor is used only in the same mode *)
Definition match_ts (info : list mode) (s : st) (l t : nat) (ty : ts_type) : st :=
  let s := if type_eqb ty TS_SIGN then s else set_ts s l t (w_lapd (tsl s l t) false) in
  if mode_eqb (nth t info OTHER) (mode_of ty) then s else close_ts s l t.
(** :749-760, :806-814: LAPD instance, osmo_fd_setup, osmo_fd_register *)
Definition reg_ts (d : daemon) (s : st) (l t : nat) (ty : ts_type) (fd : nat) : st * option Z :=
  let x := w_wr (tsl s l t) false in
  let x := if type_eqb ty TS_SIGN then w_lapd x true else x in
  if d_reg d (tick s) then (emit (next (set_ts s l t (w_fd x (Some fd) true))) (DReg fd), None)
  else (emit (next (set_ts s l t (w_fd x None false))) (DClose fd), Some (-1)).
Definition update_ts (d : daemon) (info : list mode) (s : st) (l t : nat) : res (st * option Z) :=
  let s := unreg_ts s l t in
  let ty := e_type (tsl s l t) in
  if negb (type_eqb ty TS_NONE) && (length info <=? t)%nat then Ok (s, None) else
  if type_eqb ty TS_NONE then Ok (close_ts (set_ts s l t (w_lapd (tsl s l t) false)) l t, None) else
  let s := match_ts info s l t ty in
  match e_fd (tsl s l t) with
  | Some fd => Ok (reg_ts d s l t ty fd)
  | None => let fd := tick s in
            if d_open d fd then Ok (reg_ts d (emit (set_ts (next s) l t (w_fd (tsl s l t) (Some fd) false)) (DOpen l t (mode_of ty) fd)) l t ty fd)
            else try s <- conn_lost (next s); Ok (s, Some (-5))
  end.
Fixpoint update_loop (d : daemon) (info : list mode) (l : nat) (ts : list nat) (s : st) : res (st * Z) :=
  match ts with
  | [] => Ok (s, 0)
  | t :: r => try x <- update_ts d info s l t;
              match snd x with Some rc => Ok (fst x, rc) | None => update_loop d info l r (fst x) end
  end.
(** :685-702 and the loop *)
Definition update_body (d : daemon) (s : st) (l : nat) : res (st * Z) :=
  match fsm s with
  | Some true =>
    match d_query d (tick s) with
    | None => try s <- conn_lost (next s); Ok (s, 0)
    | Some info => update_loop d info l slots (next s)
    end
  | _ => Ok (s, 0)
  end.
(** :151-172 EV_CONNECT with :197-219 the entry of ST_CONNECTED; ignored when connected *)
Definition connect (d : daemon) (s : st) : res st :=
  match fsm s with
  | Some false =>
    let '(ok, s) := if client s then (true, s) else (d_client d (tick s), next s) in
    if ok then
      let s := if client s then s else emit s (DClient true) in
      each (fun s l => if flag s l && exist s l then try x <- update_body d s l; Ok (fst x) else Ok s) all_lines (set_fsm s true (Some true) false)
    else Ok (set_fsm s (client s) (Some false) true)
  | _ => Ok s
  end.
(** :660-684 e1d_line_update *)
Definition line_update (d : daemon) (s : st) (l : nat) : res (st * Z) :=
  let s := emit (set_flag s l) (DUpdate l) in
  try s <- match fsm s with Some _ => Ok s | None => connect d (set_fsm s (client s) (Some false) false) end;
  update_body d s l.

(** ** Data *)
(** :643-658 e1d_want_write *)
Definition want_write (s : st) (l t : nat) : st :=
  match fsm s with
  | Some true => match e_type (tsl s l t) with
                 | TS_TRAU | TS_I460 => s
                 | _ => set_ts s l t (w_wr (tsl s l t) true)
                 end
  | _ => s
  end.
(** write(): fails on descriptor -1 *)
Definition do_write (d : daemon) (s : st) (l t : nat) (m : list Z) : st * Z :=
  match e_fd (tsl s l t) with
  | Some fd => let r := d_write d (tick s) in (emit (next s) (DSend l t fd m r), r)
  | None => (emit s (DDrop l t m), -1)
  end.
(** :332-358 handle_ts_sign_write; lapd_transmit of a null instance *)
Definition sign_write (s : st) (l t : nat) : res st :=
  let s := set_ts s l t (w_wr (tsl s l t) false) in
  match e_q (tsl s l t) with
  | [] => Ok s
  | m :: q => if e_lapd (tsl s l t) then Ok (emit (set_ts s l t (w_tmr (w_q (tsl s l t) q) true)) (DLapdTx l t m)) else Bad NullLapd
  end.
(** libosmocore osmo_revbytebits_8 *)
Definition rev8 (b : Z) : Z := fold_left (fun a i => a + (if Z.testbit b i then 2 ^ (7 - i) else 0)) [0;1;2;3;4;5;6;7] 0.
(** :362-393 handle_ts_trau_write; with descriptor -1 write() fails (and what was fetched is lost) *)
Definition trau_write (d : daemon) (s : st) (l t : nat) : res st :=
  match e_fd (tsl s l t) with
  | Some fd => let o := map rev8 (d_mux d (tick s)) in
               let r := d_write d (tick s) in
               let s := emit (next s) (DTrau l t fd o r) in
               if r <=? 0 then conn_lost s else Ok s
  | None => conn_lost s
  end.
(** :439-482 handle_ts_raw_write, :518-543 handle_ts_hdlc_write *)
Definition queue_write (d : daemon) (s : st) (l t : nat) (hdlc : bool) : res st :=
  match e_q (tsl s l t) with
  | [] => Ok (set_ts s l t (w_wr (tsl s l t) false))
  | m :: q =>
    let '(s, r) := do_write d (set_ts s l t (w_q (tsl s l t) q)) l t m in
    if (if hdlc then r <? Z.of_nat (length m) else (r <? Z.of_nat (length m)) && (r <=? 0)) then conn_lost s else Ok s
  end.
(** :576-595 e1d_write_msg, the callback of the LAPD instance *)
Definition write_msg (d : daemon) (s : st) (l t : nat) (m : list Z) : res st :=
  match fsm s with
  | Some true =>
    match e_fd (tsl s l t) with
    | Some fd => let r := d_write d (tick s) in
                 let s := emit (next s) (DLapdWr l t fd m r) in
                 if r <? 0 then conn_lost s else Ok s
    | None => conn_lost s
    end
  | _ => Ok s
  end.
(** abis_sendmsg (e1_input.c:294-328, one link), e1inp_ts_send_raw (:335-348), _hdlc
    (:350-363); a TRAU or I.460 timeslot has no queue *)
Definition send (s : st) (l t : nat) (m : list Z) : st :=
  let x := tsl s l t in
  match e_type x with
  | TS_SIGN => let s := emit (set_ts s l t (w_q x (e_q x ++ [m]))) (DAcc l t m) in if e_tmr x then s else want_write s l t
  | TS_RAW | TS_HDLC => let s := want_write s l t in emit (set_ts s l t (w_q (tsl s l t) (e_q x ++ [m]))) (DAcc l t m)
  | _ => s
  end.
(** e1_input.c:366-519 e1inp_ts_config_* and cleanup_e1inp_ts (signalling links removed
    before) *)
Definition config (s : st) (l t : nat) (ty : ts_type) : st :=
  let x := tsl s l t in
  if type_eqb (e_type x) ty then s else emit (set_ts s l t (mkE ty (e_fd x) (e_reg x) (e_wr x) (e_lapd x) [] (e_tmr x))) (DFlush l t).

Inductive cmd := CConfig (l t : nat) (ty : ts_type) | CUpdate (l : nat) | CSend (l t : nat) (m : list Z).
Definition exec (d : daemon) (s : st) (c : cmd) : res st :=
  match c with
  | CConfig l t ty => Ok (if exist s l && (1 <=? t)%nat && (t <? 32)%nat then config s l t ty else s)
  | CUpdate l => if exist s l then try x <- line_update d s l; Ok (emit (fst x) (DRet l (snd x))) else Ok s
  | CSend l t m => Ok (if exist s l && (1 <=? t)%nat && (t <? 32)%nat then send s l t m else s)
  end.
Fixpoint execs (d : daemon) (cs : list cmd) (s : st) : res st :=
  match cs with [] => Ok s | c :: r => try s <- exec d s c; execs d r s end.

(** what read() returned: an error, or octets (none: end of file) *)
Inductive rd := RdErr | RdData (o : list Z).
Definition GRAN : nat := 160.
(** :300-322 handle_ts_sign_read *)
Definition sign_read (d : daemon) (s : st) (l t : nat) (r : rd) (act : list cmd) : res st :=
  match r with
  | RdErr | RdData [] => conn_lost s
  | RdData o => if e_lapd (tsl s l t) then execs d act (emit s (DLapdRx l t (firstn 284 o))) else Bad NullLapd
  end.
(** :396-436 handle_ts_trau_read *)
Definition trau_read (d : daemon) (s : st) (l t : nat) (r : rd) (act : list cmd) : res st :=
  match r with
  | RdErr | RdData [] => conn_lost s
  | RdData o =>
    let o := firstn GRAN o in
    if negb (length o =? GRAN)%nat then Ok s else
    try s <- execs d act (emit s (DRx l t (map rev8 o)));
    trau_write d s l t
  end.
(** :484-515 handle_ts_raw_read *)
Definition raw_read (d : daemon) (s : st) (l t : nat) (r : rd) (act : list cmd) : res st :=
  match r with
  | RdErr | RdData [] => conn_lost s
  | RdData o =>
    let o := firstn GRAN o in
    if negb (length o =? GRAN)%nat then Ok s else execs d act (emit s (DRx l t o))
  end.
(** :548-574 handle_ts_hdlc_read *)
Definition hdlc_read (d : daemon) (s : st) (l t : nat) (r : rd) (act : list cmd) : res st :=
  match r with
  | RdErr | RdData [] => conn_lost s
  | RdData o => execs d act (emit s (DRx l t (firstn 4096 o)))
  end.
(** :597-640 e1d_fd_cb; the type is looked at once *)
Definition fd_cb (d : daemon) (s : st) (l t : nat) (r : option rd) (w : bool) (act : list cmd) : res st :=
  match fsm s with
  | Some true =>
    let both (rf : rd -> res st) (wf : st -> res st) :=
      try s <- match r with Some r => rf r | None => Ok s end;
      if w then wf s else Ok s in
    match e_type (tsl s l t) with
    | TS_SIGN => both (fun r => sign_read d s l t r act) (fun s => sign_write s l t)
    | TS_TRAU => match r with Some r => trau_read d s l t r act | None => Ok s end
    | TS_RAW => both (fun r => raw_read d s l t r act) (fun s => queue_write d s l t false)
    | TS_HDLC => both (fun r => hdlc_read d s l t r act) (fun s => queue_write d s l t true)
    | _ => Ok s
    end
  | _ => Ok s
  end.

(** [Create l]: e1inp_line_create with this driver, :822-835 e1d_line_create; [App]: what it
    does before it returns to the select loop; [Ready]: the select loop finds the descriptor readable ([r]) or writable ([w], only while
    OSMO_FD_WRITE is set); [Retry]: the timer of the state machine; [TxTimer]: :324-330;
    [LapdOut]: the LAPD instance sends a frame; [SaBits]: :837-845 *)
Inductive ev := Create (l : nat) | App (cs : list cmd) | Retry | Ready (l t : nat) (r : option rd) (w : bool) (act : list cmd)
| TxTimer (l t : nat) | LapdOut (l t : nat) (m : list Z) | SaBits (l : nat).
Definition step (d : daemon) (s : st) (v : ev) : res st :=
  match v with
  | Create l => Ok (if (l <? 256)%nat && negb (exist s l) then mkS (client s) (fsm s) (fsm_tmr s) (flag s) (upd (exist s) l true) (tsl s) (tick s) (out s) else s)
  | App cs => execs d cs s
  | Retry => if fsm_tmr s then connect d (set_fsm s (client s) (fsm s) false) else Ok s
  | Ready l t r w act => if e_reg (tsl s l t) then fd_cb d s l t r (w && e_wr (tsl s l t)) act else Ok s
  | TxTimer l t => if e_tmr (tsl s l t) then Ok (want_write (set_ts s l t (w_tmr (tsl s l t) false)) l t) else Ok s
  | LapdOut l t m => if e_lapd (tsl s l t) then write_msg d s l t m else Ok s
  | SaBits l => if exist s l then (if client s then Ok s else Bad NullClient) else Ok s
  end.
Fixpoint run (d : daemon) (s : st) (vs : list ev) : res st :=
  match vs with [] => Ok s | v :: r => try s <- step d s v; run d s r end.
