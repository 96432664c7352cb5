(** Model of src/input/dahdi.c (all functions but dahdi_vty_show and e1inp_dahdi_init): the
    driver for DAHDI cards.  Lines of this driver, the descriptors of their timeslots, the
    numbering of channels over all spans, and the data paths.  Of src/e1_input.c: sending,
    signalling links, configuration of timeslots.

    The kernel is a record of functions of a counter that grows with every question asked,
    so every behaviour is covered.  A descriptor is named by the counter: names are never
    used twice, whatever number the kernel gives it.  What the application does in a receive
    callback is a list of commands.

    [Bad] ends an execution: an index beyond span_cfgs[] or line->ts[], a null LAPD instance
    or an uninitialised link pointer used, the union of a timeslot overwritten while
    signalling links or the multiplexer in it are used.
    Simplified: the LAPD instance is the environment: what it is given is recorded, and it
    may write at any time while it exists.  The multiplexers give any octets (C10-C13).
    DAHDI_SPECIFY failing (:615-621) is an open that fails.  Lines are not destroyed; signal
    handlers do nothing; logging, pcap and allocation failures are left out. *)
From Coq Require Import List Arith Lia Bool ZArith.
From Verif Require Import Base E1Model.
Import ListNotations.
Open Scope Z_scope.

(** dahdi/user.h: DAHDI_EVENT_* *)
Inductive event := EvAlarm | EvNoAlarm | EvAbort | EvOverrun | EvBadFcs | EvRemoved | EvOther.
(** rate counters, e1_input.h E1I_CTR_* *)
Inductive ctr := CtrAbort | CtrBadFcs | CtrOverr | CtrAlarm | CtrRemoved.
(** open(): fails, gives descriptor number 0, or another *)
Inductive opened := OpFail | OpZero | OpOk.
(** the environment: DAHDI_MAX_SPANS; opening /dev/dahdi/ctl (:71); DAHDI_SPANSTAT of a span
    (:88: totalchans, None: fails); open() of a channel (:608); the ioctls of
    dahdi_set_bufinfo; osmo_fd_register; write(); DAHDI_GETEVENT (:134, None: fails); the
    multiplexers; the two octets behind a message in its buffer *)
Record kern := mkK { k_max : nat; k_ctl : nat -> bool; k_span : nat -> nat -> option nat; k_open : nat -> opened; k_buf : nat -> bool; k_reg : nat -> bool;
  k_write : nat -> Z; k_event : nat -> option event; k_mux : nat -> list Z; k_pad : nat -> Z * Z }.

Inductive why := OutOfTable | BeyondSlots | NullLapd | BadLink | LinksLeft | MuxGone.
Inductive res (A : Type) := Ok (a : A) | Bad (r : why).
Arguments Ok {A} a. Arguments Bad {A} r.
Notation "'try' x <- a ; b" := (match a with Ok x => b | Bad r => Bad r end) (at level 200, x name, a at level 100, b at level 200).

(** bfd->fd: 0, negative, a descriptor, or a descriptor with number 0 *)
Inductive fdv := Closed | Failed | Open (f : nat) | Zero (f : nat).
(** queues of messages: one for each signalling link, in the order of the list, or (with key
    0) the raw or HDLC queue *)
Definition queues := list (nat * list (list Z)).
(** struct e1inp_ts with its driver.dahdi.fd: [e_reg]: in the select loop, [e_wr]:
    OSMO_FD_WRITE, [e_lapd]: instance allocated, [e_tmr]: the tx delay timer runs *)
Record ets := mkE { e_type : ts_type; e_fd : fdv; e_reg : bool; e_wr : bool; e_lapd : bool; e_q : queues; e_tmr : bool }.
Definition ets0 : ets := mkE TS_NONE Closed false false false [] false.
(** effects; a timeslot is named by line and index in line->ts[] (its number less one) *)
Inductive eff :=
| DOpen (l t chan f : nat) | DClose (l t f : nat) | DReg (l t f : nat) | DUnreg (l t f : nat)
| DMode (l t f : nat) (sig : bool)                   (* dahdi_set_bufinfo succeeded: HDLC or transparent *)
| DSend (l t i f : nat) (m pad : list Z) (ret : Z)   (* write() of a message of queue [i] and what follows it *)
| DBlock (l t f : nat) (o pad : list Z) (ret : Z)    (* write() of octets of a multiplexer *)
| DLapdWr (l t f : nat) (m pad : list Z) (ret : Z)   (* write() of a frame of the LAPD instance *)
| DStray (l t : nat) (i : option nat) (m : list Z)   (* write() to descriptor 0, which is not the timeslot's; of queue [i] *)
| DDrop (l t : nat) (i : option nat) (m : list Z)    (* write() to a negative descriptor *)
| DMuxOut (l t : nat) (o : list Z)                   (* octets taken from a multiplexer *)
| DAcc (l t k : nat) (m : list Z)                    (* a message taken from the application *)
| DLink (l t k : nat) | DUnlink (l t k : nat) | DConf (l t : nat) (ty : ts_type)
| DRx (l t : nat) (o : list Z)                       (* e1inp_rx_ts *)
| DLapdRx (l t : nat) (o : list Z) | DLapdTx (l t k : nat) (m : list Z)
| DSig (l t : nat) (alarm : bool) | DCtr (l t : nat) (c : ctr)
| DUpdate (l : nat) | DRet (l : nat) (rc : Z).
(** [spans]: span_cfgs[] as (chan_base, chan_num); [port]: line->port_nr *)
Record st := mkS { spans : nat -> option (nat * nat); port : nat -> nat; exist : nat -> bool; tsl : nat -> nat -> ets; tick : nat; out : list eff }.
Definition upd {A} (f : nat -> A) (n : nat) (x : A) : nat -> A := fun k => if Nat.eqb k n then x else f k.
Definition st_init : st := mkS (fun _ => None) (fun _ => 0%nat) (fun _ => false) (fun _ _ => ets0) 0 [].

Definition emit (s : st) (e : eff) : st := mkS (spans s) (port s) (exist s) (tsl s) (tick s) (out s ++ [e]).
Definition next (s : st) : st := mkS (spans s) (port s) (exist s) (tsl s) (S (tick s)) (out s).
Definition set_ts (s : st) (l t : nat) (x : ets) : st := mkS (spans s) (port s) (exist s) (upd (tsl s) l (upd (tsl s l) t x)) (tick s) (out s).
Definition w_fd (x : ets) (f : fdv) (r : bool) : ets := mkE (e_type x) f r (e_wr x) (e_lapd x) (e_q x) (e_tmr x).
Definition w_wr (x : ets) (w : bool) : ets := mkE (e_type x) (e_fd x) (e_reg x) w (e_lapd x) (e_q x) (e_tmr x).
Definition w_lapd (x : ets) (b : bool) : ets := mkE (e_type x) (e_fd x) (e_reg x) (e_wr x) b (e_q x) (e_tmr x).
Definition w_q (x : ets) (q : queues) (tm : bool) : ets := mkE (e_type x) (e_fd x) (e_reg x) (e_wr x) (e_lapd x) q tm.

(** ** Spans and channels *)
(** :64-110 reread_span_cfgs: one turn of the loop, [i] = span_nr-1 *)
Definition read_span (k : kern) (n : nat) (a : (nat -> option (nat * nat)) * nat) (i : nat) : (nat -> option (nat * nat)) * nat :=
  match k_span k n (S i) with
  | None => (upd (fst a) i None, snd a)
  | Some c => (upd (fst a) i (Some (snd a, c)), (snd a + c)%nat)
  end.
Definition reread (k : kern) (s : st) : st :=
  if k_ctl k (tick s) then
    let c := fst (fold_left (read_span k (tick s)) (seq 0 (k_max k - 1)) (spans s, 1%nat)) in
    mkS c (port s) (exist s) (tsl s) (S (tick s)) (out s)
  else next s.

(** :645-732, one turn of the loop over the timeslots; the second component: Some rc: return *)
(** :651-653 *)
Definition unreg_ts (s : st) (l t : nat) : st :=
  let x := tsl s l t in
  match e_fd x with
  | Open f | Zero f => if e_reg x then emit (set_ts s l t (w_fd x (e_fd x) false)) (DUnreg l t f) else s
  | _ => s
  end.
(** :661-671 *)
Definition none_ts (s : st) (l t : nat) : st :=
  let x := w_lapd (tsl s l t) false in
  match e_fd x with
  | Open f => emit (set_ts s l t (w_fd x Closed (e_reg x))) (DClose l t f)
  | Failed => set_ts s l t (w_fd x Closed (e_reg x))
  | _ => set_ts s l t x
  end.
(** :674-677 and alike, :597-626 dahdi_open_slot *)
Definition open_ts (k : kern) (s : st) (l t chan : nat) : st :=
  let x := tsl s l t in
  match e_fd x with
  | Closed | Zero _ =>
    let f := tick s in
    match k_open k f with
    | OpFail => next (set_ts s l t (w_fd x Failed (e_reg x)))
    | OpZero => emit (next (set_ts s l t (w_fd x (Zero f) (e_reg x)))) (DOpen l t chan f)
    | OpOk => emit (next (set_ts s l t (w_fd x (Open f) (e_reg x)))) (DOpen l t chan f)
    end
  | _ => s
  end.
Definition sigchan (ty : ts_type) : bool := match ty with TS_SIGN | TS_HDLC => true | _ => false end.
(** :678-731 behind the opening, [f] the descriptor: :558-595 dahdi_set_bufinfo, LAPD, osmo_fd_register *)
Definition ready_ts (k : kern) (s : st) (l t f : nat) : st * option Z :=
  let ty := e_type (tsl s l t) in
  let s := if sigchan ty then set_ts s l t (w_wr (tsl s l t) false) else s in
  if negb (k_buf k (tick s)) then (next s, Some (-5)) else
  let s := emit (next s) (DMode l t f (sigchan ty)) in
  let s := set_ts s l t (w_wr (tsl s l t) false) in
  let s := if type_eqb ty TS_SIGN then set_ts s l t (w_lapd (tsl s l t) true) else s in
  if k_reg k (tick s) then (emit (next (set_ts s l t (w_fd (tsl s l t) (e_fd (tsl s l t)) true))) (DReg l t f), None)
  else (next s, Some (-1)).
Definition update_ts (k : kern) (s : st) (l t chan : nat) : st * option Z :=
  let s := unreg_ts s l t in
  let ty := e_type (tsl s l t) in
  if type_eqb ty TS_NONE then (none_ts s l t, None) else
  let s := if sigchan ty then s else set_ts s l t (w_lapd (tsl s l t) false) in
  let s := open_ts k s l t chan in
  match e_fd (tsl s l t) with
  | Open f | Zero f => ready_ts k s l t f
  | _ => (s, Some (-5))
  end.
Fixpoint update_loop (k : kern) (l base : nat) (ts : list nat) (s : st) : res (st * Z) :=
  match ts with
  | [] => Ok (s, 0)
  | t :: r => if (32 <=? t)%nat then Bad BeyondSlots else
              match update_ts k s l t (base + t) with
              | (s, Some rc) => Ok (s, rc)
              | (s, None) => update_loop k l base r s
              end
  end.
(** :628-643 dahdi_e1_setup, :737-743 dahdi_e1_line_update *)
Definition line_update (k : kern) (s : st) (l : nat) : res (st * Z) :=
  let s := reread k (emit s (DUpdate l)) in
  if (k_max k <=? port s l)%nat then Bad OutOfTable else
  match spans s (port s l) with
  | None => Ok (s, -5)
  | Some (base, num) => update_loop k l base (seq 0 num) s
  end.

(** ** Data *)
(** :124-164 handle_dahdi_exception *)
Definition exception (k : kern) (s : st) (l t : nat) : st :=
  match e_fd (tsl s l t) with
  | Open _ | Zero _ =>
    let s' := next s in
    match k_event k (tick s) with
    | Some EvAlarm => emit (emit s' (DSig l t true)) (DCtr l t CtrAlarm)
    | Some EvNoAlarm => emit s' (DSig l t false)
    | Some EvAbort => emit s' (DCtr l t CtrAbort)
    | Some EvOverrun => emit s' (DCtr l t CtrOverr)
    | Some EvBadFcs => emit s' (DCtr l t CtrBadFcs)
    | Some EvRemoved => emit s' (DCtr l t CtrRemoved)
    | _ => s'
    end
  | _ => s
  end.
(** :196-210 ts_want_write *)
Definition want_write (s : st) (l t : nat) : st :=
  match e_type (tsl s l t) with
  | TS_TRAU | TS_I460 => s
  | _ => set_ts s l t (w_wr (tsl s l t) true)
  end.
(** the head of the first queue that is not empty, and the queues without it *)
Fixpoint take (q : queues) : option (nat * list Z * queues) :=
  match q with
  | [] => None
  | (i, []) :: r => match take r with Some (j, m, r') => Some (j, m, (i, []) :: r') | None => None end
  | (i, m :: ms) :: r => Some (i, m, (i, ms) :: r)
  end.
(** e1_input.c:977-1028 e1inp_tx_ts; second component: of which queue (None: a multiplexer's), octets *)
Definition tx_ts (k : kern) (s : st) (l t : nat) : st * option (option nat * list Z) :=
  let x := tsl s l t in
  match e_type x with
  | TS_NONE => (s, None)
  | TS_SIGN | TS_RAW | TS_HDLC => match take (e_q x) with Some (i, m, q) => (set_ts s l t (w_q x q (e_tmr x)), Some (Some i, m)) | None => (s, None) end
  | TS_TRAU => let o := firstn 40 (k_mux k (tick s)) in (emit (next s) (DMuxOut l t o), Some (None, o))
  | TS_I460 => let o := k_mux k (tick s) in (emit (next s) (DMuxOut l t o), Some (None, o))
  end.
(** write() *)
Definition put (k : kern) (s : st) (l t : nat) (i : option nat) (m pad : list Z) : st * Z :=
  let r := k_write k (tick s) in
  match e_fd (tsl s l t) with
  | Open f | Zero f => (emit (next s) (match i with None => DBlock l t f m pad r | Some i => DSend l t i f m pad r end), r)
  | Closed => (emit (next s) (DStray l t i m), r)
  | Failed => (emit (next s) (DDrop l t i m), -1)
  end.
(** :245-271 handle_ts1_write *)
Definition sign_write (k : kern) (s : st) (l t : nat) : res st :=
  let s := set_ts s l t (w_wr (tsl s l t) false) in
  match tx_ts k s l t with
  | (s, None) => Ok s
  | (s, Some (i, m)) =>
    match e_type (tsl s l t), i with
    | TS_SIGN, Some i => if e_lapd (tsl s l t) then Ok (emit (set_ts s l t (w_q (tsl s l t) (e_q (tsl s l t)) true)) (DLapdTx l t i m)) else Bad NullLapd
    | _, _ => Bad BadLink
    end
  end.
Definition pad2 (k : kern) (s : st) : list Z := [fst (k_pad k (tick s)); snd (k_pad k (tick s))].
(** :273-303 handle_hdlc_write *)
Definition hdlc_write (k : kern) (s : st) (l t : nat) : st :=
  match tx_ts k s l t with
  | (s, None) => set_ts s l t (w_wr (tsl s l t) false)
  | (s, Some (i, m)) => let '(s, r) := put k s l t i m (pad2 k s) in if r =? -1 then exception k s l t else s
  end.
(** :404-438 handle_ts_raw_write *)
Definition raw_write (k : kern) (s : st) (l t : nat) : st :=
  match tx_ts k s l t with
  | (s, None) => set_ts s l t (w_wr (tsl s l t) false)
  | (s, Some (i, m)) => fst (put k s l t i m [])
  end.
(** libosmocore osmo_revbytebits_8 *)
Definition rev8 (b : Z) : Z := fold_left (fun a i => a + (if Z.testbit b i then 2 ^ (7 - i) else 0)) [0;1;2;3;4;5;6;7] 0.
(** :338-366 handle_tsX_write; the multiplexer is in a union: an I.460 timeslot overwrites it *)
Definition trau_write (k : kern) (s : st) (l t : nat) : res st :=
  let o := k_mux k (tick s) in
  if type_eqb (e_type (tsl s l t)) TS_I460 then Bad MuxGone else
  Ok (fst (put k (emit (next s) (DMuxOut l t o)) l t None (map rev8 o) [])).
(** :220-243 dahdi_write_msg, the callback of the LAPD instance *)
Definition lapd_write (k : kern) (s : st) (l t : nat) (m : list Z) : st :=
  let r := k_write k (tick s) in
  match e_fd (tsl s l t) with
  | Open f | Zero f => let s := emit (next s) (DLapdWr l t f m (pad2 k s) r) in if r =? -1 then exception k s l t else s
  | Closed => emit s (DStray l t None m)
  | Failed => emit s (DDrop l t None m)
  end.

(** ** The application *)
Definition queues0 (ty : ts_type) : queues := match ty with TS_RAW | TS_HDLC => [(0%nat, [])] | _ => [] end.
(** e1_input.c:366-518 e1inp_ts_config_* and cleanup_e1inp_ts, whose result is not looked at *)
Definition config (s : st) (l t : nat) (ty : ts_type) : res st :=
  let x := tsl s l t in
  if type_eqb (e_type x) ty then Ok s else
  if type_eqb (e_type x) TS_SIGN && negb (match e_q x with [] => true | _ => false end) then Bad LinksLeft else
  Ok (emit (set_ts s l t (mkE ty (e_fd x) (e_reg x) (e_wr x) (e_lapd x) (queues0 ty) (e_tmr x))) (DConf l t ty)).
Definition has (i : nat) (q : queues) : bool := existsb (fun p => Nat.eqb (fst p) i) q.
Fixpoint append (i : nat) (m : list Z) (q : queues) : queues :=
  match q with [] => [] | (j, ms) :: r => if Nat.eqb j i then (j, ms ++ [m]) :: r else (j, ms) :: append i m r end.
(** e1_input.c:782-807 e1inp_sign_link_create, :809-837 e1inp_sign_link_destroy *)
Definition link (s : st) (l t i : nat) : st :=
  let x := tsl s l t in
  if type_eqb (e_type x) TS_SIGN && negb (has i (e_q x)) then emit (set_ts s l t (w_q x (e_q x ++ [(i, [])]) (e_tmr x))) (DLink l t i) else s.
Definition unlink (s : st) (l t i : nat) : st :=
  let x := tsl s l t in
  if type_eqb (e_type x) TS_SIGN && has i (e_q x) then emit (set_ts s l t (w_q x (filter (fun p => negb (Nat.eqb (fst p) i)) (e_q x)) false)) (DUnlink l t i) else s.
(** abis_sendmsg (e1_input.c:294-327), e1inp_ts_send_raw (:334-347), _hdlc (:349-362) *)
Definition send (s : st) (l t i : nat) (m : list Z) : st :=
  let x := tsl s l t in
  if negb (has i (e_q x)) then s else
  match e_type x with
  | TS_SIGN => let s := emit (set_ts s l t (w_q x (append i m (e_q x)) (e_tmr x))) (DAcc l t i m) in if e_tmr x then s else want_write s l t
  | TS_RAW | TS_HDLC => let s := want_write s l t in emit (set_ts s l t (w_q (tsl s l t) (append i m (e_q x)) (e_tmr x))) (DAcc l t i m)
  | _ => s
  end.
Inductive cmd := CConfig (l t : nat) (ty : ts_type) | CPort (l p : nat) | CUpdate (l : nat) | CLink (l t i : nat) | CUnlink (l t i : nat) | CSend (l t i : nat) (m : list Z).
Definition valid (s : st) (l t : nat) : bool := exist s l && (t <? 32)%nat.
Definition exec (k : kern) (s : st) (c : cmd) : res st :=
  match c with
  | CConfig l t ty => if valid s l t then config s l t ty else Ok s
  | CPort l p => Ok (if exist s l then mkS (spans s) (upd (port s) l p) (exist s) (tsl s) (tick s) (out s) else s)
  | CUpdate l => if exist s l then try x <- line_update k s l; Ok (emit (fst x) (DRet l (snd x))) else Ok s
  | CLink l t i => Ok (if valid s l t then link s l t i else s)
  | CUnlink l t i => Ok (if valid s l t then unlink s l t i else s)
  | CSend l t i m => Ok (if valid s l t then send s l t i m else s)
  end.
Fixpoint execs (k : kern) (cs : list cmd) (s : st) : res st :=
  match cs with [] => Ok s | c :: r => try s <- exec k s c; execs k r s end.

(** ** Reading *)
(** what read() returned: an error, or octets *)
Inductive rd := RdErr | RdData (o : list Z).
(** :166-194 handle_ts1_read, :305-333 handle_hdlc_read *)
Definition frame_read (k : kern) (s : st) (l t : nat) (lapd : bool) (r : rd) (act : list cmd) : res st :=
  match r with
  | RdErr => Ok (exception k s l t)
  | RdData o =>
    let o := firstn 284 o in
    if (length o <=? 3)%nat then Ok s else
    let m := firstn (length o - 2) o in
    if lapd then (if e_lapd (tsl s l t) then execs k act (emit s (DLapdRx l t m)) else Bad NullLapd)
    else execs k act (emit s (DRx l t m))
  end.
(** :370-401 handle_tsX_read, :440-471 handle_ts_raw_read *)
Definition block_read (k : kern) (s : st) (l t : nat) (trau : bool) (r : rd) (act : list cmd) : res st :=
  match r with
  | RdErr => Ok s
  | RdData o =>
    let o := firstn 160 o in
    if negb (length o =? 160)%nat then Ok s else
    try s <- execs k act (emit s (DRx l t (if trau then map rev8 o else o)));
    if trau then trau_write k s l t else Ok (raw_write k s l t)
  end.
(** :474-528 dahdi_fd_cb; [x], [r], [w]: OSMO_FD_EXCEPT, READ, WRITE; the type is looked at once *)
Definition fd_cb (k : kern) (s : st) (l t : nat) (x : bool) (r : option rd) (w : bool) (act : list cmd) : res st :=
  let all (rf : st -> rd -> res st) (wf : st -> res st) :=
    let s := if x then exception k s l t else s in
    try s <- match r with Some r => rf s r | None => Ok s end;
    if w then wf s else Ok s in
  match e_type (tsl s l t) with
  | TS_SIGN => all (fun s r => frame_read k s l t true r act) (fun s => sign_write k s l t)
  | TS_HDLC => all (fun s r => frame_read k s l t false r act) (fun s => Ok (hdlc_write k s l t))
  | TS_TRAU => all (fun s r => block_read k s l t true r act) (fun s => trau_write k s l t)
  | TS_I460 | TS_RAW => all (fun s r => block_read k s l t false r act) (fun s => Ok (raw_write k s l t))
  | TS_NONE => Ok s
  end.

(** [Create l p]: e1inp_line_create with this driver and port [p]; [App]: what the application
    does before it returns to the select loop; [Ready]: the select loop finds something
    ([w], only while OSMO_FD_WRITE is set); [TxTimer]: :212-218; [LapdOut]: the LAPD
    instance sends a frame *)
Inductive ev := Create (l p : nat) | App (cs : list cmd) | Ready (l t : nat) (x : bool) (r : option rd) (w : bool) (act : list cmd)
| TxTimer (l t : nat) | LapdOut (l t : nat) (m : list Z).
Definition step (k : kern) (s : st) (v : ev) : res st :=
  match v with
  | Create l p => Ok (if exist s l then s else mkS (spans s) (upd (port s) l p) (upd (exist s) l true) (tsl s) (tick s) (out s))
  | App cs => execs k cs s
  | Ready l t x r w act => if e_reg (tsl s l t) then fd_cb k s l t x r (w && e_wr (tsl s l t)) act else Ok s
  | TxTimer l t => if e_tmr (tsl s l t) then Ok (let s := set_ts s l t (w_q (tsl s l t) (e_q (tsl s l t)) false) in want_write s l t) else Ok s
  | LapdOut l t m => if e_lapd (tsl s l t) then Ok (lapd_write k s l t m) else Ok s
  end.
Fixpoint run (k : kern) (s : st) (vs : list ev) : res st :=
  match vs with [] => Ok s | v :: r => try s <- step k s v; run k s r end.
