(** Model of src/e1_input.c: lines, timeslots, signalling links, and of the
    signalling write cycle common to src/input/dahdi.c:196-271, misdn.c:368-394
    and e1d.c:332-358 (write ready -> e1inp_tx_ts -> tx delay timer -> want_write).

    Lines, links and counter groups are identified by numbers given in order of
    creation; a freed object is no longer in the state and any use of its number
    is [None] (use after free).  Allocation succeeds; logging is left out.
    Sub-channel (de)multiplexing of TRAU and I.460 timeslots is not part of this
    model (C05-C13): only which component gets the data. *)
From Coq Require Import List Arith Lia Bool ZArith String.
From Verif Require Import Base.
Import ListNotations.
Open Scope Z_scope.

Definition msg := list Z.

(** include/osmocom/abis/e1_input.h:25-30, :73-80 *)
Inductive sign_type := SIGN_NONE | SIGN_OML | SIGN_RSL | SIGN_OSMO.
Inductive ts_type := TS_NONE | TS_SIGN | TS_TRAU | TS_RAW | TS_HDLC | TS_I460.

(** e1_input.h:44-70 struct e1inp_sign_link *)
Record link := mkLink { lk_id : nat; lk_type : sign_type; lk_tei : Z; lk_sapi : Z; lk_q : list msg }.

(** state of the memory of sign.tx_timer: not armed, armed, or bytes left by
    another member of the union whose [active] bit reads as set *)
Inductive timer := TIdle | TPending | TGarbage.
(** libosmocore osmo_timer_pending *)
Definition osmo_timer_pending (t : timer) : bool := match t with TIdle => false | _ => true end.
(** libosmocore osmo_timer_del: rb_erase of the node if active; of a garbage node: undefined *)
Definition osmo_timer_del (t : timer) : option timer :=
  match t with TIdle | TPending => Some TIdle | TGarbage => None end.
(** osmo_timer_setup + osmo_timer_schedule: schedule first deletes an active timer *)
Definition osmo_timer_schedule (t : timer) : option timer :=
  do _x <- osmo_timer_del t; Some TPending.

(** e1_input.h:84-147 struct e1inp_ts: [t_links] sign.sign_links, [t_q] the
    tx_queue of raw and hdlc, [t_i460] the number of active I.460 sub-channels,
    [t_wr] OSMO_FD_WRITE of the driver's fd *)
Record ts := mkTs {
  t_type : ts_type; t_links : list link; t_q : list msg; t_i460 : nat;
  t_timer : timer; t_wr : bool }.
(** talloc_zero *)
Definition ts_zero : ts := mkTs TS_NONE [] [] 0 TIdle false.

(** ** timeslot configuration *)
(** e1_input.c:366-410 cleanup_e1inp_ts: the return code and the timeslot after it *)
Definition cleanup_e1inp_ts (t : ts) : Z * ts * list msg :=
  match t_type t with
  | TS_SIGN => (match t_links t with [] => 0 | _ => EINVAL end, t, [])
  | TS_TRAU => (0, t, [])
  | TS_RAW | TS_HDLC => (0, mkTs (t_type t) (t_links t) [] (t_i460 t) (t_timer t) (t_wr t), t_q t)
  | TS_I460 => (match t_i460 t with O => 0 | _ => EINVAL end, t, [])
  | TS_NONE => (0, t, [])
  end.
Definition type_eqb (a b : ts_type) : bool :=
  match a, b with
  | TS_NONE, TS_NONE | TS_SIGN, TS_SIGN | TS_TRAU, TS_TRAU | TS_RAW, TS_RAW | TS_HDLC, TS_HDLC | TS_I460, TS_I460 => true
  | _, _ => false
  end.
(** :413-432 e1inp_ts_config_trau, :434-445 _i460, :455-472 _sign, :474-489 _raw,
    :491-506 _hdlc, :508-519 _none, with line and ts->line not NULL: the return
    code of the cleanup is ignored; the rc, the timeslot, the messages freed.
    The union: the lists of the other types are overwritten; on x86-64
    sign.tx_timer.active (offset 64) lies in demux.subch[0].out_bitbuf (offsets
    4..323), which subch_demux_init (subchan_demux.c:90) fills with 0xff; what
    I.460 leaves there is not known (worst case taken); raw and hdlc (24 octets)
    do not reach it. *)
Definition e1inp_ts_config (t : ts) (ty : ts_type) : Z * ts * list msg :=
  if type_eqb (t_type t) ty then (0, t, []) else
  let '(_, t, freed) := cleanup_e1inp_ts t in
  let tm := match ty with TS_TRAU | TS_I460 => TGarbage | _ => t_timer t end in
  (0, mkTs ty [] [] 0 tm (t_wr t), freed).

(** ** signalling links *)
(** :766-777 e1inp_lookup_sign_link *)
Definition e1inp_lookup_sign_link (t : ts) (tei sapi : Z) : option link :=
  find (fun l => (lk_sapi l =? sapi) && (lk_tei l =? tei)) (t_links t).
(** :781-807 e1inp_sign_link_create, without the use count: llist_add_tail *)
Definition ts_link_create (t : ts) (id : nat) (ty : sign_type) (tei sapi : Z) : option ts :=
  match t_type t with
  | TS_SIGN => Some (mkTs (t_type t) (t_links t ++ [mkLink id ty tei sapi []]) (t_q t) (t_i460 t) (t_timer t) (t_wr t))
  | _ => None
  end.
(** :809-838 e1inp_sign_link_destroy without the use count: unlink, free the queue,
    delete the tx timer of the timeslot.  driver->close may re-enter; the guard at
    :816 then returns without effect (llist_del_init) *)
Definition ts_link_destroy (t : ts) (id : nat) : option (ts * list msg) :=
  do l <- find (fun l => Nat.eqb (lk_id l) id) (t_links t);
  do tm <- match t_type t with TS_SIGN => osmo_timer_del (t_timer t) | _ => Some (t_timer t) end;
  Some (mkTs (t_type t) (filter (fun l => negb (Nat.eqb (lk_id l) id)) (t_links t)) (t_q t) (t_i460 t) tm (t_wr t), lk_q l).
(** :293-328 abis_sendmsg on the link: enqueue, wake the driver unless the tx timer
    is pending *)
Definition ts_send (t : ts) (id : nat) (m : msg) : ts :=
  mkTs (t_type t)
    (map (fun l => if Nat.eqb (lk_id l) id then mkLink (lk_id l) (lk_type l) (lk_tei l) (lk_sapi l) (lk_q l ++ [m]) else l) (t_links t))
    (t_q t) (t_i460 t) (t_timer t) (t_wr t || negb (osmo_timer_pending (t_timer t))).
(** :963-977 of e1inp_tx_ts: the first link with a message *)
Fixpoint dequeue (ls : list link) : option (link * msg * list link) :=
  match ls with
  | [] => None
  | l :: r =>
    match lk_q l with
    | m :: q => Some (l, m, mkLink (lk_id l) (lk_type l) (lk_tei l) (lk_sapi l) q :: r)
    | [] => match dequeue r with Some (x, m, r') => Some (x, m, l :: r') | None => None end
    end
  end.
(** :954-1014 e1inp_tx_ts *)
Inductive tx_result := TxNone | TxSign (l : link) (m : msg) | TxQueued (m : msg) | TxTrau | TxI460.
Definition e1inp_tx_ts (t : ts) : tx_result * ts :=
  match t_type t with
  | TS_SIGN => match dequeue (t_links t) with
               | Some (l, m, ls) => (TxSign l m, mkTs (t_type t) ls (t_q t) (t_i460 t) (t_timer t) (t_wr t))
               | None => (TxNone, t)
               end
  | TS_RAW | TS_HDLC => match t_q t with
               | m :: q => (TxQueued m, mkTs (t_type t) (t_links t) q (t_i460 t) (t_timer t) (t_wr t))
               | [] => (TxNone, t)
               end
  | TS_TRAU => (TxTrau, t)
  | TS_I460 => (TxI460, t)
  | TS_NONE => (TxNone, t)
  end.
(** :335-348 e1inp_ts_send_raw, :350-363 _hdlc; None: OSMO_ASSERT *)
Definition ts_send_queue (t : ts) (hdlc : bool) (m : msg) : option ts :=
  if type_eqb (t_type t) (if hdlc then TS_HDLC else TS_RAW) then
    Some (mkTs (t_type t) (t_links t) (t_q t ++ [m]) (t_i460 t) (t_timer t) true)
  else None.
(** The fd of the timeslot is writable; the select loop reports this only while
    OSMO_FD_WRITE is set, otherwise nothing happens.
    SIGN: dahdi.c:245-271 handle_ts1_write, misdn.c:368-394, e1d.c:332-358.
    RAW/HDLC: dahdi.c:273-305 handle_hdlc_write, :411-444 handle_ts_raw_write,
    e1d.c:430-480 and :508-535: the message goes to write(); a failed or short
    write loses it (not modelled: write succeeds); the write flag is cleared only
    when the queue was found empty.
    TRAU/I.460: the multiplexers (C10-C13), no effect here. *)
Inductive wr_result := WrNone | WrSign (l : link) (m : msg) | WrQueued (m : msg).
Definition ts_write_ready (t : ts) : option (wr_result * ts) :=
  if negb (t_wr t) then Some (WrNone, t) else
  let dis t := mkTs (t_type t) (t_links t) (t_q t) (t_i460 t) (t_timer t) false in
  match t_type t with
  | TS_SIGN =>
    match e1inp_tx_ts (dis t) with
    | (TxSign l m, t) =>
      do tm <- osmo_timer_schedule (t_timer t);
      Some (WrSign l m, mkTs (t_type t) (t_links t) (t_q t) (t_i460 t) tm (t_wr t))
    | (_, t) => Some (WrNone, t)
    end
  | TS_RAW | TS_HDLC =>
    match e1inp_tx_ts t with
    | (TxQueued m, t) => Some (WrQueued m, t)
    | (_, t) => Some (WrNone, dis t)
    end
  | _ => Some (WrNone, t)
  end.
(** dahdi.c:212-218 timeout_ts1_write: the tx delay timer expires; a timer that is
    not in the timer tree never does *)
Definition ts_timeout (t : ts) : ts :=
  match t_timer t with
  | TPending => mkTs (t_type t) (t_links t) (t_q t) (t_i460 t) TIdle true
  | _ => t
  end.

(** :842-899 e1inp_rx_ts: who gets the message; [has_cb] = ops->sign_link set.  The
    message is freed here unless handed to the sign_link handler or recv_cb *)
Inductive rx_result :=
| RxSign (l : link) (m : msg) | RxNoLink | RxNoHandler
| RxDemux (m : msg) | RxRaw (m : msg) | RxHdlc (m : msg) | RxI460 (m : msg) | RxBad.
Definition ENOENT : Z := -2.
Definition e1inp_rx_ts (t : ts) (has_cb : bool) (m : msg) (tei sapi : Z) : Z * rx_result :=
  match t_type t with
  | TS_SIGN =>
    match e1inp_lookup_sign_link t tei sapi with
    | None => (EINVAL, RxNoLink)
    | Some l => if has_cb then (0, RxSign l m) else (ENOENT, RxNoHandler)
    end
  | TS_TRAU => (0, RxDemux m)
  | TS_RAW => (0, RxRaw m)
  | TS_HDLC => (0, RxHdlc m)
  | TS_I460 => (0, RxI460 m)
  | TS_NONE => (EINVAL, RxBad)
  end.

(** ** lines *)
(** e1_input.h:215-253 struct e1inp_line; [ln_ctr]: its rate counter group *)
Record line := mkLine { ln_id : nat; ln_num : Z; ln_uses : list (string * Z); ln_ts : list ts; ln_ctr : nat }.
(** :56 e1inp_line_list, and the clones, which are in no list *)
Record world := mkWorld {
  w_lines : list line; w_clones : list line; w_ctrs : list nat;
  w_next : nat (* next line or counter group *); w_next_link : nat }.
Definition world0 : world := mkWorld [] [] [] 0 0.
Definition NUM_E1_TS : nat := 32.

(** libosmocore osmo_use_count_get_put: find or create the entry, add, then the
    use_cb; e1inp_line_use_cb (:538) frees an entry whose count is 0 *)
Fixpoint use_add (u : list (string * Z)) (name : string) (d : Z) : list (string * Z) :=
  match u with
  | [] => if d =? 0 then [] else [(name, d)]
  | (n, c) :: r => if String.eqb n name then (if c + d =? 0 then r else (n, c + d) :: r)
                   else (n, c) :: use_add r name d
  end.
(** libosmocore osmo_use_count_total *)
Definition use_total (u : list (string * Z)) : Z := fold_right (fun p acc => snd p + acc) 0 u.

Definition all_lines (w : world) : list line := w_lines w ++ w_clones w.
Definition find_line (w : world) (lid : nat) : option line := find (fun l => Nat.eqb (ln_id l) lid) (all_lines w).
Definition map_lines (w : world) (f : line -> line) : world :=
  mkWorld (map f (w_lines w)) (map f (w_clones w)) (w_ctrs w) (w_next w) (w_next_link w).
Definition set_line (w : world) (l' : line) : world :=
  map_lines w (fun l => if Nat.eqb (ln_id l) (ln_id l') then l' else l).

Inductive out :=
| Created (lid : nat) | Refused
| LineFreed (lid : nat) | CtrFreed (c : nat)
| LinkMade (id : nat) | LinkGone (id lid : nat) (freed : list msg)
| Sent (id : nat) (m : msg)                    (* to the LAPD layer, by the write cycle *)
| SentRaw (m : msg)                            (* to write(), raw and HDLC timeslots *)
| Received (id : nat) (m : msg) | ReceivedTs (m : msg)  (* sign_link handler; recv_cb, demultiplexers *)
| MsgsFreed (ms : list msg)
| Ret (z : Z).

(** :525-567 e1inp_line_use_cb once the count was changed: free the line when the
    total is not positive; the counter group is shared between a line and its
    clones by talloc references (one holder fewer references than lines), and is
    freed with the last *)
Definition line_use_cb (w : world) (l : line) : world * list out :=
  if 0 <? use_total (ln_uses l) then (set_line w l, [])
  else
    let keep := fun x => negb (Nat.eqb (ln_id x) (ln_id l)) in
    let refcount := (List.length (filter (fun x => Nat.eqb (ln_ctr x) (ln_ctr l)) (all_lines w)) - 1)%nat in
    let free_ctr := (refcount =? 0)%nat in
    (mkWorld (filter keep (w_lines w)) (filter keep (w_clones w))
       (if free_ctr then filter (fun c => negb (Nat.eqb c (ln_ctr l))) (w_ctrs w) else w_ctrs w)
       (w_next w) (w_next_link w),
     (if free_ctr then [CtrFreed (ln_ctr l)] else []) ++ [LineFreed (ln_id l)]).
Definition use_get_put (w : world) (lid : nat) (name : string) (d : Z) : option (world * list out) :=
  do l <- find_line w lid;
  Some (line_use_cb w (mkLine (ln_id l) (ln_num l) (use_add (ln_uses l) name d) (ln_ts l) (ln_ctr l))).

(** :569-579 e1inp_line_find *)
Definition e1inp_line_find (w : world) (num : Z) : option nat :=
  option_map ln_id (find (fun l => ln_num l =? num) (w_lines w)).

(** :590-659 e1inp_line_create; [drv] = the driver is known and its line_create
    succeeds *)
Definition e1inp_line_create (w : world) (num : Z) (drv : bool) : world * list out :=
  match e1inp_line_find w num with
  | Some _ => (w, [Refused])
  | None =>
    if negb drv then (w, [Refused]) else
    let id := w_next w in
    let l := mkLine id num [("ctor"%string, 1)] (repeat ts_zero NUM_E1_TS) id in
    (mkWorld (w_lines w ++ [l]) (w_clones w) (id :: w_ctrs w) (S id) (w_next_link w), [Created id])
  end.

(** :661-708 e1inp_line_clone.  The memcpy duplicates the list heads inside ts[];
    only lines with unconfigured timeslots are cloned in the model *)
Definition e1inp_line_clone (w : world) (lid : nat) (name : string) : option (world * list out) :=
  do l <- find_line w lid;
  if forallb (fun t => type_eqb (t_type t) TS_NONE) (ln_ts l) then
    let id := w_next w in
    let c := mkLine id (ln_num l) [(name, 1)] (ln_ts l) (ln_ctr l) in
    Some (mkWorld (w_lines w) (w_clones w ++ [c]) (w_ctrs w) (S id) (w_next_link w), [Created id])
  else None.

(** access to timeslot [n] (0-based) of a line *)
Definition get_ts (w : world) (lid n : nat) : option (line * ts) :=
  do l <- find_line w lid; do t <- get (ln_ts l) n; Some (l, t).
Definition set_ts (w : world) (l : line) (n : nat) (t : ts) : option world :=
  do tss <- put (ln_ts l) n t;
  Some (set_line w (mkLine (ln_id l) (ln_num l) (ln_uses l) tss (ln_ctr l))).

(** where a link lives: link->ts, link->ts->line *)
Definition ts_has (id : nat) (t : ts) : bool := existsb (fun l => Nat.eqb (lk_id l) id) (t_links t).
Fixpoint ts_index (id : nat) (l : list ts) : option nat :=
  match l with
  | [] => None
  | t :: r => if ts_has id t then Some 0%nat else option_map S (ts_index id r)
  end.
Definition locate (w : world) (id : nat) : option (nat * nat) :=
  fold_right (fun l acc => match ts_index id (ln_ts l) with Some n => Some (ln_id l, n) | None => acc end) None (all_lines w).

Inductive op :=
| Create (num : Z) (drv : bool) | Clone (lid : nat) (name : string)
| Get (lid : nat) (name : string) | Put (lid : nat) (name : string)
| Config (lid n : nat) (ty : ts_type)
| LinkCreate (lid n : nat) (ty : sign_type) (tei sapi : Z)
| LinkDestroy (id : nat)
| Send (id : nat) (m : msg) | SendNull (m : msg)
| SendQueue (lid n : nat) (hdlc : bool) (m : msg)
| WriteReady (lid n : nat) | Timeout (lid n : nat)
| Rx (lid n : nat) (has_cb : bool) (m : msg) (tei sapi : Z).

Definition SIGN_LINK : string := "e1inp_sign_link".

Definition step (w : world) (o : op) : option (world * list out) :=
  match o with
  | Create num drv => Some (e1inp_line_create w num drv)
  | Clone lid name => e1inp_line_clone w lid name
  | Get lid name => use_get_put w lid name 1
  | Put lid name => use_get_put w lid name (-1)
  | Config lid n ty =>
    do x <- get_ts w lid n; let '(l, t) := x in
    let '(rc, t, freed) := e1inp_ts_config t ty in
    do w <- set_ts w l n t; Some (w, [MsgsFreed freed; Ret rc])
  | LinkCreate lid n ty tei sapi =>
    do x <- get_ts w lid n; let '(l, t) := x in
    match ts_link_create t (w_next_link w) ty tei sapi with
    | None => Some (w, [Refused])
    | Some t =>
      do w1 <- set_ts w l n t;
      let id := w_next_link w in
      let w2 := mkWorld (w_lines w1) (w_clones w1) (w_ctrs w1) (w_next w1) (S id) in
      do r <- use_get_put w2 lid SIGN_LINK 1;
      Some (fst r, [LinkMade id] ++ snd r)
    end
  | LinkDestroy id =>
    do p <- locate w id; let '(lid, n) := p in
    do x <- get_ts w lid n; let '(l, t) := x in
    do r <- ts_link_destroy t id; let '(t, freed) := r in
    do w1 <- set_ts w l n t;
    do r <- use_get_put w1 lid SIGN_LINK (-1);
    Some (fst r, [LinkGone id lid freed] ++ snd r)
  | Send id m =>
    do p <- locate w id; let '(lid, n) := p in
    do x <- get_ts w lid n; let '(l, t) := x in
    do w <- set_ts w l n (ts_send t id m); Some (w, [Ret 0])
  | SendNull m => Some (w, [MsgsFreed [m]; Ret EINVAL])
  | SendQueue lid n hdlc m =>
    do x <- get_ts w lid n; let '(l, t) := x in
    do t <- ts_send_queue t hdlc m;
    do w <- set_ts w l n t; Some (w, [Ret 0])
  | WriteReady lid n =>
    do x <- get_ts w lid n; let '(l, t) := x in
    do r <- ts_write_ready t; let '(res, t) := r in
    do w <- set_ts w l n t;
    Some (w, match res with WrSign lk m => [Sent (lk_id lk) m] | WrQueued m => [SentRaw m] | WrNone => [] end)
  | Timeout lid n =>
    do x <- get_ts w lid n; let '(l, t) := x in
    do w <- set_ts w l n (ts_timeout t); Some (w, [])
  | Rx lid n cb m tei sapi =>
    do x <- get_ts w lid n; let '(l, t) := x in
    let '(rc, r) := e1inp_rx_ts t cb m tei sapi in
    Some (w, match r with
             | RxSign lk m => [Received (lk_id lk) m; Ret rc]
             | RxRaw m | RxHdlc m => [ReceivedTs m; Ret rc]
             | RxDemux m | RxI460 m => [ReceivedTs m; MsgsFreed [m]; Ret rc]
             | RxNoLink | RxNoHandler | RxBad => [MsgsFreed [m]; Ret rc]
             end)
  end.

Fixpoint run (w : world) (ops : list op) : option (world * list (op * list out)) :=
  match ops with
  | [] => Some (w, [])
  | o :: r => do x <- step w o; do y <- run (fst x) r; Some (fst y, (o, snd x) :: snd y)
  end.

(** :740-760 e1inp_ts_get, e1inp_get_mux: the timeslot index computed; the array
    has 32 elements *)
Definition e1inp_get_mux (w : world) (e1_nr ts_nr : Z) : option (option (nat * nat)) :=
  match e1inp_line_find w e1_nr with
  | None => Some None
  | Some lid => if (1 <=? ts_nr) && (ts_nr <=? 32) then Some (Some (lid, Z.to_nat (ts_nr - 1))) else None
  end.
