(** Model of a signalling timeslot whose LAPD is this library's: what src/e1_input.c does between
    the signalling links of the application and the LAPD instance (src/input/lapd.c,
    LapdModel.v) of the timeslot, and two such timeslots joined by an E1 line.

    The data link core of libosmocore is not modelled: it calls send_ph_data_req ([CoreTx]) and
    send_dlsap ([CoreDl]) at any time (as in LapdModel.v).  The reaction of the application to a
    signal or a message is the events that follow: after osmo_signal_dispatch and after
    ops->sign_link the functions below only free the message of the primitive or return.  The
    driver between LAPD and the wire is dahdi.c, e1d.c or misdn.c (C57-C64).  One timeslot; use
    counts of lines are C37; pcap is C49; logging is left out. *)
From Coq Require Import List Arith Lia Bool ZArith.
From Verif Require Import Base.
From Verif Require E1Model LapdModel.
Import ListNotations.
Open Scope Z_scope.

(** include/osmocom/abis/e1_input.h:255-260 *)
Inductive sig := TEI_UP | TEI_DN | TEI_UNKNOWN.
(** what can be seen of a timeslot *)
Inductive eff :=
| Sent (k : nat) (t s : Z) (m : list Z)                          (* abis_sendmsg took m for link k, of TEI t and SAPI s *)
| Dropped (m : list Z)                                           (* a message taken is freed *)
| Down (t s : Z) (m : list Z) (id : option nat)                  (* lapd_transmit: to data link id, or freed *)
| Air (f : list Z)                                               (* transmit_cb: a frame on the wire *)
| Up (id : nat) (c : LapdModel.lctx) (p : list Z)                (* a frame of data link id to the core *)
| Deliver (k : nat) (t s : Z) (m : list Z)                       (* ops->sign_link, msg->dst is link k *)
| Lost (m : list Z)                                              (* an indication freed: no link, no handler *)
| Signal (g : sig) (k : nat) (ty : E1Model.sign_type) (t s : Z)  (* SS_L_INPUT signal with the link's data *)
| Req (id : nat) (p : LapdModel.prim)                            (* establish or release asked of the core *)
| Ret (z : Z).

Record side := mkSide {
  ts : E1Model.ts;            (* the timeslot *)
  li : LapdModel.inst;        (* e1i_ts->lapd *)
  next : nat;                 (* number of the next link *)
  handler : bool;             (* ops->sign_link set *)
  log : list eff }.           (* what was seen so far *)
Definition set_ts (x : side) (t : E1Model.ts) : side := mkSide t (li x) (next x) (handler x) (log x).
Definition set_li (x : side) (l : LapdModel.inst) : side := mkSide (ts x) l (next x) (handler x) (log x).
Definition say (x : side) (es : list eff) : side := mkSide (ts x) (li x) (next x) (handler x) (log x ++ es).

(** e1_input.c:1029-1043 e1inp_int_snd_event, :1047-1055 e1inp_event.  The list of links is read
    whatever the type of the timeslot: for another type other members of the union are taken for
    it (undefined) *)
Definition event (t : E1Model.ts) (g : sig) (tei sapi : Z) : option (list eff) :=
  match E1Model.t_type t with
  | E1Model.TS_SIGN =>
    match E1Model.e1inp_lookup_sign_link t tei sapi with
    | None => Some []
    | Some l => Some [Signal g (E1Model.lk_id l) (E1Model.lk_type l) (E1Model.lk_tei l) (E1Model.lk_sapi l)]
    end
  | _ => None
  end.
(** :842-899 e1inp_rx_ts on a signalling timeslot *)
Definition rx_ts (t : E1Model.ts) (cb : bool) (m : list Z) (tei sapi : Z) : list eff :=
  match E1Model.e1inp_rx_ts t cb m tei sapi with
  | (_, E1Model.RxSign l m) => [Deliver (E1Model.lk_id l) (E1Model.lk_tei l) (E1Model.lk_sapi l) m]
  | _ => [Lost m]
  end.
(** :935-978 e1inp_dlsap_up; [ind]: the operation is an indication *)
Definition dlsap_up (t : E1Model.ts) (cb : bool) (p : LapdModel.prim) (ind : bool) (m : list Z) (tei sapi : Z) : option (list eff) :=
  match p with
  | LapdModel.DL_EST => event t TEI_UP tei sapi
  | LapdModel.DL_REL => event t TEI_DN tei sapi
  | LapdModel.DL_DATA => Some (if ind then rx_ts t cb m tei sapi else [])
  | LapdModel.DL_OTHER => Some []
  end.
(** what LAPD does, seen from here *)
Definition see (o : LapdModel.out) : list eff :=
  match o with
  | LapdModel.TxFrame f => [Air f]
  | LapdModel.CoreFrame id c _ p => [Up id c p]
  | LapdModel.CoreReq id p _ => [Req id p]
  | _ => []
  end.
(** :904-933 e1inp_rx_ts_lapd; octets beyond the message are not used (lapd_receive refuses it) *)
Definition rx_ts_lapd (x : side) (m : list Z) : option side :=
  let a := nth 0 m 0 in
  let sapi := Z.shiftr a 2 in
  let tei := if Z.land a 1 =? 0 then Z.shiftr (nth 1 m 0) 1 else 0 in
  do r <- LapdModel.lapd_receive (li x) m;
  let '(l, os, rc) := r in
  let x := say (set_li x l) (flat_map see os) in
  match rc with
  | LapdModel.Rc z LapdModel.ERR_UNKNOWN_TEI => if z <? 0 then do es <- event (ts x) TEI_UNKNOWN tei sapi; Some (say x (es ++ [Ret (-5)])) else Some (say x [Ret 0])
  | _ => Some (say x [Ret 0])
  end.

Inductive ev :=
(* the application *)
| Link (ty : E1Model.sign_type) (t s : Z)         (* e1inp_sign_link_create *)
| Unlink (k : nat)                                (* e1inp_sign_link_destroy *)
| Send (k : nat) (m : list Z)                     (* abis_sendmsg *)
| Config (ty : E1Model.ts_type)                   (* e1inp_ts_config_... *)
| Start (t s : Z) | Stop (t s : Z)                (* lapd_sap_start, lapd_sap_stop *)
(* the driver *)
| Writable | Timer | Frame (m : list Z)
(* the data link core, for data link id *)
| CoreTx (id : nat) (c : LapdModel.lctx) (hr : nat) (m : list Z)
| CoreDl (id : nat) (p : LapdModel.prim) (ind : bool) (t s : Z) (m : list Z).

Definition find_link (x : side) (k : nat) : option E1Model.link := find (fun l => Nat.eqb (E1Model.lk_id l) k) (E1Model.t_links (ts x)).
Definition lapd (x : side) (r : option (LapdModel.inst * list LapdModel.out * LapdModel.ret)) : option side :=
  do r <- r; let '(l, os, _) := r in Some (say (set_li x l) (flat_map see os)).
Definition step (x : side) (e : ev) : option side :=
  match e with
  | Link ty t s =>
    match E1Model.ts_link_create (ts x) (next x) ty t s with
    | Some u => Some (mkSide u (li x) (S (next x)) (handler x) (log x))
    | None => Some x
    end
  | Unlink k =>
    do r <- E1Model.ts_link_destroy (ts x) k; Some (say (set_ts x (fst r)) (map Dropped (snd r)))
  | Send k m =>
    do l <- find_link x k; Some (say (set_ts x (E1Model.ts_send (ts x) k m)) [Sent k (E1Model.lk_tei l) (E1Model.lk_sapi l) m])
  | Config ty => let '(_, u, fr) := E1Model.e1inp_ts_config (ts x) ty in Some (say (set_ts x u) (map Dropped fr))
  | Start t s => lapd x (LapdModel.lapd_sap_start (li x) t s)
  | Stop t s => lapd x (LapdModel.lapd_sap_stop (li x) t s)
  | Writable =>
    (* dahdi.c:245-271, misdn.c:336-394, e1d.c:332-358: e1inp_tx_ts, lapd_transmit *)
    do r <- E1Model.ts_write_ready (ts x);
    match r with
    | (E1Model.WrSign l m, u) =>
      do q <- LapdModel.lapd_transmit (li x) (E1Model.lk_tei l) (E1Model.lk_sapi l) m;
      let '(i, os, _) := q in
      Some (say (set_li (set_ts x u) i) [Down (E1Model.lk_tei l) (E1Model.lk_sapi l) m (match os with [LapdModel.CoreReq id _ _] => Some id | _ => None end)])
    | (_, u) => Some (set_ts x u)
    end
  | Timer => Some (set_ts x (E1Model.ts_timeout (ts x)))
  | Frame m => rx_ts_lapd x m
  | CoreTx id c hr m => lapd x (LapdModel.send_ph_data_req (li x) id c hr m)
  | CoreDl id p ind t s m =>
    do r <- LapdModel.send_dlsap (li x) id p t s;
    let '(l, _, _) := r in
    do es <- dlsap_up (ts x) (handler x) p ind m t s;
    Some (say (set_li x l) es)
  end.

(** a timeslot that was configured for signalling and put into service: e1_input.c:455-472 *)
Definition side0 (network : bool) (p : LapdModel.profile) : side :=
  let '(_, u, _) := E1Model.e1inp_ts_config E1Model.ts_zero E1Model.TS_SIGN in
  mkSide u (LapdModel.lapd_instance_alloc2 network p) 0 true [].

(** two ends of a line; the frames on the wire are in the logs *)
Definition wire (x : side) : list (list Z) := flat_map (fun e => match e with Air f => [f] | _ => [] end) (log x).
Record sys := mkSys { near : side; far : side }.
Definition this (far_end : bool) (y : sys) : side := if far_end then far y else near y.
Definition sys_step (y : sys) (far_end : bool) (e : ev) : option sys :=
  do x <- step (this far_end y) e;
  Some (if far_end then mkSys (near y) x else mkSys x (far y)).
