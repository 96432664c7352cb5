(** Model of src/input/ipaccess.c, BTS side: the OML and RSL streams of one line, their
    keepalive machines, signalling links, transmission and reception.  (BSC side:
    IpaccessModel.v, from which the record of a signalling link and the write loop, the same
    on both sides, are used.)

    A call that violates an assertion or dereferences a bad pointer ends in [Bad] with the
    reason.  The application's callbacks are environment: what it does in them is a tree of
    commands; a command on a link that no longer exists is skipped.  libosmo-netif (above
    1.5.0, TODO-RELEASE): osmo_stream_cli_close of an open client with reconnecting disabled
    calls the disconnect callback, of a closed one does nothing; osmo_stream_cli_destroy
    closes and frees, the latter after the callbacks of the client have returned.
    Left out: signal dispatch, socket options (update_fd_settings), the use count of the
    line (held by the application), logging except where it dereferences a null pointer,
    allocation failures. *)
From Coq Require Import List Arith Lia Bool ZArith.
From Verif Require Import Base IpaccessModel.
Import ListNotations.
Open Scope Z_scope.

Inductive why :=
| NoClient (t : nat)      (* OSMO_ASSERT(cli), ipaccess.c:195 *)
| Supervised (t : nat)    (* OSMO_ASSERT(ka_fsm == NULL), :152 *)
| NullTs                  (* null timeslot dereferenced *)
| EmptyCcm                (* OSMO_ASSERT(len > 0), :871 *)
| NullCli                 (* osmo_stream_cli_destroy(NULL) *)
| Freed                   (* freed client or keepalive machine used *)
| NoList.                 (* list of links of a timeslot that is not configured *)
Inductive res (A : Type) := Ok (a : A) | Bad (r : why).
Arguments Ok {A} a. Arguments Bad {A} r.
Notation "'try' x <- a ; b" := (match a with Ok x => b | Bad r => Bad r end) (at level 200, x name, a at level 100, b at level 200).

(** libosmocore gsm/protocol/ipaccess.h; include/osmocom/gsm/ipa.h *)
Definition MSGT_ID_GET : Z := 4.
Definition IPA_TCP_PORT_OML : Z := 3002.

(** struct osmo_stream_cli: [c_ts] its data, the timeslot; [c_open]: connecting or connected *)
Record cli := mkCli { c_id : nat; c_ts : nat; c_open : bool }.
(** struct e1inp_ts: driver.ipaccess.ka_fsm; the client whose descriptor is in
    driver.ipaccess.fd.fd (None: -1); configured for signalling.  Timeslot number
    (ts->num) = index + 1, src/e1_input.c:634-636 *)
Record bts_ts := mkB { b_ka : option nat; b_fd : option nat; b_sign : bool }.
(** observable effects: [BConnect c t addr port]: stream [c] of timeslot [t] is opened;
    [BSend l c octets]: handed to stream [c] for link [l]; [BRet]: result of an API call *)
Inductive beff :=
| BConnect (c t : nat) (addr port : Z) | BClose (c : nat) | BFree (c : nat) | BDown (t : nat)
| BQueue (l : nat) (m : list Z) | BSend (l c : nat) (octets : list Z) | BDrop (l : nat) (m : list Z)
| BDeliver (l : nat) (m : list Z) | BUp (type : Z) | BIdResp (c : nat) (trx : Z) | BIdAck (c : nat)
| BKaStart (k : nat) | BKaStop (k : nat) | BKaTerm (k : nat) | BKaPong (k : nat) | BRet (rc : Z).
(** the line: [il]: struct ipaccess_line is allocated; [tab]: its ipa_cli; [kas]: keepalive
    machines that exist with the client they are allocated under; [unit_trx]: trx_id of the
    unit (line->ops->cfg.ipa.dev); [kap]: line->ipa_kap is set; [logs]: messages of level
    error are output *)
Record bst := mkBst { il : bool; tab : nat -> option nat; tss : nat -> bts_ts; clis : list cli; kas : nat -> option nat;
  lks : list lk; unit_trx : Z; kap : bool; logs : bool; nxt : nat; out : list beff }.
Definition bst_init (k g : bool) (trx : Z) : bst := mkBst false (fun _ => None) (fun _ => mkB None None false) [] (fun _ => None) [] trx k g 0 [].

Definition emit (s : bst) (e : beff) : bst := mkBst (il s) (tab s) (tss s) (clis s) (kas s) (lks s) (unit_trx s) (kap s) (logs s) (nxt s) (out s ++ [e]).
Definition set_ts (s : bst) (t : nat) (x : bts_ts) : bst := mkBst (il s) (tab s) (upd (tss s) t x) (clis s) (kas s) (lks s) (unit_trx s) (kap s) (logs s) (nxt s) (out s).
Definition set_tab (s : bst) (t : nat) (c : option nat) : bst := mkBst (il s) (upd (tab s) t c) (tss s) (clis s) (kas s) (lks s) (unit_trx s) (kap s) (logs s) (nxt s) (out s).
Definition set_clis (s : bst) (c : list cli) : bst := mkBst (il s) (tab s) (tss s) c (kas s) (lks s) (unit_trx s) (kap s) (logs s) (nxt s) (out s).
Definition set_kas (s : bst) (k : nat -> option nat) : bst := mkBst (il s) (tab s) (tss s) (clis s) k (lks s) (unit_trx s) (kap s) (logs s) (nxt s) (out s).
Definition set_lks (s : bst) (k : list lk) : bst := mkBst (il s) (tab s) (tss s) (clis s) (kas s) k (unit_trx s) (kap s) (logs s) (nxt s) (out s).
Definition set_il (s : bst) : bst := mkBst true (tab s) (tss s) (clis s) (kas s) (lks s) (unit_trx s) (kap s) (logs s) (nxt s) (out s).
Definition set_unit (s : bst) (t : Z) : bst := mkBst (il s) (tab s) (tss s) (clis s) (kas s) (lks s) t (kap s) (logs s) (nxt s) (out s).
Definition fresh (s : bst) : bst := mkBst (il s) (tab s) (tss s) (clis s) (kas s) (lks s) (unit_trx s) (kap s) (logs s) (S (nxt s)) (out s).

Definition find_cli (s : bst) (c : nat) : option cli := find (fun x => Nat.eqb (c_id x) c) (clis s).
Definition find_lk (s : bst) (l : nat) : option lk := find (fun x => Nat.eqb (l_id x) l) (lks s).

(** ** Timeslots, types and TRX numbers *)
(** src/e1_input.c:634-636 (e1inp_line_create): ts->num *)
Definition ts_num (t : nat) : Z := Z.of_nat t + 1.
(** ipaccess.c:171-177 ipaccess_e1i_ts_sign_type; the number is not 0 *)
Definition ts_sign_type (num : Z) : Z := if num =? 1 then OML else RSL.
(** :179-187 ipaccess_e1i_ts_trx_nr *)
Definition ts_trx_nr (num : Z) : Z := if ts_sign_type num =? OML then 0 else num - 2.
(** e1_input.h:252 e1inp_line_ipa_oml_ts, :253 e1inp_line_ipa_rsl_ts: IpaccessModel.rsl_ts *)
Definition oml_ts : nat := 0.

(** ** Keepalive *)
(** :81-90 ipaccess_keepalive_fsm_cleanup *)
Definition ka_cleanup (s : bst) (t : nat) : res bst :=
  let x := tss s t in
  match b_ka x with
  | None => Ok s
  | Some k => match kas s k with
              | None => Bad Freed
              | Some _ => Ok (emit (set_ts (set_kas s (upd (kas s) k None)) t (mkB None (b_fd x) (b_sign x))) (BKaTerm k))
              end
  end.
(** :147-165 ipaccess_bts_keepalive_fsm_alloc *)
Definition ka_alloc (s : bst) (t c : nat) : res bst :=
  let x := tss s t in
  match b_ka x with
  | Some _ => Bad (Supervised t)
  | None => if kap s then Ok (fresh (set_ts (set_kas s (upd (kas s) (nxt s) (Some c))) t (mkB (Some (nxt s)) (b_fd x) (b_sign x)))) else Ok s
  end.

(** ** Streams *)
(** :131-139 _ipaccess_bts_down_cb, :1005-1009 ipaccess_bts_disconnect_cb; [down]: what the
    application does in sign_link_down *)
Definition down_cb (down : bst -> res bst) (s : bst) (t : nat) : res bst :=
  try s <- ka_cleanup s t;
  down (emit s (BDown t)).
(** osmo_stream_cli_close *)
Definition cli_close (down : bst -> res bst) (s : bst) (c : nat) : res bst :=
  match find_cli s c with
  | None => Bad Freed
  | Some x =>
    if c_open x then
      down_cb down (emit (set_clis s (map (fun y => if Nat.eqb (c_id y) c then mkCli c (c_ts y) false else y) (clis s))) (BClose c)) (c_ts x)
    else Ok s
  end.
(** osmo_stream_cli_destroy; the keepalive machine is allocated under the client; a client
    destroyed in its own callback is freed once *)
Definition cli_free (s : bst) (c : nat) : bst :=
  match find_cli s c with
  | None => s
  | Some _ => emit (set_kas (set_clis s (filter (fun x => negb (Nat.eqb (c_id x) c)) (clis s)))
                (fun k => match kas s k with Some c' => if Nat.eqb c' c then None else Some c' | None => None end)) (BFree c)
  end.
Definition cli_destroy (down : bst -> res bst) (s : bst) (c : nat) : res bst :=
  try s <- cli_close down s c; Ok (cli_free s c).
(** :1206-1232 e1inp_ipa_bts_rsl_close_n, for a TRX number in range *)
Definition rsl_drop (down : bst -> res bst) (s : bst) (t : nat) : res bst :=
  if negb (il s) then Ok s else
  try s <- ka_cleanup s t;
  let s := set_ts s t (mkB (b_ka (tss s t)) None (b_sign (tss s t))) in
  match tab s t with
  | None => Ok s
  | Some c => try s <- cli_destroy down s c; Ok (set_tab s t None)
  end.
Definition in_range (trx : nat) : bool := negb (RSL + Z.of_nat trx - 1 >=? Z.of_nat NUM_E1_TS).
Definition rsl_close_n (down : bst -> res bst) (s : bst) (trx : nat) : res bst :=
  if in_range trx then try s <- rsl_drop down s (1 + trx); Ok (emit s (BRet 0)) else Ok (emit s (BRet (-22))).
(** src/e1_input.c:455-471 e1inp_ts_config_sign *)
Definition config_sign (s : bst) (t : nat) : bst := set_ts s t (mkB (b_ka (tss s t)) (b_fd (tss s t)) true).
(** :1158-1202, :1085-1125: create the client, open it ([ok]: it could be opened) *)
Definition cli_start (s : bst) (t : nat) (addr port : Z) (ok : bool) : res bst :=
  if ok then
    let c := nxt s in
    let s := fresh (emit (set_clis s (clis s ++ [mkCli c t true])) (BConnect c t addr port)) in
    let s := set_ts s t (mkB (b_ka (tss s t)) (Some c) (b_sign (tss s t))) in
    try s <- ka_alloc s t c;
    Ok (emit (set_tab s t (Some c)) (BRet 0))
  else Ok (emit s (BRet (-5))).
(** :1142-1203 e1inp_ipa_bts_rsl_connect_n; the message that refuses a number out of range
    reads the number of a timeslot that is NULL *)
Definition rsl_connect_n (down : bst -> res bst) (s : bst) (trx : nat) (addr port : Z) (ok : bool) : res bst :=
  if in_range trx then
    match rsl_ts trx with
    | None => Bad NullTs
    | Some t =>
      try s <- rsl_drop down s t;
      let s := set_il (config_sign s t) in
      cli_start s t addr port ok
    end
  else match rsl_ts trx with
       | None => if logs s then Bad NullTs else Ok (emit s (BRet (-22)))
       | Some _ => Ok (emit s (BRet (-22)))
       end.
(** :1011-1133 ipaccess_line_update, role BTS *)
Definition line_update (down : bst -> res bst) (s : bst) (addr : Z) (ok : bool) : res bst :=
  let s := set_il s in
  let t := oml_ts in
  try s <- match tab s t with
           | None => Ok s
           | Some c =>
             try s <- cli_close down s c;
             try s <- ka_cleanup s t;
             let s := set_ts s t (mkB (b_ka (tss s t)) None (b_sign (tss s t))) in
             match tab s t with
             | None => Bad NullCli
             | Some c => try s <- cli_destroy down s c; Ok (set_tab s t None)
             end
           end;
  let s := config_sign s t in
  cli_start s t addr IPA_TCP_PORT_OML ok.

(** ** Signalling links *)
(** :189-197 ipaccess_bts_e1i_ts_stream_cli *)
Definition stream_cli (s : bst) (t : nat) : res nat :=
  match tab s t with Some c => Ok c | None => Bad (NoClient t) end.
(** :362-405 ipaccess_close (BTS) *)
Definition ipaccess_close (down : bst -> res bst) (s : bst) (t : nat) : res bst :=
  try s <- match b_ka (tss s t) with
           | Some k => match kas s k with Some _ => Ok (emit s (BKaStop k)) | None => Bad Freed end
           | None => Ok s end;
  try c <- stream_cli s t;
  try s <- cli_close down s c;
  Ok (set_ts s t (mkB (b_ka (tss s t)) None (b_sign (tss s t)))).
(** src/e1_input.c:809-837 e1inp_sign_link_destroy *)
Definition link_destroy (down : bst -> res bst) (s : bst) (id : nat) : res bst :=
  match find_lk s id with
  | None => Ok s
  | Some k => ipaccess_close down (set_lks s (filter (fun x => negb (Nat.eqb (l_id x) id)) (lks s))) (l_ts k)
  end.
(** src/e1_input.c:781-807 e1inp_sign_link_create *)
Definition link_create (s : bst) (t : nat) (type tei sapi : Z) : bst :=
  if Nat.ltb t NUM_E1_TS && b_sign (tss s t) then fresh (set_lks s (lks s ++ [mkL (nxt s) 0 t type tei sapi []])) else s.
(** :418-458 ipaccess_bts_send_msg, ipaccess_bts_write_cb: as on the BSC side *)
Definition bts_eff (e : eff) : list beff :=
  match e with ESend l c o => [BSend l c o] | ETxDrop l m => [BDrop l m] | _ => [] end.
Definition write_cb (s : bst) (t : nat) : res bst :=
  try c <- stream_cli s t;
  match find_cli s c with
  | None => Bad Freed
  | Some _ =>
    if negb (b_sign (tss s t)) then Bad NoList else
    let w := write_loop (pending 0 t (lks s)) 0 t c (mkSt (fun _ => None) [] (fun _ => None) (lks s) false 0 []) in
    Ok (mkBst (il s) (tab s) (tss s) (clis s) (kas s) (IpaccessModel.lks w) (unit_trx s) (kap s) (logs s) (nxt s) (out s ++ flat_map bts_eff (IpaccessModel.out w)))
  end.
(** src/e1_input.c:294-327 abis_sendmsg, ipaccess.c:513-536 ts_want_write (role BTS) *)
Definition link_send (s : bst) (id : nat) (m : list Z) : res bst :=
  match find_lk s id with
  | None => Ok s
  | Some k =>
    write_cb (set_lks (emit s (BQueue id m)) (map (fun x => if Nat.eqb (l_id x) id then mkL (l_id x) (l_line x) (l_ts x) (l_type x) (l_tei x) (l_sapi x) (l_tx x ++ [m]) else x) (lks s))) (l_ts k)
  end.

(** ** The application *)
(** [down]: what it does in sign_link_down if the call closes a stream *)
Inductive ucmd :=
| UConfig (t : nat) | UCreate (t : nat) (type tei sapi : Z) | USend (l : nat) (m : list Z) | UDestroy (l : nat) (down : list ucmd)
| UConnect (trx : nat) (addr port : Z) (ok : bool) (down : list ucmd) | UClose (trx : nat) (down : list ucmd)
| UUpdate (addr : Z) (ok : bool) (down : list ucmd).
Fixpoint exec (c : ucmd) (s : bst) {struct c} : res bst :=
  let execs := fix execs (cs : list ucmd) (s : bst) : res bst :=
       match cs with [] => Ok s | c :: r => try s <- exec c s; execs r s end in
  match c with
  | UConfig t => Ok (if Nat.ltb t NUM_E1_TS then config_sign s t else s)
  | UCreate t ty tei sapi => Ok (link_create s t ty tei sapi)
  | USend k m => link_send s k m
  | UDestroy k d => link_destroy (execs d) s k
  | UConnect trx a p ok d => rsl_connect_n (execs d) s trx a p ok
  | UClose trx d => rsl_close_n (execs d) s trx
  | UUpdate a ok d => line_update (execs d) s a ok
  end.
Fixpoint execs (cs : list ucmd) (s : bst) : res bst :=
  match cs with [] => Ok s | c :: r => try s <- exec c s; execs r s end.

(** ** Events *)
(** answers while a message is processed: [base]: ipa_ccm_rcvmsg_bts_base did not fail; [id]:
    the ID_GET could be parsed; [up], [ret]: actions of sign_link_up and whether it returned a
    link; [act]: actions of sign_link; [down]: actions of sign_link_down *)
Record env := mkE { e_base : bool; e_id : bool; e_up : list ucmd; e_ret : bool; e_act : list ucmd; e_down : list ucmd }.
(** closing the client whose read callback is running: it has not been freed yet *)
Definition close_running (down : bst -> res bst) (s : bst) (c : nat) : res bst :=
  match find_cli s c with None => Ok s | Some _ => cli_close down s c end.
(** :861-920 _ipaccess_bts_handle_ccm for a CCM message; the second component: no error *)
Definition handle_ccm (e : env) (s : bst) (x : cli) (d : list Z) : res (bst * bool) :=
  match d with
  | [] => Bad EmptyCcm
  | mt :: _ =>
    try s <- match b_ka (tss s (c_ts x)) with
             | Some k => if mt =? MSGT_PONG then match kas s k with Some _ => Ok (emit s (BKaPong k)) | None => Bad Freed end else Ok s
             | None => Ok s end;
    if negb (e_base e) then Ok (s, false) else
    if mt =? MSGT_ID_GET then
      let store := unit_trx s in
      let s := set_unit s (ts_trx_nr (ts_num (c_ts x))) in
      let trx := unit_trx s in
      let s := set_unit s store in
      if e_id e then Ok (emit (emit s (BIdResp (c_id x) trx)) (BIdAck (c_id x)), true) else Ok (s, false)
    else Ok (s, true)
  end.
(** src/e1_input.c:766-777 e1inp_lookup_sign_link *)
Definition lookup_link (s : bst) (t : nat) (tei sapi : Z) : option lk :=
  find (fun k => Nat.eqb (l_ts k) t && (l_sapi k =? sapi) && (l_tei k =? tei)) (lks s).
(** :922-991 ipaccess_bts_read_cb; [m]: None for an error or end of file, else stream
    identifier and payload; sign_link_up and sign_link are set *)
Definition read_cb (e : env) (s : bst) (x : cli) (m : option (Z * list Z)) : res bst :=
  let err := fun s => close_running (execs (e_down e)) s (c_id x) in
  match m with
  | None => err s
  | Some (proto, d) =>
    if proto =? PROTO_IPACCESS then
      try r <- handle_ccm e s x d;
      let '(s, ok) := r in
      if negb ok then err s else
      if hd 0 d =? MSGT_ID_GET then
        try s <- execs (e_up e) (emit s (BUp (ts_sign_type (ts_num (c_ts x)) + ts_trx_nr (ts_num (c_ts x)))));
        if e_ret e then Ok s else err s
      else Ok s
    else if negb (b_sign (tss s (c_ts x))) then Bad NoList else
      match lookup_link s (c_ts x) proto 0 with
      | None => err s
      | Some k => execs (e_act e) (emit s (BDeliver (l_id k) d))
      end
  end.
(** :993-1003 ipaccess_bts_connect_cb *)
Definition connect_cb (s : bst) (x : cli) : res bst :=
  match b_ka (tss s (c_ts x)) with
  | Some k => if kap s then match kas s k with Some _ => Ok (emit s (BKaStart k)) | None => Bad Freed end else Ok s
  | None => Ok s
  end.
(** :141-145 ipa_bts_keepalive_timeout_cb: the stream itself is not closed *)
Definition ka_timeout (down : list ucmd) (s : bst) (k : nat) : res bst :=
  match kas s k with
  | None => Ok s
  | Some c => match find_cli s c with None => Bad Freed | Some x => down_cb (execs down) s (c_ts x) end
  end.
(** [Lost]: the library closes the stream (connect failed, write error) *)
Inductive ev := App (c : ucmd) | Connected (c : nat) | Lost (c : nat) (down : list ucmd) | Rx (e : env) (c : nat) (m : option (Z * list Z)) | KaTimeout (k : nat) (down : list ucmd).
(** a closed or freed client has no events *)
Definition if_open (s : bst) (c : nat) (f : cli -> res bst) : res bst :=
  match find_cli s c with Some x => if c_open x then f x else Ok s | None => Ok s end.
Definition step (s : bst) (v : ev) : res bst :=
  match v with
  | App c => exec c s
  | Connected c => if_open s c (connect_cb s)
  | Lost c d => if_open s c (fun x => cli_close (execs d) s c)
  | Rx e c m => if_open s c (fun x => read_cb e s x m)
  | KaTimeout k d => ka_timeout d s k
  end.
Fixpoint run (s : bst) (vs : list ev) : res bst :=
  match vs with [] => Ok s | v :: r => try s <- step s v; run s r end.

(** ** The older interface: src/input/ipa.c clients *)
(** :73-79 ipaccess_line_ts: private number of the descriptor (unsigned) to timeslot *)
Definition line_ts (priv : Z) : option nat :=
  if priv =? OML then Some oml_ts
  else let trx := (priv - RSL) mod 2 ^ 32 in
       let i := (1 + trx) mod 2 ^ 32 in if i <? Z.of_nat NUM_E1_TS then Some (Z.to_nat i) else None.
(** :775-845 ipaccess_bts_handle_ccm up to the keepalive: NULL timeslots are dereferenced *)
Definition old_pong (priv : Z) : res nat := match line_ts priv with Some t => Ok t | None => Bad NullTs end.
(** the same, TRX number in the ID_RESP *)
Definition old_trx (priv : Z) : Z := if priv >=? RSL then priv - RSL else 0.
