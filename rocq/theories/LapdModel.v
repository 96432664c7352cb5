(** Model of src/input/lapd.c.

    The data link core (lapd_dl_init2, lapd_ph_data_ind, lapd_recv_dlsap; in
    libosmocore) is not modelled: every API function of lapd.c ends with a tail
    call into it, and what it does then (or later, from its timers) is to call
    send_ph_data_req or send_dlsap of a data link; those calls are separate steps
    of a history here, in any order and number, so re-entrant use from
    receive_cb is included too.  The core does not use a data link after it was
    released: a callback naming a data link that does not exist is [None].

    Octets are Z; talloc/msgb allocation succeeds; logging and pcap (C49) are
    left out. *)
From Coq Require Import List Arith Lia Bool ZArith.
From Verif Require Import Base.
Import ListNotations.
Open Scope Z_scope.

(** lapd.c:39-40 *)
Definition LAPD_ADDR2 (sapi cr : Z) := Z.lor (Z.shiftl (Z.land sapi 63) 2) (Z.shiftl (Z.land cr 1) 1).
Definition LAPD_ADDR3 (tei : Z) := Z.lor (Z.shiftl (Z.land tei 127) 1) 1.
(** :42-45 *)
Definition LAPD_ADDR_SAPI (a : Z) := Z.shiftr a 2.
Definition LAPD_ADDR_CR (a : Z) := Z.land (Z.shiftr a 1) 1.
Definition LAPD_ADDR_EA (a : Z) := Z.land a 1.
Definition LAPD_ADDR_TEI (a : Z) := Z.shiftr a 1.
(** :47-51 *)
Definition LAPD_CTRL_I4 (ns : Z) := Z.shiftl (Z.land ns 127) 1.
Definition LAPD_CTRL_I5 (nr p : Z) := Z.lor (Z.shiftl (Z.land nr 127) 1) (Z.land p 1).
Definition LAPD_CTRL_S4 (s : Z) := Z.lor (Z.shiftl (Z.land s 3) 2) 1.
Definition LAPD_CTRL_S5 (nr p : Z) := Z.lor (Z.shiftl (Z.land nr 127) 1) (Z.land p 1).
Definition LAPD_CTRL_U4 (u p : Z) :=
  Z.lor (Z.lor (Z.lor (Z.shiftl (Z.land u 28) (5 - 2)) (Z.shiftl (Z.land p 1) 4)) (Z.shiftl (Z.land u 3) 2)) 3.
(** :53-55 *)
Definition LAPD_CTRL_is_I (c : Z) := Z.land c 1 =? 0.
Definition LAPD_CTRL_is_S (c : Z) := Z.land c 3 =? 1.
Definition LAPD_CTRL_is_U (c : Z) := Z.land c 3 =? 3.
(** :57-66 *)
Definition LAPD_CTRL_U_BITS (c : Z) := Z.lor (Z.shiftr (Z.land c 12) 2) (Z.shiftr (Z.land c 224) 3).
Definition LAPD_CTRL_U_PF (c : Z) := Z.land (Z.shiftr c 4) 1.
Definition LAPD_CTRL_S_BITS (c : Z) := Z.shiftr (Z.land c 12) 2.
Definition LAPD_CTRL_S_PF (c : Z) := Z.land c 1.
Definition LAPD_CTRL_I_Ns (c : Z) := Z.shiftr (Z.land c 254) 1.
Definition LAPD_CTRL_I_P (c : Z) := Z.land c 1.
Definition LAPD_CTRL_Nr (c : Z) := Z.shiftr (Z.land c 254) 1.

(** libosmocore enum lapd_format *)
Inductive format := FORM_UKN | FORM_I | FORM_S | FORM_U.

(** libosmocore struct lapd_msg_ctx without dl, n201, more, lpd, addr bits *)
Record lctx := mkLctx {
  l_sapi : Z; l_cr : Z; l_tei : Z; l_format : format;
  l_n_send : Z; l_n_recv : Z; l_p_f : Z; l_s_u : Z }.
(** :387 memset(&lctx, 0, sizeof(lctx)) *)
Definition lctx0 : lctx := mkLctx 0 0 0 FORM_UKN 0 0 0 0.

(** include/osmocom/abis/lapd.h struct lapd_profile (n202, t201, t202 are unused) *)
Record profile := mkProfile {
  pk : list Z; pn200 : Z; pn201 : Z;
  pt200_sec : Z; pt200_usec : Z; pt203_sec : Z; pt203_usec : Z; short_address : bool }.
(** :71 LAPD_SET_K *)
Definition LAPD_SET_K (n o : Z) : list Z := n :: repeat o 63.
(** :85-95, :97-107, :118-128, :130-140 *)
Definition lapd_profile_isdn := mkProfile (LAPD_SET_K 7 7) 3 260 1 0 10 0 false.
Definition lapd_profile_abis := mkProfile (LAPD_SET_K 2 1) 3 260 0 240000 10 0 false.
Definition lapd_profile_abis_ericsson := mkProfile (LAPD_SET_K 2 1) 50 260 0 300000 10 0 false.
Definition lapd_profile_sat := mkProfile (LAPD_SET_K 15 15) 5 260 2 400000 20 0 true.

(** :164-170 struct lapd_sap with the parameters of its data link; [sid] is the
    identity of the object *)
Record sap := mkSap {
  sid : nat; sapi : Z;
  dl_k : Z; dl_maxf : Z; dl_n200 : Z; dl_n200_est_rel : Z;
  dl_t200_sec : Z; dl_t200_usec : Z; dl_t203_sec : Z; dl_t203_usec : Z;
  dl_sapi : Z; dl_tei : Z; dl_network : bool }.
(** :142-162 struct lapd_tei *)
Inductive tei_state := TEI_NONE | TEI_ASSIGNED.
Record tei_ent := mkTei { tei : Z; tstate : tei_state; sap_list : list sap }.
(** lapd.h struct lapd_instance *)
Record inst := mkInst {
  network_side : bool; prof : profile; tei_list : list tei_ent; next_id : nat }.

(** :174-183 teip_from_tei, :214-224 lapd_sap_find: first match *)
Definition teip_from_tei (li : inst) (t : Z) : option tei_ent :=
  find (fun e => tei e =? t) (tei_list li).
Definition lapd_sap_find (e : tei_ent) (s : Z) : option sap :=
  find (fun x => sapi x =? s) (sap_list e).

(** :195-211 lapd_tei_alloc: llist_add inserts at the head *)
Definition lapd_tei_alloc (li : inst) (t : Z) : inst * tei_ent :=
  let e := mkTei t TEI_ASSIGNED [] in
  (mkInst (network_side li) (prof li) (e :: tei_list li) (next_id li), e).

(** in-place update of the first entry with that TEI (the object teip points to) *)
Fixpoint upd_tei (t : Z) (f : tei_ent -> tei_ent) (l : list tei_ent) : list tei_ent :=
  match l with
  | [] => []
  | e :: r => if tei e =? t then f e :: r else e :: upd_tei t f r
  end.

(** :230-277 lapd_sap_alloc on the TEI entry found for [t] *)
Definition lapd_sap_alloc (li : inst) (t s : Z) : option (inst * sap) :=
  let p := prof li in
  do k <- get (pk p) (Z.to_nat (Z.land s 63));
  let x := mkSap (next_id li) s k (pn201 p) (pn200 p) (pn200 p)
             (pt200_sec p) (pt200_usec p) (pt203_sec p) (pt203_usec p) s t (network_side li) in
  Some (mkInst (network_side li) p
          (upd_tei t (fun e => mkTei (tei e) (tstate e) (x :: sap_list e)) (tei_list li))
          (S (next_id li)), x).

(** :280-291 lapd_sap_free: llist_del of that very object *)
Definition lapd_sap_free (li : inst) (id : nat) : inst :=
  mkInst (network_side li) (prof li)
    (map (fun e => mkTei (tei e) (tstate e) (filter (fun x => negb (Nat.eqb (sid x) id)) (sap_list e))) (tei_list li))
    (next_id li).

(** the object a data link pointer points to: container_of and sap->tei *)
Definition sap_by_id (li : inst) (id : nat) : option (tei_ent * sap) :=
  let look := fun e => match find (fun x => Nat.eqb (sid x) id) (sap_list e) with Some x => Some (e, x) | None => None end in
  fold_right (fun e acc => match look e with Some r => Some r | None => acc end) None (tei_list li).

Inductive prim := DL_EST | DL_REL | DL_DATA | DL_OTHER.
(** what an API call or a core callback makes visible: a frame given to
    transmit_cb, a primitive given to receive_cb, a request or a frame given to
    the data link core, the message buffer being freed *)
Inductive out :=
| TxFrame (f : list Z)
| RxPrim (p : prim) (t s : Z)
| CoreFrame (id : nat) (c : lctx) (n201 : Z) (payload : list Z)
| CoreReq (id : nat) (p : prim) (payload : list Z)
| MsgFreed.
(** return value: an own one with *error, or the core's *)
Inductive lerr := ERR_NONE | ERR_BAD_LEN | ERR_UNKNOWN_TEI.
Inductive ret := Rc (z : Z) (e : lerr) | RcCore | RcVoid.

(** :307-369 lapd_tei_receive *)
Definition lapd_tei_receive (li : inst) (data : list Z) : option (inst * list out * Z) :=
  if (length data <? 5)%nat then Some (li, [], EINVAL)
  else
    do _e <- get data 0%nat; do _r <- get data 1%nat; do mt <- get data 3%nat; do d4 <- get data 4%nat;
    let action := Z.shiftr d4 1 in
    if mt =? 1 then
      let li := match teip_from_tei li action with
                | Some _ => li
                | None => fst (lapd_tei_alloc li action)
                end in
      let resp := [0xfe; 0xff; 0x03; 0x0f; 0x00; 0x00; 0x02; Z.lor (Z.shiftl action 1) 1 mod 256] in
      (* :363-364 state NONE -> ASSIGNED *)
      let li := mkInst (network_side li) (prof li)
                  (upd_tei action (fun e => mkTei (tei e) TEI_ASSIGNED (sap_list e)) (tei_list li)) (next_id li) in
      Some (li, [TxFrame resp], 0)
    else Some (li, [], 0).

(** :389-449 the header parser of lapd_receive: [inl tt] = LAPD_ERR_BAD_LEN;
    otherwise the context and the number of octets to pull *)
Definition parse_header (m : list Z) : option (unit + lctx * nat) :=
  let len := length m in
  if (len <? 2)%nat then Some (inl tt) else
  do a <- get m 0%nat;
  let c := mkLctx (LAPD_ADDR_SAPI a) (LAPD_ADDR_CR a) 0 FORM_UKN 0 0 0 0 in
  do r <- (if LAPD_ADDR_EA a =? 0 then
             if (len <? 3)%nat then Some (inl tt)
             else do b <- get m 1%nat;
                  Some (inr (mkLctx (l_sapi c) (l_cr c) (LAPD_ADDR_TEI b) FORM_UKN 0 0 0 0, 1%nat))
           else Some (inr (c, 0%nat)));
  match r with
  | inl _ => Some (inl tt)
  | inr (c, i) =>
    let i := S i in
    do x <- get m i;
    if LAPD_CTRL_is_I x then
      let ns := LAPD_CTRL_I_Ns x in
      let i := S i in
      if (len <? 3)%nat && (i =? 2)%nat then Some (inl tt)
      else if (len <? 4)%nat && (i =? 3)%nat then Some (inl tt)
      else do y <- get m i;
           Some (inr (mkLctx (l_sapi c) (l_cr c) (l_tei c) FORM_I ns (LAPD_CTRL_Nr y) (LAPD_CTRL_I_P y) 0, S i))
    else if LAPD_CTRL_is_S x then
      let su := LAPD_CTRL_S_BITS x in
      let i := S i in
      if (len <? 3)%nat && (i =? 2)%nat then Some (inl tt)
      else if (len <? 4)%nat && (i =? 3)%nat then Some (inl tt)
      else do y <- get m i;
           Some (inr (mkLctx (l_sapi c) (l_cr c) (l_tei c) FORM_S 0 (LAPD_CTRL_Nr y) (LAPD_CTRL_S_PF y) su, S i))
    else if LAPD_CTRL_is_U x then
      Some (inr (mkLctx (l_sapi c) (l_cr c) (l_tei c) FORM_U 0 0 (LAPD_CTRL_U_PF x) (LAPD_CTRL_U_BITS x), S i))
    else Some (inr (mkLctx (l_sapi c) (l_cr c) (l_tei c) FORM_UKN 0 0 0 0, S i))
  end.

(** libosmocore msgb_pull; pulling more than there is underflows msg->len *)
Definition msgb_pull (m : list Z) (n : nat) : option (list Z) :=
  if (n <=? length m)%nat then Some (skipn n m) else None.

(** :372-497 lapd_receive *)
Definition lapd_receive (li : inst) (m : list Z) : option (inst * list out * ret) :=
  do h <- parse_header m;
  match h with
  | inl _ => Some (li, [], Rc EINVAL ERR_BAD_LEN)
  | inr (c, i) =>
    do data <- msgb_pull m i;
    if l_tei c =? 127 then
      do r <- lapd_tei_receive li data;
      let '(li, o, rc) := r in
      Some (li, o ++ [MsgFreed], Rc rc ERR_NONE)
    else
      match teip_from_tei li (l_tei c) with
      | None => Some (li, [MsgFreed], Rc EINVAL ERR_UNKNOWN_TEI)
      | Some e =>
        do ls <- match lapd_sap_find e (l_sapi c) with
                 | Some x => Some (li, x)
                 | None => lapd_sap_alloc li (tei e) (l_sapi c)
                 end;
        let '(li, x) := ls in
        if dl_maxf x <? Z.of_nat (length data) then
          Some (li, [MsgFreed], Rc EINVAL ERR_BAD_LEN)
        else Some (li, [CoreFrame (sid x) c (dl_maxf x) data], RcCore)
      end
  end.

(** :500-528 lapd_sap_start *)
Definition lapd_sap_start (li : inst) (t s : Z) : option (inst * list out * ret) :=
  let '(li, e) := match teip_from_tei li t with
                  | Some e => (li, e)
                  | None => lapd_tei_alloc li t
                  end in
  match lapd_sap_find e s with
  | Some _ => Some (li, [], Rc EEXIST ERR_NONE)
  | None =>
    do r <- lapd_sap_alloc li (tei e) s;
    let '(li, x) := r in
    Some (li, [CoreReq (sid x) DL_EST []], RcCore)
  end.

(** :531-555 lapd_sap_stop *)
Definition lapd_sap_stop (li : inst) (t s : Z) : option (inst * list out * ret) :=
  match teip_from_tei li t with
  | None => Some (li, [], Rc ENODEV ERR_NONE)
  | Some e =>
    match lapd_sap_find e s with
    | None => Some (li, [], Rc ENODEV ERR_NONE)
    | Some x => Some (li, [CoreReq (sid x) DL_REL []], RcCore)
    end
  end.

(** :558-584 lapd_transmit *)
Definition lapd_transmit (li : inst) (t s : Z) (msg : list Z) : option (inst * list out * ret) :=
  match teip_from_tei li t with
  | None => Some (li, [MsgFreed], RcVoid)
  | Some e =>
    match lapd_sap_find e s with
    | None => Some (li, [MsgFreed], RcVoid)
    | Some x => Some (li, [CoreReq (sid x) DL_DATA msg], RcVoid)
    end
  end.

(** libosmocore msgb_push: aborts without headroom *)
Definition msgb_push (hr : nat) (m new : list Z) : option (nat * list Z) :=
  if (length new <=? hr)%nat then Some ((hr - length new)%nat, new ++ m) else None.

(** :586-635 send_ph_data_req; [hr] is the headroom of the message; stores into
    uint8_t truncate *)
Definition encode_frame (short : bool) (c : lctx) (hr : nat) (msg : list Z) : option (option (list Z)) :=
  do r <- match l_format c with
          | FORM_I => do m <- msgb_push hr msg [LAPD_CTRL_I4 (l_n_send c); LAPD_CTRL_I5 (l_n_recv c) (l_p_f c)]; Some (Some m)
          | FORM_S => do m <- msgb_push hr msg [LAPD_CTRL_S4 (l_s_u c); LAPD_CTRL_S5 (l_n_recv c) (l_p_f c)]; Some (Some m)
          | FORM_U => do m <- msgb_push hr msg [LAPD_CTRL_U4 (l_s_u c) (l_p_f c)]; Some (Some m)
          | FORM_UKN => Some None
          end;
  match r with
  | None => Some None
  | Some (hr, m) =>
    let a := LAPD_ADDR2 (l_sapi c) (l_cr c) in
    let addr := if short && (l_tei c =? 0) then [Z.lor a 1] else [a; LAPD_ADDR3 (l_tei c)] in
    do m <- msgb_push hr m addr; Some (Some (snd m))
  end.
Definition send_ph_data_req (li : inst) (id : nat) (c : lctx) (hr : nat) (msg : list Z)
  : option (inst * list out * ret) :=
  do _x <- sap_by_id li id;
  do r <- encode_frame (short_address (prof li)) c hr msg;
  match r with
  | None => Some (li, [MsgFreed], Rc EINVAL ERR_NONE)
  | Some f => Some (li, [TxFrame f], Rc 0 ERR_NONE)
  end.

(** :638-670 send_dlsap *)
Definition send_dlsap (li : inst) (id : nat) (p : prim) (t s : Z) : option (inst * list out * ret) :=
  do _x <- sap_by_id li id;
  let li := match p with DL_REL => lapd_sap_free li id | _ => li end in
  Some (li, [RxPrim p t s], Rc 0 ERR_NONE).

(** :673-697 lapd_instance_alloc2 (callbacks apart); :710-714 set_profile *)
Definition lapd_instance_alloc2 (network : bool) (p : profile) : inst := mkInst network p [] 0.
Definition lapd_instance_set_profile (li : inst) (p : profile) : inst :=
  mkInst (network_side li) p (tei_list li) (next_id li).

(** callbacks of :673-697 and of the deprecated :699-706, as the code passes them:
    the value called as a function, the value passed to it as cbdata *)
Record cbs (A : Type) := mkCbs { transmit_cb : A; transmit_cbdata : A; receive_cb : A; receive_cbdata : A }.
Arguments mkCbs {A}. Arguments transmit_cb {A}. Arguments transmit_cbdata {A}.
Definition alloc2_cbs {A} (tx_cb tx_cbdata rx_cb rx_cbdata : A) : cbs A := mkCbs tx_cb tx_cbdata rx_cb rx_cbdata.
Definition alloc_cbs {A} (tx_cb tx_cbdata rx_cb rx_cbdata : A) : cbs A := alloc2_cbs tx_cbdata tx_cb rx_cb rx_cbdata.

(** steps of a history: the API calls and the core's callbacks *)
Inductive op :=
| Receive (m : list Z)
| SapStart (t s : Z) | SapStop (t s : Z) | Transmit (t s : Z) (m : list Z)
| TeiAlloc (t : Z) | SetProfile (p : profile)
| CoreTx (id : nat) (c : lctx) (hr : nat) (m : list Z)
| CoreDl (id : nat) (p : prim) (t s : Z).

Definition step (li : inst) (o : op) : option (inst * list out * ret) :=
  match o with
  | Receive m => lapd_receive li m
  | SapStart t s => lapd_sap_start li t s
  | SapStop t s => lapd_sap_stop li t s
  | Transmit t s m => lapd_transmit li t s m
  | TeiAlloc t => Some (fst (lapd_tei_alloc li t), [], RcVoid)
  | SetProfile p => Some (lapd_instance_set_profile li p, [], RcVoid)
  | CoreTx id c hr m => send_ph_data_req li id c hr m
  | CoreDl id p t s => send_dlsap li id p t s
  end.
