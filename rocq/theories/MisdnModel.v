(** Model of src/input/misdn.c (all functions but e1inp_misdn_init): the driver for mISDN
    cards, with LAPD in the kernel ("misdn") or in this library ("misdn_lapd").  One line: the
    lines of this driver share nothing.  Of src/e1_input.c: sending, signalling links,
    configuration of timeslots.

    The kernel is a record of functions of a counter that grows with every question asked, so
    every behaviour is covered.  A socket is named by the counter: names are never used twice,
    whatever number the kernel gives it.  What the application does when it is given a
    message or a signal is a list of commands.

    [Bad] ends an execution: a null LAPD instance or an uninitialised link pointer used, the
    union of a timeslot overwritten while it has signalling links.
    Simplified: socket() never gives number 0.  Datagrams have at least the mISDN header, and
    MPH_INFORMATION_IND its four octets.  The LAPD instance is the environment: what it is
    given is recorded, and it may write at any time while it exists.  Commands of a signal
    handler run after the last signal of the datagram.  Lines are not destroyed; logging,
    pcap and allocation failures are left out. *)
From Coq Require Import List Arith Lia Bool ZArith.
From Verif Require Import Base E1Model.
Import ListNotations.
Open Scope Z_scope.

(** the environment: :952-989 the card (Some rc: an error); socket(); bind(); IMCLEAR_L2;
    osmo_fd_register; write(), send(), sendto(): in full or not; octets of the multiplexer *)
Record kern := mkK { k_card : nat -> option Z; k_sock : nat -> bool; k_bind : nat -> bool; k_clear : nat -> bool; k_reg : nat -> bool; k_write : nat -> bool; k_mux : nat -> nat -> Z }.
Inductive why := NullLapd | BadLink | LinksLeft.
Inductive res (A : Type) := Ok (a : A) | Bad (r : why).
Arguments Ok {A} a. Arguments Bad {A} r.
Notation "'try' x <- a ; b" := (match a with Ok x => b | Bad r => Bad r end) (at level 200, x name, a at level 100, b at level 200).

(** mISDNif.h: ISDN_P_B_RAW, _B_HDLC, _NT_E1, _LAPD_NT *)
Inductive proto := B_RAW | B_HDLC | NT_E1 | LAPD_NT.
(** bfd->fd: 0, negative, a socket *)
Inductive fdv := Closed | Failed | Open (f : nat).
(** a signalling link, with driver.misdn.channel; or (number 0) the raw or HDLC queue *)
Record lnk := mkLk { l_id : nat; l_tei : Z; l_sapi : Z; l_chan : Z; l_q : list (list Z) }.
(** struct e1inp_ts; [m_cur], [m_unc]: type_ts[], unconfirmed_ts[] of struct misdn_line; [m_reg]:
    in the select loop, [m_wr]: OSMO_FD_WRITE, [m_tmr]: the tx delay timer runs *)
Record mts := mkT { m_type : ts_type; m_cur : ts_type; m_fd : fdv; m_reg : bool; m_wr : bool; m_unc : bool; m_lapd : bool; m_q : list lnk; m_tmr : bool }.
Definition mts0 : mts := mkT TS_NONE TS_NONE Closed false false false false [] false.
Definition w_type (x : mts) (a : ts_type) (q : list lnk) : mts := mkT a (m_cur x) (m_fd x) (m_reg x) (m_wr x) (m_unc x) (m_lapd x) q (m_tmr x).
Definition w_cur (x : mts) (a : ts_type) : mts := mkT (m_type x) a (m_fd x) (m_reg x) (m_wr x) (m_unc x) (m_lapd x) (m_q x) (m_tmr x).
Definition w_fd (x : mts) (f : fdv) (r : bool) : mts := mkT (m_type x) (m_cur x) f r (m_wr x) (m_unc x) (m_lapd x) (m_q x) (m_tmr x).
Definition w_wr (x : mts) (w : bool) : mts := mkT (m_type x) (m_cur x) (m_fd x) (m_reg x) w (m_unc x) (m_lapd x) (m_q x) (m_tmr x).
Definition w_unc (x : mts) (u : bool) : mts := mkT (m_type x) (m_cur x) (m_fd x) (m_reg x) (m_wr x) u (m_lapd x) (m_q x) (m_tmr x).
Definition w_lapd (x : mts) (b : bool) : mts := mkT (m_type x) (m_cur x) (m_fd x) (m_reg x) (m_wr x) (m_unc x) b (m_q x) (m_tmr x).
Definition w_q (x : mts) (q : list lnk) (tm : bool) : mts := mkT (m_type x) (m_cur x) (m_fd x) (m_reg x) (m_wr x) (m_unc x) (m_lapd x) q tm.

(** where octets handed to the kernel come from: a link or queue, or a multiplexer *)
Inductive src := Msg (i : nat) | Mux.
(** effects of one timeslot *)
Inductive eff :=
| ESock (f : nat) (p : proto) | EBind (f : nat) (dev : nat) (chan : nat) (group : bool) | EAct (f : nat) | EClear (f : nat)
| EReg (f : nat) | EUnreg (f : nat) | EClose (f : nat)
| EData (f : nat) (w : src) (m o : list Z) (full : bool)           (* PH_DATA_REQ, raw or HDLC: message, octets written *)
| EBlock (f : nat) (o : list Z)                                    (* PH_DATA_REQ: TRAU *)
| ESign (f : nat) (i : nat) (chan sapi tei : Z) (o : list Z)       (* DL_DATA_REQ *)
| ELapdWr (f : nat) (o : list Z) | ESa (f : nat) (b : Z)
| EStray (w : src) (m : list Z) | EDrop (w : src) (m : list Z)     (* written to descriptor 0, to a negative one *)
| EStrayX | EDropX                                                 (* the same, of LAPD frames or Sa bits *)
| ELapdTx (i : nat) (o : list Z) | ELapdRx (o : list Z) | ERx (tei sapi : Z) (o : list Z)
| EUp (i : nat) (up : bool)                                        (* S_L_INP_TEI_UP, _DN *)
| EChan (i : nat) (c : Z) | ECnf | ELeak                           (* a message buffer not freed *)
| EAcc (i : nat) (m : list Z) | ELink (i : nat) (tei sapi : Z) | EUnlink (i : nat) | EConf (ty : ts_type).
(** signals of the line *)
Inductive sig := SLos (b : bool) | SAis (b : bool) | SRai (b : bool) | SAlarm (b : bool) | SSa (b : Z).
Inductive leff := LTs (t : nat) (e : eff) | LSig (v : sig) | LDummy (f : nat) | LDummyBind (f dev : nat) | LDummyClose (f : nat) | LUpdate | LRet (rc : Z).

(** ** One timeslot: its state, what it has done, the counter *)
Record loc := mkL { lx : mts; les : list eff; ln : nat }.
Definition emit (z : loc) (e : eff) : loc := mkL (lx z) (les z ++ [e]) (ln z).
Definition next (z : loc) : loc := mkL (lx z) (les z) (S (ln z)).
Definition put (z : loc) (x : mts) : loc := mkL x (les z) (ln z).

(** :844-868: protocol; :877-907: channel, GROUP_TEI *)
Definition proto_of (ul : bool) (t : nat) (ty : ts_type) : proto :=
  match ty with TS_HDLC => if Nat.eqb t 16 then NT_E1 else B_HDLC | TS_SIGN => if ul then B_HDLC else LAPD_NT | _ => B_RAW end.
Definition chan_of (ul : bool) (t : nat) (ty : ts_type) : nat :=
  match ty with TS_SIGN => if ul then t else 0 | TS_HDLC | TS_RAW | TS_TRAU => if Nat.eqb t 16 then 0 else t | _ => 0 end%nat.
Definition group_of (ul : bool) (ty : ts_type) : bool := match ty with TS_SIGN => negb ul | _ => false end.
(** :822-842: what was there is taken down *)
Definition down_ts (z : loc) : loc :=
  let x := lx z in
  let z := match m_fd x with Open f => if m_reg x then emit (put z (w_fd x (m_fd x) false)) (EUnreg f) else z | _ => z end in
  let z := put z (w_lapd (lx z) false) in
  let z := match m_fd (lx z) with Open f => emit (put z (w_fd (lx z) Closed (m_reg (lx z)))) (EClose f) | _ => put z (w_fd (lx z) Closed (m_reg (lx z))) end in
  put z (w_cur (w_unc (lx z) false) (m_type (lx z))).
(** :877-937, [f] the new socket; the second component: Some rc: return *)
Definition up_ts (k : kern) (ul : bool) (dev t f : nat) (z : loc) : loc * option Z :=
  let ty := m_type (lx z) in
  let z := if type_eqb ty TS_SIGN && ul then put z (w_lapd (lx z) true) else z in
  if negb (k_bind k (ln z)) then (next z, Some (-5)) else
  let z := emit (next z) (EBind f dev (chan_of ul t ty) (group_of ul ty)) in
  if group_of ul ty && negb (k_clear k (ln z)) then (next z, Some (-5)) else
  let z := emit (next z) (if group_of ul ty then EClear f else EAct f) in
  let z := put z (w_wr (lx z) false) in
  if k_reg k (ln z) then (emit (next (put z (w_fd (lx z) (m_fd (lx z)) true))) (EReg f), None) else (next z, Some (-1)).
(** :809-938 one turn of the loop of mi_e1_setup *)
Definition update_ts (k : kern) (ul : bool) (dev t : nat) (z : loc) : loc * option Z :=
  let ty := m_type (lx z) in
  if type_eqb (m_cur (lx z)) ty then (z, None) else
  let z := down_ts z in
  if type_eqb ty TS_NONE then (z, None) else
  let f := ln z in
  if k_sock k f then up_ts k ul dev t f (emit (next (put z (w_fd (lx z) (Open f) (m_reg (lx z))))) (ESock f (proto_of ul t ty)))
  else (next (put z (w_fd (lx z) Failed (m_reg (lx z)))), Some (-1)).

(** :291-303 ts_want_write *)
Definition want_write (z : loc) : loc := match m_type (lx z) with TS_TRAU | TS_I460 => z | _ => put z (w_wr (lx z) true) end.
(** the oldest message of the first link that has one *)
Fixpoint take (q : list lnk) : option (lnk * list Z * list lnk) :=
  match q with
  | [] => None
  | a :: r => match l_q a with
              | [] => match take r with Some (b, m, r') => Some (b, m, a :: r') | None => None end
              | m :: ms => Some (a, m, mkLk (l_id a) (l_tei a) (l_sapi a) (l_chan a) ms :: r)
              end
  end.
(** write() *)
Definition out_data (k : kern) (z : loc) (w : src) (m o : list Z) : loc * bool :=
  match m_fd (lx z) with
  | Open f => (emit (next z) (EData f w m o (k_write k (ln z))), k_write k (ln z))
  | Closed => (emit (next z) (EStray w m), k_write k (ln z))
  | Failed => (emit (next z) (EDrop w m), false)
  end.
(** libosmocore osmo_revbytebits_8 *)
Definition rev8 (b : Z) : Z := fold_left (fun a i => a + (if Z.testbit b i then 2 ^ (7 - i) else 0)) [0;1;2;3;4;5;6;7] 0.
(** e1_input.c:977-1028 e1inp_tx_ts *)
Definition tx_ts (k : kern) (z : loc) : loc * option (src * list Z) :=
  let x := lx z in
  match m_type x with
  | TS_NONE => (z, None)
  | TS_SIGN | TS_RAW | TS_HDLC => match take (m_q x) with Some (a, m, q) => (put z (w_q x q (m_tmr x)), Some (Msg (l_id a), m)) | None => (z, None) end
  | TS_TRAU => (next z, Some (Mux, map (k_mux k (ln z)) (seq 0 40)))
  | TS_I460 => (next z, Some (Mux, map (k_mux k (ln z)) (seq 0 160)))
  end.
(** :496-532 handle_ts_raw_write ([rev]), :585-620 handle_ts_hdlc_write *)
Definition data_write (k : kern) (rev : bool) (z : loc) : loc :=
  let z := put z (w_wr (lx z) false) in
  if m_unc (lx z) then z else
  match tx_ts k z with
  | (z, None) => z
  | (z, Some (w, m)) => let '(z, full) := out_data k z w m (if rev then map rev8 m else m) in if full then put z (w_unc (lx z) true) else z
  end.
(** :335-394 handle_ts1_write *)
Definition sign_write (k : kern) (ul : bool) (z : loc) : res loc :=
  let z := put z (w_wr (lx z) false) in
  match m_type (lx z) with
  | TS_NONE => Ok z
  | TS_SIGN =>
    match take (m_q (lx z)) with
    | None => Ok z
    | Some (a, m, q) =>
      let z := put z (w_q (lx z) q (m_tmr (lx z))) in
      if ul then (if m_lapd (lx z) then Ok (emit (put z (w_q (lx z) (m_q (lx z)) true)) (ELapdTx (l_id a) m)) else Bad NullLapd)
      else let z := put z (w_q (lx z) (m_q (lx z)) true) in
           Ok (emit z (match m_fd (lx z) with Open f => ESign f (l_id a) (l_chan a) (l_sapi a) (l_tei a) m | Closed => EStray (Msg (l_id a)) m | Failed => EDrop (Msg (l_id a)) m end))
    end
  | TS_RAW | TS_HDLC => match take (m_q (lx z)) with None => Ok z | Some _ => Bad BadLink end
  | _ => Bad BadLink
  end.
(** :397-418 misdn_write_msg, the callback of the LAPD instance; :305-325 set_sa_bits *)
Definition lapd_write (m : list Z) (z : loc) : loc := emit z (match m_fd (lx z) with Open f => ELapdWr f m | Closed => EStrayX | Failed => EDropX end).
Definition sa_write (b : Z) (z : loc) : loc := emit z (match m_fd (lx z) with Open f => ESa f b | Closed => EStrayX | Failed => EDropX end).
(** :421-444 handle_tsX_write *)
Definition block_write (k : kern) (len : nat) (z : loc) : loc :=
  let o := map (k_mux k (ln z)) (seq 0 len) in
  emit (next z) (match m_fd (lx z) with Open f => EBlock f o | Closed => EStray Mux o | Failed => EDrop Mux o end).

(** e1_input.c:765-777 e1inp_lookup_sign_link; :170-289: the channel told for a link *)
Definition lookup (tei sapi : Z) (q : list lnk) : option lnk := find (fun a => (l_sapi a =? sapi) && (l_tei a =? tei)) q.
Fixpoint set_chan (tei sapi c : Z) (q : list lnk) : list lnk :=
  match q with
  | [] => []
  | a :: r => if (l_sapi a =? sapi) && (l_tei a =? tei) then mkLk (l_id a) (l_tei a) (l_sapi a) c (l_q a) :: r else a :: set_chan tei sapi c r
  end.

(** ** The application, one timeslot *)
Definition queues0 (ty : ts_type) : list lnk := match ty with TS_RAW | TS_HDLC => [mkLk 0 0 0 0 []] | _ => [] end.
(** e1_input.c:366-518 e1inp_ts_config_* *)
Definition config (ty : ts_type) (z : loc) : res loc :=
  let x := lx z in
  if type_eqb (m_type x) ty then Ok z else
  if type_eqb (m_type x) TS_SIGN && negb (match m_q x with [] => true | _ => false end) then Bad LinksLeft else
  Ok (emit (put z (w_type x ty (queues0 ty))) (EConf ty)).
Definition has (i : nat) (q : list lnk) : bool := existsb (fun a => Nat.eqb (l_id a) i) q.
Fixpoint append (i : nat) (m : list Z) (q : list lnk) : list lnk :=
  match q with [] => [] | a :: r => if Nat.eqb (l_id a) i then mkLk (l_id a) (l_tei a) (l_sapi a) (l_chan a) (l_q a ++ [m]) :: r else a :: append i m r end.
(** e1_input.c:782-807 e1inp_sign_link_create, :809-837 e1inp_sign_link_destroy *)
Definition link (i : nat) (tei sapi : Z) (z : loc) : loc :=
  let x := lx z in
  if type_eqb (m_type x) TS_SIGN && negb (has i (m_q x)) then emit (put z (w_q x (m_q x ++ [mkLk i tei sapi 0 []]) (m_tmr x))) (ELink i tei sapi) else z.
Definition unlink (i : nat) (z : loc) : loc :=
  let x := lx z in
  if type_eqb (m_type x) TS_SIGN && has i (m_q x) then emit (put z (w_q x (filter (fun a => negb (Nat.eqb (l_id a) i)) (m_q x)) false)) (EUnlink i) else z.
(** abis_sendmsg (e1_input.c:294-327), e1inp_ts_send_raw (:334-347), _hdlc (:349-362) *)
Definition send (i : nat) (m : list Z) (z : loc) : loc :=
  let x := lx z in
  if negb (has i (m_q x)) then z else
  match m_type x with
  | TS_SIGN => let z := emit (put z (w_q x (append i m (m_q x)) (m_tmr x))) (EAcc i m) in if m_tmr x then z else want_write z
  | TS_RAW | TS_HDLC => let z := want_write z in emit (put z (w_q (lx z) (append i m (m_q x)) (m_tmr x))) (EAcc i m)
  | _ => z
  end.

(** ** The line *)
Record st := mkS { ul : bool; port : nat; dummy : fdv; los : bool; ais : bool; rai : bool; tsl : nat -> mts; tick : nat; out : list leff }.
Definition st_init (u : bool) (p : nat) : st := mkS u p Closed false false false (fun _ => mts0) 0 [].
Definition upd {A} (f : nat -> A) (n : nat) (x : A) : nat -> A := fun k => if Nat.eqb k n then x else f k.
(** a timeslot does something *)
Definition enter (s : st) (t : nat) : loc := mkL (tsl s t) [] (tick s).
Definition leave (s : st) (t : nat) (z : loc) : st := mkS (ul s) (port s) (dummy s) (los s) (ais s) (rai s) (upd (tsl s) t (lx z)) (ln z) (out s ++ map (LTs t) (les z)).
Definition on (s : st) (t : nat) (f : loc -> loc) : st := leave s t (f (enter s t)).
Definition onr (s : st) (t : nat) (f : loc -> res loc) : res st := try z <- f (enter s t); Ok (leave s t z).
Definition say (s : st) (es : list leff) : st := mkS (ul s) (port s) (dummy s) (los s) (ais s) (rai s) (tsl s) (tick s) (out s ++ es).

Definition slots : list nat := seq 1 31.
(** :765-804 the D-channel that is opened for its own sake; second component: Some rc: return *)
Definition dummy_up (k : kern) (s : st) : st * option Z :=
  let sign := existsb (fun t => type_eqb (m_type (tsl s t)) TS_SIGN) slots in
  let set d n es := mkS (ul s) (port s) d (los s) (ais s) (rai s) (tsl s) n (out s ++ es) in
  if sign && ul s then
    match dummy s with
    | Open _ => (s, None)
    | _ => let f := tick s in
           if negb (k_sock k f) then (set Failed (S f) [], Some (-1)) else
           if k_bind k (S f) then (set (Open f) (S (S f)) [LDummy f; LDummyBind f (port s)], None)
           else (set (Open f) (S (S f)) [LDummy f], Some (-5))
    end
  else match dummy s with Open f => (set Failed (tick s) [LDummyClose f], None) | _ => (s, None) end.
Fixpoint update_loop (k : kern) (ts : list nat) (s : st) : st * Z :=
  match ts with
  | [] => (s, 0)
  | t :: r => match update_ts k (ul s) (port s) t (enter s t) with
              | (z, Some rc) => (leave s t z, rc)
              | (z, None) => update_loop k r (leave s t z)
              end
  end.
(** :760-941 mi_e1_setup, :943-1021 _mi_e1_line_update and its two callers *)
Definition line_update (k : kern) (s : st) : st * Z :=
  let s := say s [LUpdate] in
  let n := tick s in
  let s := mkS (ul s) (port s) (dummy s) (los s) (ais s) (rai s) (tsl s) (S n) (out s) in
  match k_card k n with
  | Some rc => (s, if rc <? 0 then rc else -19)
  | None => match dummy_up k s with
            | (s, Some rc) => (s, rc)
            | (s, None) => update_loop k slots s
            end
  end.

Inductive cmd := CConfig (t : nat) (ty : ts_type) | CPort (p : nat) | CUpdate | CLink (t i : nat) (tei sapi : Z) | CUnlink (t i : nat) | CSend (t i : nat) (m : list Z) | CSa (b : Z).
Definition valid (t : nat) : bool := (1 <=? t)%nat && (t <=? 32)%nat.
Definition exec (k : kern) (s : st) (c : cmd) : res st :=
  match c with
  | CConfig t ty => if valid t then onr s t (config ty) else Ok s
  | CPort p => Ok (mkS (ul s) p (dummy s) (los s) (ais s) (rai s) (tsl s) (tick s) (out s))
  | CUpdate => let (s, rc) := line_update k s in Ok (say s [LRet rc])
  | CLink t i tei sapi => Ok (if valid t then on s t (link i tei sapi) else s)
  | CUnlink t i => Ok (if valid t then on s t (unlink i) else s)
  | CSend t i m => Ok (if valid t then on s t (send i m) else s)
  | CSa b => Ok (if ul s then s else on s 16 (sa_write b))
  end.
Fixpoint execs (k : kern) (cs : list cmd) (s : st) : res st :=
  match cs with [] => Ok s | c :: r => try s <- exec k s c; execs k r s end.

(** :96-163 mph_information_ind *)
Definition mph_info (s : st) (i : Z) : st :=
  let was := los s || ais s || rai s in
  if Z.land i (Z.lnot 255) =? 256 then say s [LSig (SSa (Z.land i 255))] else
  let set a b c g := let s := mkS (ul s) (port s) (dummy s) a b c (tsl s) (tick s) (out s ++ [LSig g]) in
                     let is := a || b || c in
                     if negb was && is then say s [LSig (SAlarm true)] else if was && negb is then say s [LSig (SAlarm false)] else s in
  if i =? 16 then set false (ais s) (rai s) (SLos false) else
  if i =? 17 then set true (ais s) (rai s) (SLos true) else
  if i =? 18 then set (los s) false (rai s) (SAis false) else
  if i =? 19 then set (los s) true (rai s) (SAis true) else
  if i =? 20 then set (los s) (ais s) false (SRai false) else
  if i =? 21 then set (los s) (ais s) true (SRai true) else s.

(** what was received: an error, or a datagram; channel, tei, sapi from the socket address *)
Inductive rd := RdErr | RInform (c tei sapi : Z) | REstab (c tei sapi : Z) | RRelease (tei sapi : Z) | RDlData (tei sapi : Z) (o : list Z) | RPhData (o : list Z) | RCnf | RMph (i : Z) | ROther.
(** e1_input.c:1047-1055 e1inp_event, then what the application does *)
Definition event (k : kern) (s : st) (t : nat) (tei sapi : Z) (up : bool) (act : list cmd) : res st :=
  match lookup tei sapi (m_q (tsl s t)) with Some a => execs k act (on s t (fun z => emit z (EUp (l_id a) up))) | None => Ok s end.
Definition tell_chan (tei sapi c : Z) (z : loc) : loc :=
  match lookup tei sapi (m_q (lx z)) with Some a => emit (put z (w_q (lx z) (set_chan tei sapi c (m_q (lx z))) (m_tmr (lx z)))) (EChan (l_id a) c) | None => z end.
(** :165-289 handle_ts1_read *)
Definition sign_read (k : kern) (s : st) (t : nat) (r : rd) (act : list cmd) : res st :=
  match r with
  | RInform c tei sapi => Ok (on s t (tell_chan tei sapi c))
  | REstab c tei sapi => event k (on s t (tell_chan tei sapi c)) t tei sapi true act
  | RRelease tei sapi => event k s t tei sapi false act
  | RDlData tei sapi o => if ul s then Ok s else execs k act (on s t (fun z => emit z (ERx tei sapi o)))
  | RPhData o => if negb (ul s) then Ok (on s t (fun z => emit z ELeak)) else
                 if m_lapd (tsl s t) then execs k act (on s t (fun z => emit z (ELapdRx o))) else Bad NullLapd
  | RMph i => execs k act (mph_info s i)
  | _ => Ok s
  end.
(** :448-493 handle_tsX_read *)
Definition trau_read (k : kern) (s : st) (t : nat) (r : rd) (act : list cmd) : res st :=
  match r with
  | RdErr => Ok (on s t (fun z => emit z ELeak))
  | RPhData o => execs k act (on s t (fun z => emit (block_write k (length o) z) (ERx 0 0 o)))
  | _ => Ok s
  end.
(** :534-582 handle_ts_raw_read ([raw]), :622-676 handle_ts_hdlc_read *)
Definition data_read (k : kern) (s : st) (t : nat) (raw : bool) (r : rd) (act : list cmd) : res st :=
  match r with
  | RdErr => Ok (on s t (fun z => emit z ELeak))
  | RPhData o => execs k act (on s t (fun z => emit z (ERx 0 0 (if raw then map rev8 o else o))))
  | RCnf => Ok (on s t (fun z => emit (put z (w_wr (w_unc (lx z) false) true)) ECnf))
  | RMph i => if raw then Ok s else execs k act (mph_info s i)
  | _ => Ok s
  end.
(** :679-719 misdn_fd_cb; [r], [w]: OSMO_FD_READ, WRITE; the type is looked at once *)
Definition fd_cb (k : kern) (s : st) (t : nat) (r : option rd) (w : bool) (act : list cmd) : res st :=
  let all (rf : st -> rd -> res st) (wf : st -> res st) :=
    try s <- match r with Some r => rf s r | None => Ok s end;
    if w then wf s else Ok s in
  match m_type (tsl s t) with
  | TS_SIGN => all (fun s r => sign_read k s t r act) (fun s => onr s t (sign_write k (ul s)))
  | TS_TRAU => all (fun s r => trau_read k s t r act) (fun s => Ok s)
  | TS_RAW => all (fun s r => data_read k s t true r act) (fun s => Ok (on s t (data_write k true)))
  | TS_HDLC => all (fun s r => data_read k s t false r act) (fun s => Ok (on s t (data_write k false)))
  | TS_NONE | TS_I460 => Ok s
  end.
(** [App]: what the application does before it returns to the select loop; [Ready]: the select
    loop finds something; [TxTimer]: :327-333; [LapdOut]: the LAPD instance sends a frame *)
Inductive ev := App (cs : list cmd) | Ready (t : nat) (r : option rd) (w : bool) (act : list cmd) | TxTimer (t : nat) | LapdOut (t : nat) (m : list Z).
Definition step (k : kern) (s : st) (v : ev) : res st :=
  match v with
  | App cs => execs k cs s
  | Ready t r w act => if m_reg (tsl s t) then fd_cb k s t r (w && m_wr (tsl s t)) act else Ok s
  | TxTimer t => if m_tmr (tsl s t) then Ok (on s t (fun z => want_write (put z (w_q (lx z) (m_q (lx z)) false)))) else Ok s
  | LapdOut t m => if m_lapd (tsl s t) then Ok (on s t (lapd_write m)) else Ok s
  end.
Fixpoint run (k : kern) (s : st) (vs : list ev) : res st :=
  match vs with [] => Ok s | v :: r => try s <- step k s v; run k s r end.
