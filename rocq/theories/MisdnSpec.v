(** Vocabulary for the mISDN driver (C62-C64): what a timeslot needs, the life of its socket,
    the order of its messages, frames in flight, link addresses and alarms as seen in the trace
    of effects, and what is asked of kernel and application. *)
From Coq Require Import List Arith Bool ZArith.
From Verif Require Import Base E1Model MisdnModel.
Import ListNotations.

(** ** What a timeslot is opened as: protocol and channel (0: the D-channel, which is timeslot
    16), and whether it is the D-channel's management (GROUP_TEI) socket *)
Inductive wanted (ul : bool) (t : nat) : ts_type -> proto -> nat -> bool -> Prop :=
| WantSignUser : ul = true -> wanted ul t TS_SIGN B_HDLC t false
| WantSignKernel : ul = false -> wanted ul t TS_SIGN LAPD_NT 0 true
| WantHdlcD : t = 16%nat -> wanted ul t TS_HDLC NT_E1 0 false
| WantHdlc : t <> 16%nat -> wanted ul t TS_HDLC B_HDLC t false
| WantRawD ty : t = 16%nat -> ty = TS_RAW \/ ty = TS_TRAU -> wanted ul t ty B_RAW 0 false
| WantRaw ty : t <> 16%nat -> ty = TS_RAW \/ ty = TS_TRAU -> wanted ul t ty B_RAW t false
| WantI460 : wanted ul t TS_I460 B_RAW 0 false.

(** ** Effects of one timeslot *)
Definition proj (t : nat) (es : list leff) : list eff := flat_map (fun e => match e with LTs u e => if Nat.eqb u t then [e] else [] | _ => [] end) es.
(** the socket a timeslot has, and how far it is: opened, bound, activated (or cleared), in the
    select loop; None: an effect out of order *)
Inductive stage := Opened | Bound | Active | Polled.
Definition advance (v : option (nat * stage)) (e : eff) : option (option (nat * stage)) :=
  let own f g := match v with Some (h, g') => if Nat.eqb f h then match g, g' with Opened, Opened | Bound, Bound | Active, Active | Polled, Polled => true | _, _ => false end else false | None => false end in
  let mine f := match v with Some (h, _) => Nat.eqb f h | None => false end in
  match e with
  | ESock f _ => match v with None => Some (Some (f, Opened)) | Some _ => None end
  | EBind f _ _ _ => if own f Opened then Some (Some (f, Bound)) else None
  | EAct f | EClear f => if own f Bound then Some (Some (f, Active)) else None
  | EReg f => if own f Active then Some (Some (f, Polled)) else None
  | EUnreg f => if own f Polled then Some (Some (f, Active)) else None
  | EClose f => if mine f && negb (own f Polled) then Some None else None
  | EData f _ _ _ _ | EBlock f _ | ESign f _ _ _ _ _ | ELapdWr f _ | ESa f _ => if mine f then Some v else None
  | _ => Some v
  end.
Fixpoint life (v : option (nat * stage)) (es : list eff) : option (option (nat * stage)) :=
  match es with [] => Some v | e :: r => match advance v e with Some v => life v r | None => None end end.
(** sockets opened, of all timeslots and the line *)
Definition socks (es : list leff) : list nat := flat_map (fun e => match e with LTs _ (ESock f _) | LDummy f => [f] | _ => [] end) es.
(** the socket that is open for the D-channel's sake *)
Definition advance_dummy (v : option nat) (e : leff) : option (option nat) :=
  match e with
  | LDummy f => match v with None => Some (Some f) | Some _ => None end
  | LDummyBind f _ => if match v with Some g => Nat.eqb f g | None => false end then Some v else None
  | LDummyClose f => if match v with Some g => Nat.eqb f g | None => false end then Some None else None
  | _ => Some v
  end.
Fixpoint life_dummy (v : option nat) (es : list leff) : option (option nat) :=
  match es with [] => Some v | e :: r => match advance_dummy v e with Some v => life_dummy v r | None => None end end.

(** messages of link [i] (0: of the raw or HDLC queue) in the order taken, not yet handed over;
    None: handed over out of order, twice, or never taken *)
Definition passes (i : nat) (q : list (list Z)) (e : eff) : option (list (list Z)) :=
  let pop j m := if Nat.eqb j i then match q with x :: r => if list_eq_dec Z.eq_dec x m then Some r else None | [] => None end else Some q in
  match e with
  | EAcc j m => if Nat.eqb j i then Some (q ++ [m]) else Some q
  | EData _ (Msg j) m _ _ | ESign _ j _ _ _ m | ELapdTx j m | EStray (Msg j) m | EDrop (Msg j) m => pop j m
  | EUnlink j => if Nat.eqb j i then Some [] else Some q
  | EConf _ => Some []
  | _ => Some q
  end.
Fixpoint waiting (i : nat) (q : list (list Z)) (es : list eff) : option (list (list Z)) :=
  match es with [] => Some q | e :: r => match passes i q e with Some q => waiting i q r | None => None end end.
Fixpoint queue (i : nat) (q : list lnk) : list (list Z) := match q with [] => [] | a :: r => if Nat.eqb (l_id a) i then l_q a else queue i r end.

(** a frame written in full and not confirmed; None: another written while one is in flight *)
Definition flies (b : bool) (e : eff) : option bool :=
  match e with
  | EData _ _ _ _ true => if b then None else Some true
  | EData _ _ _ _ false => if b then None else Some false
  | ECnf | EClose _ => Some false
  | _ => Some b
  end.
Fixpoint flight (b : bool) (es : list eff) : option bool :=
  match es with [] => Some b | e :: r => match flies b e with Some b => flight b r | None => None end end.

(** TEI, SAPI and channel of link [i]; None: a message sent with another address *)
Definition address := option (Z * Z * Z).
Definition addresses (i : nat) (v : address) (e : eff) : option address :=
  match e with
  | ELink j tei sapi => if Nat.eqb j i then Some (Some (tei, sapi, 0%Z)) else Some v
  | EChan j c => if Nat.eqb j i then match v with Some (tei, sapi, _) => Some (Some (tei, sapi, c)) | None => None end else Some v
  | EUnlink j => if Nat.eqb j i then Some None else Some v
  | EConf _ => Some None
  | ESign _ j c sapi tei _ => if Nat.eqb j i then match v with Some (a, b, d) => if Z.eqb a tei && Z.eqb b sapi && Z.eqb d c then Some v else None | None => None end else Some v
  | _ => Some v
  end.
Fixpoint addr (i : nat) (v : address) (es : list eff) : option address :=
  match es with [] => Some v | e :: r => match addresses i v e with Some v => addr i v r | None => None end end.

(** ** Alarms.  [alarms]: which of loss of signal, alarm indication, remote alarm was signalled
    last; [raised]: whether the line's alarm was signalled; None: raised or cleared twice *)
Record defects := mkD { d_los : bool; d_ais : bool; d_rai : bool }.
Definition defect (d : defects) (e : leff) : defects :=
  match e with
  | LSig (SLos b) => mkD b (d_ais d) (d_rai d) | LSig (SAis b) => mkD (d_los d) b (d_rai d) | LSig (SRai b) => mkD (d_los d) (d_ais d) b
  | _ => d
  end.
Definition alarms (es : list leff) : defects := fold_left defect es (mkD false false false).
Definition any (d : defects) : bool := d_los d || d_ais d || d_rai d.
Fixpoint raised (b : bool) (es : list leff) : option bool :=
  match es with
  | [] => Some b
  | LSig (SAlarm c) :: r => if Bool.eqb b c then None else raised c r
  | _ :: r => raised b r
  end.
(** what an indication of the card says *)
Inductive says : Z -> sig -> Prop :=
| SaysNoLos : says 16 (SLos false) | SaysLos : says 17 (SLos true) | SaysNoAis : says 18 (SAis false) | SaysAis : says 19 (SAis true)
| SaysNoRai : says 20 (SRai false) | SaysRai : says 21 (SRai true) | SaysSa b : (0 <= b < 256)%Z -> says (256 + b) (SSa b).

(** ** What is asked of the kernel *)
Definition obliging (k : kern) : Prop := forall n, k_card k n = None /\ k_sock k n = true /\ k_bind k n = true /\ k_clear k n = true /\ k_reg k n = true.
Definition failure (k : kern) (n : nat) : Prop := k_card k n <> None \/ k_sock k n = false \/ k_bind k n = false \/ k_clear k n = false \/ k_reg k n = false.
(** ... and of the application: after timeslots were configured it updates the line before it
    sends and before it returns to the select loop *)
Fixpoint settled (dirty : bool) (cs : list cmd) : bool :=
  match cs with
  | [] => negb dirty
  | CConfig _ _ :: r => settled true r
  | CUpdate :: r => settled false r
  | CSend _ _ _ :: r => negb dirty && settled dirty r
  | _ :: r => settled dirty r
  end.
(** ... and the timeslot whose receive callback is running is not configured in it *)
Definition avoids (t : nat) (c : cmd) : bool := match c with CConfig t' _ => negb (Nat.eqb t' t) | _ => true end.
Definition polite (v : ev) : bool := match v with App cs => settled false cs | Ready t _ _ act => settled false act && forallb (avoids t) act | _ => true end.

(** ** Receiving *)
Definition reversed (a b : Z) : Prop := (0 <= b < 256 /\ forall i, 0 <= i < 8 -> Z.testbit b i = Z.testbit a (7 - i))%Z.
(** a reception of timeslot [t] *)
Definition reception (e : leff) : bool := match e with LTs _ (ERx _ _ _) | LTs _ (ELapdRx _) | LTs _ (EUp _ _) => true | _ => false end.
(** the oldest link with this address *)
Definition oldest (tei sapi : Z) (q : list lnk) (a : lnk) : Prop := exists b c, q = b ++ a :: c /\ l_tei a = tei /\ l_sapi a = sapi /\ Forall (fun x => l_tei x <> tei \/ l_sapi x <> sapi) b.
Definition no_link (tei sapi : Z) (q : list lnk) : Prop := Forall (fun x => l_tei x <> tei \/ l_sapi x <> sapi) q.
(** what a datagram gives the layers above *)
Definition delivered (ul : bool) (ty : ts_type) (q : list lnk) (r : rd) (es : list eff) : Prop :=
  match ty, r with
  | TS_SIGN, RDlData tei sapi o => es = if ul then [] else [ERx tei sapi o]
  | TS_SIGN, RPhData o => es = if ul then [ELapdRx o] else []
  | TS_SIGN, REstab _ tei sapi => (forall a, oldest tei sapi q a -> es = [EUp (l_id a) true]) /\ (no_link tei sapi q -> es = [])
  | TS_SIGN, RRelease tei sapi => (forall a, oldest tei sapi q a -> es = [EUp (l_id a) false]) /\ (no_link tei sapi q -> es = [])
  | TS_RAW, RPhData o => exists o', Forall2 reversed o o' /\ es = [ERx 0 0 o']
  | TS_TRAU, RPhData o | TS_HDLC, RPhData o => es = [ERx 0 0 o]
  | _, _ => es = []
  end.
(** waiting raw and HDLC messages will be asked for: when there is room, or with the confirmation *)
Definition asked (s : st) (t : nat) : Prop := match m_type (tsl s t) with TS_RAW | TS_HDLC => queue 0 (m_q (tsl s t)) <> [] -> m_wr (tsl s t) = true \/ m_unc (tsl s t) = true | _ => True end.

(** ** What a timeslot configured as [ty] hands to the kernel and to the layers above: nothing of
    another kind, and nothing to a descriptor that is not its own *)
Definition content (ul : bool) (ty : ts_type) (e : eff) : Prop :=
  match e with
  | EData _ w m o _ => (exists i, w = Msg i) /\ (ty = TS_RAW /\ Forall2 reversed m o \/ ty = TS_HDLC /\ o = m)
  | EBlock _ _ => ty = TS_TRAU
  | ESign _ _ _ _ _ _ => ty = TS_SIGN /\ ul = false
  | ELapdWr _ _ | ELapdTx _ _ | ELapdRx _ => ty = TS_SIGN /\ ul = true
  | ERx tei sapi _ => ty = TS_SIGN /\ ul = false \/ (ty = TS_RAW \/ ty = TS_HDLC \/ ty = TS_TRAU) /\ tei = 0%Z /\ sapi = 0%Z
  | EUp _ _ | EChan _ _ => ty = TS_SIGN
  | ECnf => ty = TS_RAW \/ ty = TS_HDLC
  | EStray _ _ | EDrop _ _ => False
  | _ => True
  end.
Definition becomes (ty : ts_type) (e : eff) : ts_type := match e with EConf ty' => ty' | _ => ty end.
Fixpoint contents (ul : bool) (ty : ts_type) (es : list eff) : Prop :=
  match es with [] => True | e :: r => content ul ty e /\ contents ul (becomes ty e) r end.
(** writes are never short; no signalling link is taken down *)
Definition full (k : kern) : Prop := forall n, k_write k n = true.
Definition keeps_links (v : ev) : bool := let k c := match c with CUnlink _ _ => false | _ => true end in match v with App cs => forallb k cs | Ready _ _ _ act => forallb k act | _ => true end.
(** waiting signalling messages will be asked for: when there is room, or by the delay timer *)
Definition asked_sign (s : st) (t : nat) : Prop := m_type (tsl s t) = TS_SIGN -> forall i, queue i (m_q (tsl s t)) <> [] -> m_wr (tsl s t) = true \/ m_tmr (tsl s t) = true.

(** ** What a successful update does to a timeslot: nothing if it is configured as it was when
    last updated; else what was there is taken down and, unless it is unused now, a new socket
    (of a number between [n] and [n']) is set up on device [dev] as the type asks for *)
Definition closing (x : mts) : list eff := match m_fd x with Open f => (if m_reg x then [EUnreg f] else []) ++ [EClose f] | _ => [] end.
Inductive renewed (ul : bool) (dev t n n' : nat) (old new : mts) : list eff -> Prop :=
| RenSame : m_cur old = m_type old -> new = old -> renewed ul dev t n n' old new []
| RenNone : m_cur old <> TS_NONE -> m_type old = TS_NONE -> m_cur new = TS_NONE -> m_fd new = Closed -> m_reg new = false -> m_lapd new = false -> renewed ul dev t n n' old new (closing old)
| RenOpen f p c g : m_cur old <> m_type old -> m_type old <> TS_NONE -> wanted ul t (m_type old) p c g -> (n <= f < n')%nat ->
    m_cur new = m_type old -> m_fd new = Open f -> m_reg new = true -> m_unc new = false -> m_lapd new = type_eqb (m_type old) TS_SIGN && ul ->
    renewed ul dev t n n' old new (closing old ++ [ESock f p; EBind f dev c g; if g then EClear f else EAct f; EReg f]).
(** how the application has configured a timeslot *)
Definition configured (t : nat) (es : list leff) : ts_type := fold_left becomes (proj t es) TS_NONE.
(** the alarm signalled when the defects change from [d] to [d'] *)
Definition turned (d d' : defects) : list leff := if Bool.eqb (any d) (any d') then [] else [LSig (SAlarm (any d'))].
Definition rx (e : eff) : bool := match e with ERx _ _ _ | ELapdRx _ | EUp _ _ => true | _ => false end.
(** the return values of updates *)
Definition rets (es : list leff) : list Z := flat_map (fun e => match e with LRet rc => [rc] | _ => [] end) es.
Definition signal (e : leff) : bool := match e with LSig _ => true | _ => false end.
