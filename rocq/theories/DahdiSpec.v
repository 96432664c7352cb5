(** Vocabulary for the DAHDI driver (C60, C61): the numbering of channels, the life of a
    timeslot's descriptor and the order of its messages as seen in the trace of effects, and
    what is asked of kernel and application. *)
From Coq Require Import List Arith Bool ZArith.
From Verif Require Import Base E1Model DahdiModel.
Import ListNotations.

(** ** Channels.  [r i]: channels of the span at position [i] (its number less one), None: no
    such span *)
Definition report := nat -> option nat.
Fixpoint total (r : report) (p : nat) : nat := match p with 0%nat => 0%nat | S p => (total r p + match r p with Some n => n | None => 0 end)%nat end.
(** timeslot [t] (from 0) of the span at position [p] is this channel *)
Definition channel (r : report) (p t c : nat) : Prop := exists n, r p = Some n /\ (t < n)%nat /\ c = (1 + total r p + t)%nat.

(** ** Effects of one timeslot *)
Definition slot_of (e : eff) : option (nat * nat) :=
  match e with
  | DOpen l t _ _ | DClose l t _ | DReg l t _ | DUnreg l t _ | DMode l t _ _ | DSend l t _ _ _ _ _ | DBlock l t _ _ _ _ | DLapdWr l t _ _ _ _
  | DStray l t _ _ | DDrop l t _ _ | DMuxOut l t _ | DAcc l t _ _ | DLink l t _ | DUnlink l t _ | DConf l t _ | DRx l t _ | DLapdRx l t _ | DLapdTx l t _ _
  | DSig l t _ | DCtr l t _ => Some (l, t)
  | DUpdate _ | DRet _ _ => None
  end.
Definition mine (l t : nat) (e : eff) : bool := match slot_of e with Some (a, b) => Nat.eqb a l && Nat.eqb b t | None => false end.
(** the descriptor a timeslot has, and whether it is in the select loop; None: an effect out
    of order: two descriptors at a time, one closed, set up or registered that it does not
    have, set up or closed while in the select loop, written to when not open *)
Definition advance (v : option nat * bool) (e : eff) : option (option nat * bool) :=
  let own f := match fst v with Some g => Nat.eqb f g | None => false end in
  match e with
  | DOpen _ _ _ f => match fst v with None => Some (Some f, false) | Some _ => None end
  | DReg _ _ f => if own f && negb (snd v) then Some (fst v, true) else None
  | DUnreg _ _ f => if own f && snd v then Some (fst v, false) else None
  | DClose _ _ f => if own f && negb (snd v) then Some (None, false) else None
  | DMode _ _ f _ => if own f && negb (snd v) then Some v else None
  | DSend _ _ _ f _ _ _ | DBlock _ _ f _ _ _ | DLapdWr _ _ f _ _ _ => if own f then Some v else None
  | _ => Some v
  end.
Fixpoint life (l t : nat) (v : option nat * bool) (es : list eff) : option (option nat * bool) :=
  match es with
  | [] => Some v
  | e :: r => if mine l t e then match advance v e with Some v => life l t v r | None => None end else life l t v r
  end.
(** descriptors opened *)
Definition opens (es : list eff) : list nat := flat_map (fun e => match e with DOpen _ _ _ f => [f] | _ => [] end) es.

(** messages of queue [i] (a signalling link; 0: the raw or HDLC queue) in the order taken,
    not yet handed over; None: handed over out of order, twice, or never taken *)
Definition passes (i : nat) (q : list (list Z)) (e : eff) : option (list (list Z)) :=
  let pop j m := if Nat.eqb j i then match q with x :: r => if list_eq_dec Z.eq_dec x m then Some r else None | [] => None end else Some q in
  match e with
  | DAcc _ _ j m => if Nat.eqb j i then Some (q ++ [m]) else Some q
  | DSend _ _ j _ m _ _ | DLapdTx _ _ j m | DStray _ _ (Some j) m | DDrop _ _ (Some j) m => pop j m
  | DUnlink _ _ j => if Nat.eqb j i then Some [] else Some q
  | DConf _ _ _ => Some []
  | _ => Some q
  end.
Fixpoint waiting (l t i : nat) (q : list (list Z)) (es : list eff) : option (list (list Z)) :=
  match es with
  | [] => Some q
  | e :: r => if mine l t e then match passes i q e with Some q => waiting l t i q r | None => None end else waiting l t i q r
  end.

(** messages waiting in queue [i] of a timeslot *)
Fixpoint queue (i : nat) (q : queues) : list (list Z) := match q with [] => [] | (j, ms) :: r => if Nat.eqb j i then ms else queue i r end.
(** ** What is asked of the kernel: descriptor 0 is in use; nothing fails; the spans at the
    positions [ps] exist and have [n] channels, always *)
Definition no_zero (k : kern) : Prop := forall n, k_open k n <> OpZero.
Definition obliging (k : kern) : Prop := forall n, k_open k n = OpOk /\ k_buf k n = true /\ k_reg k n = true /\ k_ctl k n = true.
Definition steady (k : kern) (ps : list nat) (n : nat) : Prop := (n <= 32)%nat /\ forall p, In p ps -> (S p < k_max k)%nat /\ forall m, k_span k m (S p) = Some n.

(** ** What is asked of the application: only these ports; a line is updated after timeslots
    of it were configured, before returning to the select loop ([dirty]: lines configured and
    not yet updated) *)
Definition port_in (ps : list nat) (p : nat) : bool := existsb (Nat.eqb p) ps.
Fixpoint settled (ps : list nat) (dirty : list nat) (cs : list cmd) : bool :=
  match cs with
  | [] => match dirty with [] => true | _ => false end
  | CConfig l _ _ :: r => settled ps (l :: dirty) r
  | CUpdate l :: r => settled ps (filter (fun x => negb (Nat.eqb x l)) dirty) r
  | CPort _ p :: r => port_in ps p && settled ps dirty r
  | _ :: r => settled ps dirty r
  end.
(** ... and the timeslot whose receive callback is running is not configured in it *)
Definition avoids (l t : nat) (c : cmd) : bool := match c with CConfig l' t' _ => negb (Nat.eqb l' l && Nat.eqb t' t) | _ => true end.
Definition polite (ps : list nat) (v : ev) : bool :=
  match v with
  | Create _ p => port_in ps p
  | App cs => settled ps [] cs
  | Ready l t _ _ _ act => settled ps [] act && forallb (avoids l t) act
  | _ => true
  end.

(** no line is moved to another port *)
Definition keeps_port (c : cmd) : bool := match c with CPort _ _ => false | _ => true end.
Definition unmoved (v : ev) : bool := match v with App cs => forallb keeps_port cs | Ready _ _ _ _ _ act => forallb keeps_port act | _ => true end.

(** bit order reversed *)
Definition reversed (a b : Z) : Prop := (0 <= b < 256 /\ forall i, 0 <= i < 8 -> Z.testbit b i = Z.testbit a (7 - i))%Z.
(** what reading [o] from a timeslot gives the layers above *)
Definition delivered (ty : ts_type) (l t : nat) (o : list Z) (es : list eff) : Prop :=
  match ty with
  | TS_SIGN => (forall m a b, o = m ++ [a; b] -> (2 <= length m)%nat -> es = [DLapdRx l t m]) /\ ((length o <= 3)%nat -> es = [])
  | TS_HDLC => (forall m a b, o = m ++ [a; b] -> (2 <= length m)%nat -> es = [DRx l t m]) /\ ((length o <= 3)%nat -> es = [])
  | TS_RAW | TS_I460 => (length o = 160%nat -> es = [DRx l t o]) /\ (length o <> 160%nat -> es = [])
  | TS_TRAU => (length o = 160%nat -> exists o', Forall2 reversed o o' /\ es = [DRx l t o']) /\ (length o <> 160%nat -> es = [])
  | TS_NONE => es = []
  end.
(** largest read of a timeslot of each type *)
Definition buffer (ty : ts_type) : nat := match ty with TS_SIGN | TS_HDLC => 284 | _ => 160 end%nat.
Definition reception (e : eff) : bool := match e with DRx _ _ _ | DLapdRx _ _ _ => true | _ => false end.
(** an alarm signal for timeslot and an event counted *)
Definition told (v : option event) (l t : nat) : list eff :=
  match v with
  | Some EvAlarm => [DSig l t true; DCtr l t CtrAlarm]
  | Some EvNoAlarm => [DSig l t false]
  | Some EvAbort => [DCtr l t CtrAbort]
  | Some EvOverrun => [DCtr l t CtrOverr]
  | Some EvBadFcs => [DCtr l t CtrBadFcs]
  | Some EvRemoved => [DCtr l t CtrRemoved]
  | _ => []
  end.
(** no line update, no link taken down *)
Definition plain_cmds (cs : list cmd) : bool := forallb (fun c => match c with CUpdate _ | CUnlink _ _ _ => false | _ => true end) cs.
Definition calm (v : ev) : bool := match v with App cs => plain_cmds cs | Ready _ _ _ _ _ act => plain_cmds act | _ => true end.
(** waiting messages will be asked for: the select loop looks for room, or the delay timer runs *)
Definition asked (s : st) (l t : nat) : Prop := (forall i m q, In (i, m :: q) (e_q (tsl s l t)) -> e_wr (tsl s l t) = true \/ e_tmr (tsl s l t) = true).
