(** Vocabulary for the osmo-e1d driver (C57, C58): life of a descriptor as seen in the trace
    of effects, and what is asked of daemon and application. *)
From Coq Require Import List Arith Bool ZArith.
From Verif Require Import Base E1Model E1dModel.
Import ListNotations.

(** phase of descriptor [f]: 0 unknown, 1 open, 2 open and in the select loop, 3 closed;
    None: an effect out of order *)
Definition advance (f p : nat) (e : deff) : option nat :=
  match e with
  | DOpen _ _ _ g => if Nat.eqb g f then (if Nat.eqb p 0 then Some 1 else None) else Some p
  | DReg g => if Nat.eqb g f then (if Nat.eqb p 1 then Some 2 else None) else Some p
  | DUnreg g => if Nat.eqb g f then (if Nat.eqb p 2 then Some 1 else None) else Some p
  | DClose g => if Nat.eqb g f then (if Nat.eqb p 1 then Some 3 else None) else Some p
  | DSend _ _ g _ _ | DTrau _ _ g _ _ | DLapdWr _ _ g _ _ => if Nat.eqb g f then (if Nat.eqb p 1 || Nat.eqb p 2 then Some p else None) else Some p
  | _ => Some p
  end%nat.
Fixpoint phase (f p : nat) (es : list deff) : option nat :=
  match es with [] => Some p | e :: r => match advance f p e with Some p => phase f p r | None => None end end.

(** on whose behalf a descriptor is written to *)
Definition sender (e : deff) : option (nat * nat * nat) := match e with DSend l t f _ _ | DTrau l t f _ _ | DLapdWr l t f _ _ => Some (l, t, f) | _ => None end.
(** messages of a timeslot in the order taken, not yet handed over, [q] before; None: handed
    over out of order, twice, or never taken *)
Definition passes (l t : nat) (q : list (list Z)) (e : deff) : option (list (list Z)) :=
  let mine a b := Nat.eqb a l && Nat.eqb b t in
  let pop m := match q with x :: r => if list_eq_dec Z.eq_dec x m then Some r else None | [] => None end in
  match e with
  | DAcc a b m => if mine a b then Some (q ++ [m]) else Some q
  | DFlush a b => if mine a b then Some [] else Some q
  | DSend a b _ m _ | DDrop a b m | DLapdTx a b m => if mine a b then pop m else Some q
  | _ => Some q
  end.
Fixpoint waiting (l t : nat) (q : list (list Z)) (es : list deff) : option (list (list Z)) :=
  match es with [] => Some q | e :: r => match passes l t q e with Some q => waiting l t q r | None => None end end.

(** the daemon reports all timeslots of a line; registering always succeeds *)
Definition wide (d : daemon) : Prop := forall k i, d_query d k = Some i -> (32 <= length i)%nat.
Definition registers (d : daemon) : Prop := forall k, d_reg d k = true.
(** the daemon is there and grants everything from time [k] on *)
Definition healthy (d : daemon) (k : nat) : Prop :=
  forall j, (k <= j)%nat -> d_client d j = true /\ (exists i, d_query d j = Some i /\ (32 <= length i)%nat) /\ d_open d j = true /\ d_reg d j = true.
(** mode a timeslot of this type needs *)
Definition needs (ty : ts_type) (m : mode) : Prop :=
  match ty with TS_SIGN | TS_HDLC => m = HDLCFCS | TS_TRAU | TS_I460 | TS_RAW => m = RAW | TS_NONE => False end.

(** the application updates a line after configuring timeslots of it, before it returns to
    the select loop ([dirty]: lines configured and not yet updated) *)
Fixpoint settled (dirty : list nat) (cs : list cmd) : bool :=
  match cs with
  | [] => match dirty with [] => true | _ => false end
  | CConfig l _ _ :: r => settled (l :: dirty) r
  | CUpdate l :: r => settled (filter (fun x => negb (Nat.eqb x l)) dirty) r
  | CSend _ _ _ :: r => settled dirty r
  end.
(** ... and does not configure the timeslot whose receive callback is running *)
Definition avoids (l t : nat) (c : cmd) : bool := match c with CConfig l' t' _ => negb (Nat.eqb l' l && Nat.eqb t' t) | _ => true end.
Definition polite (v : ev) : bool :=
  match v with
  | App cs => settled [] cs
  | Ready l t _ _ act => settled [] act && forallb (avoids l t) act
  | _ => true
  end.

(** largest read of a timeslot of each type *)
Definition buffer (ty : ts_type) : nat := match ty with TS_SIGN => 284 | TS_HDLC => 4096 | _ => 160 end%nat.
(** bit order reversed *)
Definition reversed (a b : Z) : Prop := (0 <= b < 256 /\ forall i, 0 <= i < 8 -> Z.testbit b i = Z.testbit a (7 - i))%Z.
(** what reading [o] from a timeslot gives the layers above *)
Definition delivered (ty : ts_type) (l t : nat) (o : list Z) (es : list deff) : Prop :=
  match ty with
  | TS_SIGN => es = [DLapdRx l t o]
  | TS_HDLC => es = [DRx l t o]
  | TS_RAW => (length o = 160%nat -> es = [DRx l t o]) /\ (length o <> 160%nat -> es = [])
  | TS_TRAU => (length o = 160%nat -> exists o', Forall2 reversed o o' /\ es = [DRx l t o']) /\ (length o <> 160%nat -> es = [])
  | TS_I460 | TS_NONE => es = []
  end.
Definition reception (e : deff) : bool := match e with DRx _ _ _ | DLapdRx _ _ _ => true | _ => false end.
(** no line update, no reconnection *)
Definition no_update (cs : list cmd) : bool := forallb (fun c => match c with CUpdate _ => false | _ => true end) cs.
Definition calm (v : ev) : bool := match v with App cs => no_update cs | Ready _ _ _ _ act => no_update act | Retry => false | _ => true end.
(** a waiting message will be asked for: the select loop looks for room, or the delay timer runs *)
Definition asked (s : st) (l t : nat) : Prop := fsm s = Some true -> e_q (tsl s l t) = [] \/ e_wr (tsl s l t) = true \/ e_tmr (tsl s l t) = true.
