(** Vocabulary for the ip.access BTS side (C43, C55): the life of a stream as seen in the
    trace of effects. *)
From Coq Require Import List Arith Bool ZArith.
From Verif Require Import Base IpaccessBtsModel.
Import ListNotations.

(** phase of stream [c]: 0 unknown, 1 open, 2 closed, 3 freed; None: an effect out of order *)
Definition advance (c : nat) (p : nat) (e : beff) : option nat :=
  match e with
  | BConnect d _ _ _ => if Nat.eqb d c then (if Nat.eqb p 0 then Some 1 else None) else Some p
  | BClose d => if Nat.eqb d c then (if Nat.eqb p 1 then Some 2 else None) else Some p
  | BFree d => if Nat.eqb d c then (if Nat.eqb p 2 then Some 3 else None) else Some p
  | BSend _ d _ => if Nat.eqb d c then (if Nat.eqb p 1 || Nat.eqb p 2 then Some p else None) else Some p
  | BIdResp d _ | BIdAck d => if Nat.eqb d c then (if Nat.eqb p 1 then Some p else None) else Some p
  | _ => Some p
  end%nat.
Fixpoint phase (c : nat) (p : nat) (es : list beff) : option nat :=
  match es with [] => Some p | e :: r => match advance c p e with Some p => phase c p r | None => None end end.

(** stream [c] was opened for timeslot [t] *)
Definition told (c t : nat) (es : list beff) : Prop := exists addr port, In (BConnect c t addr port) es.
(** the TRX a stream of timeslot [t] is for: OML (timeslot 0) identifies itself as TRX 0 *)
Definition trx_of (t : nat) : Z := match t with O => 0%Z | S n => Z.of_nat n end.

(** what the application may not do in sign_link_down: open streams *)
Fixpoint calm (c : ucmd) : bool :=
  match c with
  | UConnect _ _ _ _ _ | UUpdate _ _ _ => false
  | UDestroy _ d | UClose _ d => forallb calm d
  | _ => true
  end.
(** ... at any depth *)
Definition orderly (c : ucmd) : bool :=
  match c with
  | UConnect _ _ _ _ d | UUpdate _ _ d | UDestroy _ d | UClose _ d => forallb calm d
  | _ => true
  end.
Definition orderly_ev (v : ev) : bool :=
  match v with
  | App c => orderly c
  | Connected _ => true
  | Lost _ d | KaTimeout _ d => forallb calm d
  | Rx e _ _ => forallb orderly (e_up e) && forallb orderly (e_act e) && forallb calm (e_down e)
  end.
(** no TRX number out of range, at any depth *)
Fixpoint no_big (c : ucmd) : bool :=
  match c with
  | UConnect trx _ _ _ d => Nat.ltb trx 31 && forallb no_big d
  | UUpdate _ _ d | UDestroy _ d | UClose _ d => forallb no_big d
  | _ => true
  end.
Definition no_big_ev (v : ev) : bool :=
  match v with
  | App c => no_big c
  | Connected _ => true
  | Lost _ d | KaTimeout _ d => forallb no_big d
  | Rx e _ _ => forallb no_big (e_up e) && forallb no_big (e_act e) && forallb no_big (e_down e)
  end.
(** the peer sends CCM messages with at least a message type *)
Definition typed (v : ev) : bool :=
  match v with Rx _ _ (Some (proto, [])) => negb (proto =? 0xfe)%Z | _ => true end.
(** IPA framing: 16-bit length, stream identifier (the link's TEI), the message *)
Definition framed (tei : Z) (m : list Z) : list Z := ([Z.of_nat (length m) / 256 mod 256; Z.of_nat (length m) mod 256; tei] ++ m)%Z.
