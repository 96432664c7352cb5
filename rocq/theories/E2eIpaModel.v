(** A BTS and a BSC connected by one TCP connection of Abis over IP: IpaccessBtsModel.v and
    IpaccessModel.v (src/input/ipaccess.c), with the octet streams between them.

    TCP carries octets in order, any number at a time.  Below the read callbacks libosmocore's
    osmo_ipa_segmentation_cb (set at ipaccess.c:699, :754, :1107, :1185) collects octets until the
    3 octets of the IPA header and the length they tell are there; the message is then handed to
    ipaccess_bsc_conn_read_cb (:538) or ipaccess_bts_read_cb (:922).  Messages of the IPA CCM
    protocol (identification, ping, pong) are written by libosmocore at times of their own. *)
From Coq Require Import List Arith Bool ZArith.
From Verif Require Import Base IpaccessModel.
From Verif Require IpaccessBtsModel.
Import ListNotations.
Open Scope Z_scope.

(** libosmocore osmo_ipa_segmentation_cb: stream identifier and payload of the first message, and
    what follows it *)
Definition cut (b : list Z) : option ((Z * list Z) * list Z) :=
  match b with
  | h :: l :: p :: r =>
    let n := Z.to_nat (h * 256 + l) in
    if Nat.leb n (length r) then Some ((p, firstn n r), skipn n r) else None
  | _ => None
  end.
(** one direction: octets on their way, octets received that are not yet a message *)
Record chan := mkCh { wire : list Z; buf : list Z }.
Definition put (b : list Z) (c : chan) : chan := mkCh (wire c ++ b) (buf c).
Definition move (n : nat) (c : chan) : chan := mkCh (skipn n (wire c)) (buf c ++ firstn n (wire c)).

Record pair := mkP { bts : IpaccessBtsModel.bst; bsc : st; up : chan; dn : chan }.
(** octets written on a stream of the BTS, on a connection of the BSC *)
Definition bts_octets (x : nat) (es : list IpaccessBtsModel.beff) : list Z :=
  flat_map (fun e => match e with IpaccessBtsModel.BSend _ c b => if Nat.eqb c x then b else [] | _ => [] end) es.
Definition bsc_octets (x : nat) (es : list eff) : list Z :=
  flat_map (fun e => match e with ESend _ c b => if Nat.eqb c x then b else [] | _ => [] end) es.
Definition news {A} (old new : list A) : list A := skipn (length old) new.

Inductive pev :=
| AtBts (v : IpaccessBtsModel.ev)                  (* anything else than a message on this connection *)
| AtBsc (v : ev)
| UpCcm (m : list Z) | DnCcm (m : list Z)
| UpMove (n : nat) | DnMove (n : nat)
| UpRead (e : env) | DnRead (e : IpaccessBtsModel.env).
Definition bts_does (x : nat) (p : pair) (v : IpaccessBtsModel.ev) : option pair :=
  match IpaccessBtsModel.step (bts p) v with
  | IpaccessBtsModel.Ok s => Some (mkP s (bsc p) (put (bts_octets x (news (IpaccessBtsModel.out (bts p)) (IpaccessBtsModel.out s))) (up p)) (dn p))
  | IpaccessBtsModel.Bad _ => None
  end.
Definition bsc_does (c : nat) (p : pair) (v : ev) : option pair :=
  match step (bsc p) v with
  | Some s => Some (mkP (bts p) s (up p) (put (bsc_octets c (news (out (bsc p)) (out s))) (dn p)))
  | None => None
  end.
Definition ccm (m : list Z) : list Z := ipa_header PROTO_IPACCESS (Z.of_nat (length m)) ++ m.
(** [x]: the stream at the BTS, [c]: the connection at the BSC *)
Definition pstep (x c : nat) (p : pair) (v : pev) : option pair :=
  match v with
  | AtBts (IpaccessBtsModel.Rx _ y (Some _) as v) => if Nat.eqb y x then Some p else bts_does x p v
  | AtBts v => bts_does x p v
  | AtBsc (Rx _ y (Some _) as v) => if Nat.eqb y c then Some p else bsc_does c p v
  | AtBsc v => bsc_does c p v
  | UpCcm m => Some (mkP (bts p) (bsc p) (put (ccm m) (up p)) (dn p))
  | DnCcm m => Some (mkP (bts p) (bsc p) (up p) (put (ccm m) (dn p)))
  | UpMove n => Some (mkP (bts p) (bsc p) (move n (up p)) (dn p))
  | DnMove n => Some (mkP (bts p) (bsc p) (up p) (move n (dn p)))
  | UpRead e =>
    match cut (buf (up p)) with
    | Some (f, r) => bsc_does c (mkP (bts p) (bsc p) (mkCh (wire (up p)) r) (dn p)) (Rx e c (Some f))
    | None => Some p
    end
  | DnRead e =>
    match cut (buf (dn p)) with
    | Some (f, r) => bts_does x (mkP (bts p) (bsc p) (up p) (mkCh (wire (dn p)) r)) (IpaccessBtsModel.Rx e x (Some f))
    | None => Some p
    end
  end.
Fixpoint prun (x c : nat) (p : pair) (vs : list pev) : option pair :=
  match vs with [] => Some p | v :: r => match pstep x c p v with Some q => prun x c q r | None => None end end.
