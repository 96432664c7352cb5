(** Two ends of an IPA connection, each with the keep-alive of ipa_keepalive.c (KeepaliveModel.v)
    and the CCM part of the receivers of ipaccess.c and ipa.c, and the connection between them.

    Time is in any unit; the interval and the waiting time count in the same unit.  What is on
    its way (in the send queue, in the network, in the receive buffer of the other end) is a list;
    messages arrive in any order (the PING goes through the send queue of the stream, the PONG is
    written by libosmocore's ipa_ccm_send_pong directly).
    An end whose keep-alive instance was terminated has closed its connection
    (ipaccess.c:98-103, :132-145) and receives nothing. *)
From Coq Require Import List Arith Lia Bool ZArith.
From Verif Require Import Base KeepaliveModel.
Import ListNotations.
Open Scope Z_scope.

(** a message on its way: to which end, octets with IPA header, when it was sent *)
Record msg := mkM { m_to : bool; m_oct : list Z; m_at : Z }.
Record sys := mkSys { ka0 : option ka; ka1 : option ka; wire : list msg }.
Definition kaof (s : sys) (x : bool) : option ka := if x then ka1 s else ka0 s.
Definition setka (s : sys) (x : bool) (k : option ka) : sys := if x then mkSys (ka0 s) k (wire s) else mkSys k (ka1 s) (wire s).
Definition setwire (s : sys) (w : list msg) : sys := mkSys (ka0 s) (ka1 s) w.

(** libosmocore ipa_ccm_send_pong: type IPAC_MSGT_PONG = 1 with header *)
Definition pong_msg : list Z := [0; 1; 254; 1].
(** the protocol is IPAC_PROTO_IPACCESS and the first octet the message type: ipaccess.c:440-460,
    :785, ipa.c:494 *)
Definition ccm_type (o : list Z) : option Z :=
  match o with _ :: _ :: p :: t :: _ => if p =? 254 then Some t else None | _ => None end.

(** ipa_keepalive_fsm_start / _stop by the user of the connection; the timer *)
Inductive ucall := UStart | UStop | UExpire.
Definition kev_of (u : ucall) : kev := match u with UStart => Start | UStop => Stop | UExpire => Expire end.
(** [TApp x o]: end [x] sends some other message *)
Inductive tev := TCall (x : bool) (u : ucall) | TDeliver (i : nat) | TApp (x : bool) (o : list Z) | TPass.
Inductive sout := OKa (x : bool) (o : kout) | ORx (x : bool) (t : Z) (o : list Z).

(** PINGs handed to the sender are put on their way *)
Definition sent (x : bool) (o : list kout) : list msg :=
  flat_map (fun e => match e with Ping t _ m => [mkM (negb x) m t] | _ => [] end) o.
Definition ka_call (c : cfg) (s : sys) (x : bool) (t : Z) (e : kev) : option (sys * list sout) :=
  do (k, o) <- kstep c (kaof s x) (t, e);
  let s := setka s x k in
  Some (setwire s (wire s ++ sent x o), map (OKa x) o).
Fixpoint remove_nth {A} (i : nat) (l : list A) : list A :=
  match l with [] => [] | a :: r => match i with O => r | S i => a :: remove_nth i r end end.
(** reception, ipaccess.c:213-247 ipaccess_bsc_rcvmsg, :775-801 ipaccess_bts_handle_ccm, :860-885:
    a PONG is told to the keep-alive; libosmocore's ipa_ccm_rcvmsg_base answers a PING *)
Definition rcv (c : cfg) (s : sys) (x : bool) (t : Z) (o : list Z) : option (sys * list sout) :=
  match kaof s x with
  | None => Some (s, [])
  | Some _ =>
    match ccm_type o with
    | Some 1 => do (s, l) <- ka_call c s x t Pong; Some (s, ORx x t o :: l)
    | Some 0 => Some (setwire s (wire s ++ [mkM (negb x) pong_msg t]), [ORx x t o])
    | _ => Some (s, [ORx x t o])
    end
  end.
Definition step (c : bool -> cfg) (s : sys) (t : Z) (e : tev) : option (sys * list sout) :=
  match e with
  | TCall x u => ka_call (c x) s x t (kev_of u)
  | TDeliver i =>
    match nth_error (wire s) i with
    | None => Some (s, [])
    | Some m => rcv (c (m_to m)) (setwire s (remove_nth i (wire s))) (m_to m) t (m_oct m)
    end
  | TApp x o => match ccm_type o with Some 0 | Some 1 => Some (s, []) | _ => Some (setwire s (wire s ++ [mkM (negb x) o t]), []) end
  | TPass => Some (s, [])
  end.
(** two fresh instances (ipaccess.c:105-124, :147-165) *)
Definition sys0 : sys := mkSys (Some ka_alloc) (Some ka_alloc) [].
