(** src/input/ipa.c, client connections made with a write_cb of the application's own (IpaModel.v
    has the default one).  The rest of the connection is IpaModel.v's. *)
From Coq Require Import List Arith Bool ZArith.
From Verif Require Import Base IpaModel.
Import ListNotations.
Open Scope Z_scope.

(** what the application does inside its write_cb: calls of the API; takes the first message off
    link->tx_queue; osmo_fd_write_disable(link->ofd) *)
Inductive wact := WAct (a : act) | WTake | WOff.
Inductive wout := Lib (o : out) | Asked (* write_cb is called *) | Took (m : msg).
Definition wact_do (c : client) (a : wact) : option (client * list wout) :=
  match a with
  | WAct a => do x <- client_act c a; Some (fst x, map Lib (snd x))
  | WTake => if negb (c_alive c) then None else
             match c_q c with [] => Some (c, [])
             | m :: q => Some (mkC (c_alive c) (c_fd c) (c_conn c) (c_wr c) (c_timer c) q, [Took m]) end
  | WOff => if negb (c_alive c) then None else
            Some (mkC (c_alive c) (c_fd c) (c_conn c) false (c_timer c) (c_q c), [])
  end.
Fixpoint wacts_do (c : client) (l : list wact) : option (client * list wout) :=
  match l with
  | [] => Some (c, [])
  | a :: r => do x <- wact_do c a; do y <- wacts_do (fst x) r; Some (fst y, snd x ++ snd y)
  end.
(** ipa.c:84-88 ipa_client_write with :230-233 *)
Definition write (c : client) (w : list wact) : option (client * list wout) :=
  if negb (c_alive c) then None else do y <- wacts_do c w; Some (fst y, Asked :: snd y).
(** ipa.c:120-165 ipa_client_fd_cb *)
Definition fd_cb (c : client) (rd wr soerr : bool) (r : recv_res) (ra : list act) (rret : Z) (w : list wact) (u : list act) : option (client * list wout) :=
  if negb (c_fd c) then Some (c, []) else
  let wr := wr && c_wr c in
  if negb (rd || wr) then Some (c, []) else
  if negb (c_alive c) then None else
  if negb (c_conn c) then
    if soerr then do y <- ipa_connect_failure c u; Some (fst y, map Lib (snd y))
    else do y <- client_acts (mkC (c_alive c) (c_fd c) true false false (c_q c)) u; Some (fst y, Lib Up :: map Lib (snd y))
  else
    do x <- (if rd then ipa_client_read c r ra rret u else Some (c, [], 0));
    let '(c, o, ret) := x in
    if negb (ret =? EBADF) && wr then do y <- write c w; Some (fst y, map Lib o ++ snd y)
    else Some (c, map Lib o).
Inductive wop := WCall (l : list act) | WFd (rd wr soerr : bool) (r : recv_res) (ra : list act) (rret : Z) (w : list wact) (u : list act) | WTimer (u : list act).
Definition wstep (c : client) (o : wop) : option (client * list wout) :=
  match o with
  | WCall l => do y <- client_acts c l; Some (fst y, map Lib (snd y))
  | WFd rd wr e r ra rret w u => fd_cb c rd wr e r ra rret w u
  | WTimer u => do y <- ipa_connect_timeout_cb c u; Some (fst y, map Lib (snd y))
  end.
Fixpoint wrun (c : client) (ops : list wop) : option (client * list wout) :=
  match ops with
  | [] => Some (c, [])
  | o :: r => do x <- wstep c o; do y <- wrun (fst x) r; Some (fst y, snd x ++ snd y)
  end.
