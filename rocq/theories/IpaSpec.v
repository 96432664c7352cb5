(** Specification side of C41, C42: what an observer of the callbacks, the socket
    calls and the API calls can say. *)
From Coq Require Import List Arith Bool ZArith.
From Verif Require Import Base IpaModel.
Import ListNotations.
Open Scope Z_scope.

(** messages accepted for transmission; given to send() or freed by clearing *)
Definition accepted (l : list out) : list msg := flat_map (fun o => match o with Acc m => [m] | _ => [] end) l.
Definition removed (l : list out) : list msg :=
  flat_map (fun o => match o with Tried m _ => [m] | Cleared ms => ms | _ => [] end) l.
Definition tried (l : list out) : list msg := flat_map (fun o => match o with Tried m _ => [m] | _ => [] end) l.
(** octets the kernel took *)
Definition stream (l : list out) : list Z :=
  flat_map (fun o => match o with Tried m SAll => m | Tried m (SSome n) => firstn n m | _ => [] end) l.
(** the kernel took every message completely *)
Definition all_taken (l : list out) : Prop := Forall (fun o => match o with Tried _ r => r = SAll | _ => True end) l.

(** the life of a client connection as its user sees it *)
Inductive phase := Idle | JustClosed | Connecting | Connected.
Definition next (p : phase) (o : out) : option phase :=
  match p, o with
  | Idle, Opened => Some Connecting
  | Connecting, Up => Some Connected
  | (Connecting | Connected), Closed => Some JustClosed
  | JustClosed, (Down | CloseCalled) => Some Idle     (* lost, or closed by the user *)
  | Idle, CloseCalled => Some Idle
  | Connected, (Rx _ | Tried _ _) => Some Connected
  | (Idle | Connecting | Connected), (Acc _ | Cleared _ | Ret _) => Some p
  | _, _ => None
  end.
Fixpoint follow (p : phase) (l : list out) : option phase :=
  match l with [] => Some p | o :: r => do q <- next p o; follow q r end.

(** how the API must be used: a callback or caller that frees the connection closes
    it just before and touches it no more; a read callback that closes or frees it
    says so by returning -EBADF (-9); it is not freed from the callback reporting a
    failed send *)
Definition no_destroy (l : list act) : Prop := ~ In ADestroy l.
Definition acts_ok (l : list act) : Prop := no_destroy l \/ exists l', l = l' ++ [AClose; ADestroy] /\ no_destroy l'.
Definition op_ok (o : op) : Prop :=
  match o with
  | Call l => acts_ok l
  | FdEvent _ _ _ _ ra rret s u => acts_ok ra /\ acts_ok u /\ (In AClose ra -> rret = -9) /\ (s = SPipe -> no_destroy u)
  | TimerEvent u => acts_ok u
  end.
Definition is_event (o : op) : Prop := match o with Call _ => False | _ => True end.
(** the socket is writable and takes everything; nothing else happens *)
Definition writable : op := FdEvent false true false RAgain [] 0 SAll [].

(** server connection *)
Definition sacts_ok (l : list sact) : Prop := ~ In SDestroy l \/ exists l', l = l' ++ [SDestroy] /\ ~ In SDestroy l'.
Definition sop_ok (o : sop) : Prop :=
  match o with
  | SCall _ _ => True
  | SEvent _ _ _ ra rret _ _ => sacts_ok ra /\ (In SDestroy ra -> rret = -9)
  end.
Definition is_sevent (o : sop) : Prop := match o with SCall _ _ => False | _ => True end.
Definition swritable : sop := SEvent false true RAgain [] 0 SAll [].
Definition count_closed (l : list out) : nat := length (filter (fun o => match o with ClosedCb => true | _ => false end) l).
