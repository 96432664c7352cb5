(** What is expected of a listening IPA link, as a judgement over the trace of API calls
    and system calls: who is to blame for the first thing that goes wrong. *)
From Coq Require Import List Bool ZArith Permutation.
From Verif Require Import Base IpaLinkModel.
Import ListNotations.
Open Scope Z_scope.

(** [g_dead]: the link was destroyed; [g_lst]: its listening socket; [g_reg]: watched by the
    event loop; [g_pend]: the descriptor accepted in the running event and not yet owned by
    anybody, [g_ref]: refused by accept_cb; [g_mine]: descriptors of the rest of the program,
    [g_watch]: those of them (or the pending one) it watches *)
Record game := G { g_dead : bool; g_lst : option Z; g_reg : option Z; g_pend : option Z; g_ref : bool; g_mine : list Z; g_watch : list Z }.
Inductive verdict := Fine (g : game) | UserFault | LibFault.
Definition game0 : game := G false None None None false [] [].
Definition oeq (a : option Z) (f : Z) : bool := match a with Some g => g =? f | None => false end.
Definition isN {A} (a : option A) : bool := match a with None => true | Some _ => false end.
(** open by anybody *)
Definition used (g : game) (f : Z) : bool := oeq (g_lst g) f || oeq (g_pend g) f || inb f (g_mine g).

Definition judge1 (g : game) (x : out) : verdict :=
  match x with
  (* open: only a link that exists and does not listen; close: one that exists; destroy: one that does not listen *)
  | CallOpen => if g_dead g || negb (isN (g_lst g)) then UserFault else Fine g
  | CallClose => if g_dead g then UserFault else Fine g
  | CallDestroy => if g_dead g || negb (isN (g_lst g)) then UserFault else Fine g
  (* success: there is a listening socket and it is watched; failure: there is none *)
  | RetOpen rc => if (rc =? 0) then if negb (isN (g_lst g)) && match g_reg g with Some f => oeq (g_lst g) f | None => false end then Fine g else LibFault
                  else if (rc <? 0) && isN (g_lst g) && isN (g_reg g) then Fine g else LibFault
  | RetClose => if isN (g_lst g) && isN (g_reg g) then Fine g else LibFault
  | RetDestroy => Fine (G true (g_lst g) (g_reg g) (g_pend g) (g_ref g) (g_mine g) (g_watch g))
  | Listen f _ => if used g f || negb (isN (g_lst g)) then LibFault
                  else Fine (G (g_dead g) (Some f) (g_reg g) (g_pend g) (g_ref g) (g_mine g) (g_watch g))
  | Reg f => if oeq (g_lst g) f && isN (g_reg g) then Fine (G (g_dead g) (g_lst g) (Some f) (g_pend g) (g_ref g) (g_mine g) (g_watch g)) else LibFault
  | Unreg f => if oeq (g_reg g) f then Fine (G (g_dead g) (g_lst g) None (g_pend g) (g_ref g) (g_mine g) (g_watch g)) else LibFault
  (* the library closes its listening socket, when it is not watched any more, and a
     descriptor that accept_cb refused; nothing else *)
  | LibClose f => if oeq (g_lst g) f && isN (g_reg g) then Fine (G (g_dead g) None (g_reg g) (g_pend g) (g_ref g) (g_mine g) (g_watch g))
                  else if oeq (g_pend g) f && g_ref g then Fine (G (g_dead g) (g_lst g) (g_reg g) None false (g_mine g) (g_watch g)) else LibFault
  (* connections come from a listener in service; one at a time *)
  | Accepted f => if g_dead g || isN (g_reg g) || used g f || negb (isN (g_pend g)) then LibFault
                  else Fine (G (g_dead g) (g_lst g) (g_reg g) (Some f) false (g_mine g) (g_watch g))
  | LocalIp _ => Fine g
  | CbStart f => if oeq (g_pend g) f then Fine g else LibFault
  (* accept_cb refuses: it must have left the descriptor open and unwatched; accepts: what it
     has not closed is now its own *)
  | CbEnd f rc => if rc <? 0 then
                    if oeq (g_pend g) f && negb (inb f (g_watch g)) then Fine (G (g_dead g) (g_lst g) (g_reg g) (g_pend g) true (g_mine g) (g_watch g)) else UserFault
                  else match g_pend g with
                       | Some h => if h =? f then Fine (G (g_dead g) (g_lst g) (g_reg g) None false (h :: g_mine g) (g_watch g)) else LibFault
                       | None => Fine g end
  (* at the end of an event nothing is left without an owner *)
  | RetEvent _ => if isN (g_pend g) then Fine g else LibFault
  | UserOpen f => if used g f then LibFault else Fine (G (g_dead g) (g_lst g) (g_reg g) (g_pend g) (g_ref g) (f :: g_mine g) (g_watch g))
  (* the program closes what it owns, or the descriptor it is offered, once, and stops watching it *)
  | UserClose f => if oeq (g_pend g) f then Fine (G (g_dead g) (g_lst g) (g_reg g) None false (g_mine g) (drop f (g_watch g)))
                   else if inb f (g_mine g) then Fine (G (g_dead g) (g_lst g) (g_reg g) (g_pend g) (g_ref g) (drop f (g_mine g)) (drop f (g_watch g))) else UserFault
  | UserReg f => if oeq (g_pend g) f || inb f (g_mine g) then Fine (G (g_dead g) (g_lst g) (g_reg g) (g_pend g) (g_ref g) (g_mine g) (f :: g_watch g)) else UserFault
  end.
Fixpoint judge (g : game) (o : list out) : verdict :=
  match o with
  | [] => Fine g
  | x :: r => match judge1 g x with Fine g => judge g r | v => v end
  end.

(** the address the listener stands for: the configured one, else the local address of the
    first connection for which one is known *)
Fixpoint address (a : option addr) (o : list out) : option addr :=
  match o with
  | [] => a
  | LocalIp b :: r => address (match a with None => Some b | _ => a end) r
  | _ :: r => address a r
  end.
(** every listening socket is bound to the address the link stands for at that time *)
Fixpoint bound_right (a : option addr) (o : list out) : Prop :=
  match o with
  | [] => True
  | Listen _ b :: r => b = a /\ bound_right a r
  | LocalIp b :: r => a = None /\ bound_right (Some b) r
  | _ :: r => bound_right a r
  end.
(** the descriptors the application is offered *)
Definition offered (o : list out) : list Z := flat_map (fun x => match x with CbStart f => [f] | _ => [] end) o.
Definition accepted (o : list out) : list Z := flat_map (fun x => match x with Accepted f => [f] | _ => [] end) o.
