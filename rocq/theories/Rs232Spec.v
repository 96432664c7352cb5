(** Vocabulary for the serial port driver (C65, C66): the frames of an octet stream, what is
    read, delivered, accepted and put on the wire in a trace of effects. *)
From Coq Require Import List Arith Bool ZArith.
From Verif Require Import Base Rs232Model.
Import ListNotations.
Open Scope Z_scope.

(** a frame: two octets tell the length of the rest *)
Definition frame (o : list Z) : Prop := exists h l body, o = h :: l :: body /\ Z.of_nat (length body) = 256 * h + l.
(** not (yet) a frame: fewer than two octets, or none or too few after the first two *)
Definition partial (o : list Z) : Prop := (length o < 2)%nat \/ exists h l body, o = h :: l :: body /\ (body = [] \/ Z.of_nat (length body) < 256 * h + l).
(** a message [m] in its frame: length of what follows the length, fixed octets, eight bits of the
    message's length, the same with 0x38 exclusive-or'd *)
Definition packed (m o : list Z) : Prop :=
  exists n a, n = Z.of_nat (length m) /\ 0 <= a < 256 /\ (exists q, n = 256 * q + a) /\
  (n + 8 < 65536 -> exists h l, o = [h; l; 0; 7; 1; 62; 0; 0; a; Z.lxor a 56] ++ m /\ 0 <= h < 256 /\ 0 <= l < 256 /\ 256 * h + l = n + 8).
(** octets read; octets put on the wire *)
Definition reads (es : list eff) : list Z := flat_map (fun e => match e with ERead _ o => o | _ => [] end) es.
Definition wire (es : list eff) : list Z := flat_map (fun e => match e with EWire _ o => o | _ => [] end) es.
(** messages given to the application: the whole buffer, and the part it is to look at *)
Definition received (es : list eff) : list (list Z * option (list Z)) := flat_map (fun e => match e with ERx o l2 => [(o, l2)] | _ => [] end) es.
(** messages completed while no callback was set *)
Definition leaked (es : list eff) : list (list Z) := flat_map (fun e => match e with ELeak o => [o] | _ => [] end) es.
(** messages taken from the queues to be sent *)
Definition sent (es : list eff) : list (list Z) := flat_map (fun e => match e with ETake _ m => [m] | _ => [] end) es.
(** descriptors: opened and not closed *)
Definition opened (es : list eff) : list nat := flat_map (fun e => match e with EOpen f => [f] | _ => [] end) es.
Definition closed (es : list eff) : list nat := flat_map (fun e => match e with EClose f => [f] | _ => [] end) es.
(** messages of link [i] in the order accepted, not yet taken; None: taken out of order, twice,
    or never accepted *)
Definition passes (i : nat) (q : list (list Z)) (e : eff) : option (list (list Z)) :=
  match e with
  | EAcc j m => if Nat.eqb j i then Some (q ++ [m]) else Some q
  | ETake j m => if Nat.eqb j i then match q with x :: r => if list_eq_dec Z.eq_dec x m then Some r else None | [] => None end else Some q
  | EUnlink j => if Nat.eqb j i then Some [] else Some q
  | _ => Some q
  end.
Fixpoint waiting (i : nat) (q : list (list Z)) (es : list eff) : option (list (list Z)) :=
  match es with [] => Some q | e :: r => match passes i q e with Some q => waiting i q r | None => None end end.
Fixpoint queue (i : nat) (q : list (nat * list (list Z))) : list (list Z) := match q with [] => [] | (j, ms) :: r => if Nat.eqb j i then ms else queue i r end.
(** what the application does in an event; how often it sends, updates *)
Definition cmds (v : ev) : list cmd := match v with App cs => cs | Ready _ _ act => act end.
Definition sends (vs : list ev) : nat := length (filter (fun c => match c with CSend _ _ => true | _ => false end) (flat_map cmds vs)).
Definition updates (vs : list ev) : nat := length (filter (fun c => match c with CUpdate => true | _ => false end) (flat_map cmds vs)).
(** the port never gives an error *)
Definition healthy (v : ev) : bool := match v with Ready (Some RdErr) _ _ => false | _ => true end.
(** writes are never short (of frames up to [n] octets) *)
Definition full (k : kern) (n : nat) : Prop := forall i, (n <= k_write k i)%nat.
