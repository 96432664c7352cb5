(** Vocabulary for RTP sockets (C67). *)
From Coq Require Import List Arith Bool ZArith.
From Verif Require Import Base OrtpModel.
Import ListNotations.
Open Scope Z_scope.

(** time that has passed on the sender's clock: durations of packets handed to libortp and of
    frames skipped *)
Fixpoint elapsed (es : list eff) : Z :=
  match es with [] => 0 | ESent _ _ _ d _ :: r => d + elapsed r | ESkip d :: r => d + elapsed r | _ :: r => elapsed r end.
(** packet times the select loop has counted *)
Fixpoint heard (es : list eff) : Z := match es with [] => 0 | EReadable :: r => 160 + heard r | _ :: r => heard r end.
(** traffic: what a socket must not do before it is connected *)
Definition traffic (e : eff) : bool := match e with ESent _ _ _ _ _ | ESkip _ | ENoMem | EAsk _ | ERx _ | EReg _ | ERtcp => true | _ => false end.
Definition received (es : list eff) : list pkt := flat_map (fun e => match e with ERx p => [p] | _ => [] end) es.
(** one of the two descriptors in the select loop ([c]: RTCP); None: put in or taken out twice *)
Fixpoint member (c : bool) (b : bool) (es : list eff) : option bool :=
  match es with
  | [] => Some b
  | EReg c' :: r => if Bool.eqb c c' then (if b then None else member c true r) else member c b r
  | EUnreg c' :: r => if Bool.eqb c c' then (if b then member c false r else None) else member c b r
  | _ :: r => member c b r
  end.
Definition cmds (v : ev) : list cmd := match v with App cs => cs | Poll act => act | Ready act => act | Rtcp => [] end.
Definition keeps_ts (c : cmd) : bool := match c with CRxTs _ => false | _ => true end.
Definition keeps (c : cmd) : bool := match c with CFree => false | _ => true end.
Definition connects (c : cmd) : bool := match c with CConnect p => negb (p =? 0) | CAuto => true | _ => false end.
