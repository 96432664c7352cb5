(** Vocabulary for the configuration of the IPA proxy (C74).  [view], [disjoint]: as for C46 and
    C47 (ProxyProofs.v, ProxyProps.v). *)
From Coq Require Import List Arith Lia Bool ZArith Ascii String.
From Verif Require Import Base ProxyModel ProxyProofs ProxyProps ProxyVtyModel.
From Verif Require VtyModel.
Import ListNotations.
Open Scope string_scope.
Open Scope Z_scope.

(** histories, with what is required of each event and the state after it *)
Inductive hist (k : kern) (P : ev -> st -> Prop) : st -> Prop :=
| hist0 : hist k P st0
| hist1 s e s' x : hist k P s -> vstep k s e = Some (s', x) -> P e s' -> hist k P s'.
Definition always (e : ev) (s : st) : Prop := True.
(** no route is deleted *)
Definition no_deletion (e : ev) (s : st) : Prop :=
  match e with Typed _ t => match VtyModel.words t with a :: b :: c :: _ => ~ (a = "no" /\ b = "ipa" /\ c = "route") | _ => True end | Net _ => True end.
(** no stream identifier is used by two routes of a pair of instances *)
Definition one_to_one (e : ev) (s : st) : Prop := disjoint (view s).
(** names typed have at most 15 octets *)
Definition short (e : ev) (s : st) : Prop :=
  match e with Typed cfg t => match parse cfg (VtyModel.words t) with Some (CInst n _ _ _) => (String.length n <= 15)%nat | _ => True end | Net _ => True end.

(** the kernel refuses a port that is listened on; and refuses no other *)
Definition sane (k : kern) : Prop := forall ps p, k ps p = true -> ~ In p ps.
Definition willing (k : kern) : Prop := forall ps p, k ps p = true <-> ~ In p ps.

(** what is configured: instances, and routes by the names of their instances *)
Definition iconf (s : st) : list (list Z * net_type * list Z * Z) := map (fun i => (i_name i, i_type i, i_addr i, i_port i)) (insts s).
Definition named (s : st) (t : rt) : list (list Z * Z * list Z * Z) :=
  let '(a, p, b, q) := t in match find_inst s a, find_inst s b with Some x, Some y => [(i_name x, p, i_name y, q)] | _, _ => [] end.
Definition rconf (s : st) : list (list Z * Z * list Z * Z) := flat_map (named s) (view s).
(** the names of the instances a connection joins; whether its source has not closed it *)
Definition conn_names (s : st) (cid : nat) : option (list Z * list Z) :=
  do sh <- conn_shared s cid; do a <- find_inst s (s_src sh); do b <- find_inst s (s_dst sh); Some (i_name a, i_name b).
Definition conn_open (s : st) (cid : nat) : Prop := exists c, find (fun x => Nat.eqb (c_id x) cid) (conns s) = Some c /\ c_src c = true.
(** a run *)
Fixpoint vrun (k : kern) (s : st) (es : list ev) : option (st * list reply) :=
  match es with [] => Some (s, []) | e :: r => do x <- vstep k s e; do y <- vrun k (fst x) r; Some (fst y, snd x :: snd y) end.
