(** What C90 speaks of.  Reading of a history of calls only; nothing of the model's functions.  *)
From Coq Require Import List ZArith Bool.
From Verif Require Import OrtpQueryModel.
Import ListNotations.
Open Scope Z_scope.

(** calls that may give the session of socket [i] other descriptors: setting its local address,
    setting a remote address *)
Definition opens (i : nat) (v : ev) : Prop :=
  match v with Bind j _ _ => j = i | Connect j port _ _ => j = i /\ port <> 0 | _ => False end.
(** the session's descriptors after such a call are [ss] *)
Definition gives (i : nat) (ss : Z * Z) (v : ev) : Prop :=
  match v with Bind j _ x => j = i /\ x = ss | Connect j port _ x => j = i /\ port <> 0 /\ x = ss | _ => False end.
(** a call after which the library asks for the session's descriptors *)
Definition asks (pl : bool) (i : nat) (v : ev) : Prop :=
  match v with
  | Bind j rc _ => j = i /\ 0 <= rc
  | Connect j port rc _ => j = i /\ port <> 0 /\ 0 <= rc /\ pl = false
  | Auto j => j = i /\ pl = false
  | _ => False end.
(** the history [v :: h] of socket [i]: [v] gave the session the descriptors [ss], no later call gave
    it others, and the library asked for them once at least *)
Definition settled (pl : bool) (i : nat) (ss : Z * Z) (v : ev) (h : list ev) : Prop :=
  gives i ss v /\ Forall (fun w => opens i w -> gives i ss w) h /\ Exists (asks pl i) (v :: h).
(** the address 'a.b.c.d' as a number: its octets, most significant first *)
Definition is_ip (ip a b c d : Z) : Prop :=
  ip / 2 ^ 24 = a /\ (ip / 2 ^ 16) mod 256 = b /\ (ip / 2 ^ 8) mod 256 = c /\ ip mod 256 = d.
Definition octet (z : Z) : Prop := 0 <= z < 256.
(** a caller's 32 bit variable [x] for a 64 bit figure [g]: equal but for a multiple of 2^32 *)
Definition shows (x g : Z) : Prop := 0 <= x < 2 ^ 32 /\ exists n, g = n * 2 ^ 32 + x.
