(** Transmission errors and cyclic codes: vocabulary for C71.  Refers to bit sequences only. *)
From Coq Require Import List Arith Bool.
Import ListNotations.

Notation bits := (list bool).
(** bitwise sum; an error pattern has a 1 where a bit arrives wrong *)
Fixpoint xor (a b : bits) : bits := match a, b with x :: a, y :: b => xorb x y :: xor a b | _, _ => [] end.

(** the patterns of [n] bits that are a sum of shifted copies of [g] (multiples of the polynomial [g]) *)
Inductive sum_of_shifts (g : bits) (n : nat) : bits -> Prop :=
| no_shift : sum_of_shifts g n (repeat false n)
| one_more e k : sum_of_shifts g n e -> k + length g <= n ->
    sum_of_shifts g n (xor e (repeat false k ++ g ++ repeat false (n - k - length g))).

(** x^3+x+1 (GSM 08.60), x^16+x^12+x^5+1 (Ericsson CS-1 blocks) *)
Definition gen3 : bits := [true; false; true; true].
Definition gen16 : bits := [true;false;false;false;true;false;false;false;false;false;false;true;false;false;false;false;true].

(** all wrong bits lie within [m] consecutive ones, and there is at least one *)
Definition burst (m : nat) (e : bits) : Prop :=
  exists i b j, e = repeat false i ++ b ++ repeat false j /\ length b <= m /\ In true b.
(** exactly two wrong bits, [k] positions apart *)
Definition two_wrong (k : nat) (e : bits) : Prop :=
  exists i j, 1 <= k /\ e = repeat false i ++ [true] ++ repeat false (k - 1) ++ [true] ++ repeat false j.
(** an odd number of wrong bits *)
Definition odd_wrong (e : bits) : Prop := Nat.Odd (count_occ bool_dec e true).
