(** Specification vocabulary for the TRAU frame codec, from 3GPP TS 08.60
    (48.060) and 08.61 (48.061); independent of the model. Bits are numbered
    from 0 in transmission order. *)
From Coq Require Import List Arith Bool ZArith.
Import ListNotations.

(** positions [first, first+step, ...], [count] of them, all carrying [v] *)
Definition every (first step count : nat) (v : bool) : list (nat * bool) :=
  map (fun k => (first + step * k, v)) (seq 0 count).

(** frame [b] carries the fixed bits [l] *)
Definition has_pattern (b : list bool) (l : list (nat * bool)) : Prop :=
  forall o v, In (o, v) l -> nth_error b o = Some v.

(** 08.60 4.8.1: 16 zeros, then a one at the start of every second octet *)
Definition pat16 := every 0 1 16 false ++ every 16 16 19 true.
(** 08.60 3.3.2 (E-TRAU data frames): only the 17-bit header *)
Definition pat_edata := every 0 1 16 false ++ [(16, true)].
(** 08.61 6.8.2.1.1: half rate speech, data, O&M on 8k *)
Definition pat8 := every 0 1 8 false ++ [(8, true); (16, false); (17, true)] ++ every 24 8 17 true.
(** 08.61 6.8.2.1.2: AMR No_Speech and low rates *)
Definition pat_low := every 0 1 8 false ++ [(8, true); (16, true); (24, false); (25, true)] ++ every 32 8 16 true.
(** 08.61 6.8.2.1.3: AMR 6.7 *)
Definition pat_67 := every 0 1 8 false ++ [(8, true); (16, true); (24, true); (32, true); (40, false)] ++ every 48 16 7 true.
(** AMR 7.4 *)
Definition pat_74 := [(0, false); (1, false); (2, true); (8, false); (16, true); (24, false)].

(** [n] elements from offset [o] on *)
Definition sub {A} (l : list A) (o n : nat) : list A := firstn n (skipn o l).

(** number written MSB first *)
Fixpoint num (l : list bool) : Z :=
  match l with [] => 0 | b :: r => (if b then 2 ^ Z.of_nat (length r) else 0) + num r end%Z.

(** 48.060 5.5.1.1.1: time alignment requested by code C6..C11, in us *)
Definition ta_code16 (n v : Z) : Prop :=
  ((0 <= n <= 39 /\ v = 500 * n) \/ (40 <= n <= 61 /\ v = 0) \/ (n = 62 /\ v = 250) \/ (n = 63 /\ v = -250))%Z.
(** 48.061 table 6.1: TA2 TA1 TA0 *)
Definition ta_code8 (n : Z) : Z :=
  match n with 7 => 0 | 6 => -250 | 5 => 250 | 3 => 500 | 4 => 1000 | 2 => 2000 | 1 => 6000 | 0 => 9000 | _ => 0 end%Z.
