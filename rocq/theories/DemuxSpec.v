(** Specification vocabulary for the sub-channel demultiplexer/multiplexer.
    Refers only to bit streams, not to the model. *)
From Coq Require Import List Arith Bool ZArith.
From Verif Require Import Spec.
Import ListNotations.

(** the two bits of sub-channel [c] in each byte of a 64k timeslot *)
Definition channel_bits (c : nat) (bytes : list Z) : list bool :=
  flat_map (fun b => [Z.testbit b (Z.of_nat (2 * c)); Z.testbit b (Z.of_nat (2 * c + 1))]) bytes.

Definition sync_atb (s : list bool) (k : nat) : bool :=
  if list_eq_dec bool_dec (firstn 17 (skipn k s)) sync_header then true else false.

(** A frame ends with the [t]-th bit of [s]: 320 bits earlier there is a sync
    header, and no other header since. *)
Definition frame_ends_at (s : list bool) (t : nat) : bool :=
  (320 <=? t) && sync_atb s (t - 320) && forallb (fun k => negb (sync_atb s k)) (seq (t - 319) 303).

(** the frames contained in the bit stream [s], in order of their end *)
Definition frames_of (s : list bool) : list (list bool) :=
  flat_map (fun t => if frame_ends_at s t then [firstn 320 (skipn (t - 320) s)] else [])
           (seq 0 (S (length s))).

(** no run of 2^32 or more consecutive zeros *)
Definition no_huge_gap (s : list bool) : Prop :=
  forall k n, firstn n (skipn k s) = repeat false n -> (Z.of_nat n < 2 ^ 32)%Z.

Inductive sublist {A} : list A -> list A -> Prop :=
| sub_nil : sublist [] []
| sub_skip x l m : sublist l m -> sublist l (x :: m)
| sub_take x l m : sublist l m -> sublist (x :: l) (x :: m).

(** [L] consists of the elements of [l], in order, with any number of copies
    of [i] inserted. *)
Inductive fills {A} (i : A) : list A -> list A -> Prop :=
| fills_nil : fills i [] []
| fills_idle l L : fills i l L -> fills i l (i :: L)
| fills_cons x l L : fills i l L -> fills i (x :: l) (x :: L).

(** ** Multiplexer: what one sub-channel sees *)
Inductive chev := Queue (f : list bool) | Tick.

(** The flat specification: queued bits go out first in, first out, two per
    output byte; when nothing is left, a complete idle frame is loaded. Result:
    bits sent, bits still waiting. *)
Fixpoint fifo (idle buf : list bool) (l : list chev) : list bool * list bool :=
  match l with
  | [] => ([], buf)
  | Queue f :: r => fifo idle (buf ++ f) r
  | Tick :: r =>
      let buf := match buf with [] => idle | _ => buf end in
      let '(o, b) := fifo idle (skipn 2 buf) r in (firstn 2 buf ++ o, b)
  end.

(** The specification with entries: at most 3 are held, adding a further one
    drops from the front down to 2 first. *)
Definition q_add (p : list (list bool)) (f : list bool) : list (list bool) := skipn (length p - 2) p ++ [f].
Fixpoint q_tick (idle : list bool) (p : list (list bool)) : list bool * list (list bool) :=
  match p with
  | [] => (firstn 2 idle, [skipn 2 idle])
  | [] :: r => q_tick idle r
  | f :: r => (firstn 2 f, match skipn 2 f with [] => r | g => g :: r end)
  end.
Fixpoint queue_run (idle : list bool) (p : list (list bool)) (l : list chev) : list bool * list (list bool) :=
  match l with
  | [] => ([], p)
  | Queue f :: r => queue_run idle (q_add p f) r
  | Tick :: r => let '(o, p) := q_tick idle p in
                 let '(o', p) := queue_run idle p r in (o ++ o', p)
  end.
(** no entry is ever dropped *)
Fixpoint no_drop (idle : list bool) (p : list (list bool)) (l : list chev) : Prop :=
  match l with
  | [] => True
  | Queue f :: r => length p <= 2 /\ no_drop idle (q_add p f) r
  | Tick :: r => no_drop idle (snd (q_tick idle p)) r
  end.

Definition queued (l : list chev) : list (list bool) :=
  flat_map (fun e => match e with Queue f => [f] | Tick => [] end) l.

(** a frame that carries the sync header at its start and nowhere else *)
Definition clean (f : list bool) : Prop := length f = 320 /\ forall k, sync_at f k <-> k = 0.
