(** Independent vocabulary used in theorem statements. Nothing here refers to a
    model. *)
From Coq Require Import List Arith Bool ZArith.
Import ListNotations.

(** The 08.60 / V.110-TRAU frame alignment header: 16 zeros, then a one. *)
Definition sync_header : list bool := repeat false 16 ++ [true].

(** The header is found at bit offset [k] of the stream [s]. *)
Definition sync_at (s : list bool) (k : nat) : Prop := firstn 17 (skipn k s) = sync_header.
