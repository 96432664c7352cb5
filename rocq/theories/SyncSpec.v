(** Specification vocabulary for the TRAU frame synchroniser, independent of
    the model's buffer handling. *)
From Coq Require Import List Arith Lia Bool ZArith.
From Verif Require Import Base SyncModel.
Import ListNotations.

(** a window of bits matches a pattern: every bit position the mask selects
    carries the pattern's value *)
Definition matches (p : pattern) (w : bits) : Prop :=
  forall i v, nth_error (p_mask p) i = Some true -> nth_error (p_bits p) i = Some v -> nth_error w i = Some v.
Definition matches_any (ps : list (option pattern)) (w : bits) : Prop :=
  exists p, In (Some p) ps /\ matches p w.

(** frame length in bits of each pattern (trau_sync.h / TS 48.060, 48.061) *)
Definition frame_len (i : pat_id) : nat :=
  match i with
  | PAT_16_FR_EFR => 320 | PAT_8_HR => 160 | PAT_8_AMR_LOW => 160 | PAT_8_AMR_6K7 => 160
  | PAT_8_AMR_7K4 => 160 | PAT_V110 => 80 | PAT_16_ER_CCU => 320 | PAT_64_ER_CCU => 1280
  | PAT_64_ER_CCU_MCS9 => 1280 | PAT_FA => 64
  end.

(** the synchroniser as a user sees it: it slides a window of the last
    [length w] bits until the primary pattern matches, and from then on cuts the
    stream every frame.  [e] is the error count (mod 2^32): it is cleared by a
    matching frame cut in the aligned state and by nothing else. *)
Inductive view := Searching (w : bits) (e : Z) | Aligned (acc : bits) (e : Z).

Inductive step (ps : list (option pattern)) (p : pattern) : view -> bool -> list out -> view -> Prop :=
| st_search w e b : ~ matches p (tl w ++ [b]) ->
    step ps p (Searching w e) b [] (Searching (tl w ++ [b]) e)
| st_found w e b : matches p (tl w ++ [b]) ->
    step ps p (Searching w e) b [Frame (tl w ++ [b])] (Aligned [] e)
| st_collect acc e b : S (length acc) < p_len p ->
    step ps p (Aligned acc e) b [] (Aligned (acc ++ [b]) e)
| st_good acc e b : S (length acc) = p_len p -> matches_any ps (acc ++ [b]) ->
    step ps p (Aligned acc e) b [Frame (acc ++ [b])] (Aligned [] 0%Z)
| st_bad acc e b : S (length acc) = p_len p -> ~ matches_any ps (acc ++ [b]) -> ((e + 1) mod 2 ^ 32 < 3)%Z ->
    step ps p (Aligned acc e) b [Frame (acc ++ [b])] (Aligned [] ((e + 1) mod 2 ^ 32)%Z)
| st_lost acc e b w : S (length acc) = p_len p -> ~ matches_any ps (acc ++ [b]) -> (3 <= (e + 1) mod 2 ^ 32)%Z ->
    length w = p_len p ->  (* the window after a loss is not determined by the stream *)
    step ps p (Aligned acc e) b [Lost] (Searching w ((e + 1) mod 2 ^ 32)%Z).

Inductive steps (ps : list (option pattern)) (p : pattern) : view -> bits -> list out -> view -> Prop :=
| sts_nil v : steps ps p v [] [] v
| sts_cons v b o v' bs o' v'' : step ps p v b o v' -> steps ps p v' bs o' v'' ->
    steps ps p v (b :: bs) (o ++ o') v''.

(** operations a user may perform after allocation *)
Inductive op := Rx (b : bits) | SetPat (i : pat_id) | SetSecondary (i : pat_id) (k : nat) | Timeout.

(** the documented precondition of set_secondary: slot 1..7, same frame length
    as the pattern now in force *)
Fixpoint ops_ok (cur : pat_id) (l : list op) : Prop :=
  match l with
  | [] => True
  | SetSecondary i k :: r => 1 <= k <= 7 /\ frame_len i = frame_len cur /\ ops_ok cur r
  | SetPat i :: r => ops_ok i r
  | _ :: r => ops_ok cur r
  end.
(** the primary pattern in force during each operation *)
Fixpoint in_force (cur : pat_id) (l : list op) : list pat_id :=
  match l with
  | [] => []
  | SetPat i :: r => i :: in_force i r
  | _ :: r => cur :: in_force cur r
  end.
Definition do_op (junk : nat -> nat -> bool) (s : sync) (o : op) : option (sync * list out) :=
  match o with
  | Rx b => osmo_trau_sync_rx_ubits junk s b
  | SetPat i => osmo_trau_sync_set_pat junk s i
  | SetSecondary i k => osmo_trau_sync_set_secondary_pat junk s i k
  | Timeout => trau_sync_timeout junk s
  end.
Fixpoint do_ops (junk : nat -> nat -> bool) (s : sync) (l : list op) : option (sync * list (list out)) :=
  match l with
  | [] => Some (s, [])
  | o :: r => do (s1, x) <- do_op junk s o; do (s2, xs) <- do_ops junk s1 r; Some (s2, x :: xs)
  end.
