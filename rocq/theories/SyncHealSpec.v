(** C85: vocabulary for recovery of the TRAU synchroniser. *)
From Coq Require Import List Arith Lia Bool ZArith.
From Verif Require Import Base RtpSpec SyncModel SyncSpec.
Import ListNotations.

(** what the last [L] cells of the synchroniser's 1281-cell array hold after the
    [n]-th alignment: memory the library never initialised *)
Definition stale (junk : nat -> nat -> bool) (L n : nat) : bits := map (junk n) (seq (HIST - L) L).

(** the primary pattern and the pattern slots in force after some calls *)
Fixpoint final_pat (cur : pat_id) (l : list op) : pat_id :=
  match l with
  | [] => cur
  | SetPat i :: r => final_pat i r
  | _ :: r => final_pat cur r
  end.
Fixpoint final_slots (sl : list (option pattern)) (l : list op) : list (option pattern) :=
  match l with
  | [] => sl
  | SetPat i :: r => final_slots (Some (sync_patterns i) :: repeat None 7) r
  | SetSecondary i k :: r => final_slots (firstn k sl ++ Some (sync_patterns i) :: skipn (S k) sl) r
  | _ :: r => final_slots sl r
  end.
Definition slots_after (i : pat_id) (l : list op) : list (option pattern) :=
  final_slots (Some (sync_patterns i) :: repeat None 7) l.

(** a run of frames with the pattern at every frame boundary and nowhere else *)
Definition clean (i : pat_id) (sl : list (option pattern)) (fs : list bits) : Prop :=
  Forall (fun f => length f = frame_len i /\ matches (sync_patterns i) f) fs /\
  forall k, k + frame_len i <= length (concat fs) -> k mod frame_len i <> 0 ->
    ~ matches_any sl (firstn (frame_len i) (skipn k (concat fs))).

(** the uninitialised memory does not, together with the bits that follow,
    imitate the pattern *)
Definition harmless (junk : nat -> nat -> bool) (i : pat_id) : Prop :=
  forall n l, 0 < length l < frame_len i ->
    ~ matches (sync_patterns i) (skipn (length l) (stale junk (frame_len i) n) ++ l).
