(** C87: vocabulary for frame callbacks that change the patterns. *)
From Coq Require Import List Arith Bool ZArith.
From Verif Require Import Base RtpSpec SyncModel SyncSpec SyncReModel.
Import ListNotations.

(** the documented precondition: slots 1..7, patterns of the primary's length *)
Definition conf_ok (c : conf) : Prop :=
  Forall (fun x => 1 <= snd x <= 7 /\ frame_len (fst x) = frame_len (fst c)) (snd c).
Definition policy_ok (cb : policy) : Prop := forall t, Forall conf_ok (cb t).
Definition uop_ok (o : uop) : Prop := match o with USet c => conf_ok c | _ => True end.

(** the setting in force after a trace that began with setting [c] *)
Fixpoint setting (c : conf) (t : list ev) : conf :=
  match t with
  | [] => c
  | ESet c' :: r => setting c' r
  | EOut _ :: r => setting c r
  end.
(** every frame has the length of the pattern in force when it is delivered *)
Fixpoint lengths_ok (c : conf) (t : list ev) : Prop :=
  match t with
  | [] => True
  | ESet c' :: r => lengths_ok c' r
  | EOut (Frame f) :: r => length f = frame_len (fst c) /\ lengths_ok c r
  | EOut Lost :: r => lengths_ok c r
  end.

(** after trace [t] nothing is in synchronisation: nothing was delivered since the
    start, the last loss or the last change of patterns *)
Definition searching (t : list ev) : Prop :=
  match rev t with [] | EOut Lost :: _ | ESet _ :: _ => True | EOut (Frame _) :: _ => False end.
(** a callback that changes patterns only on a loss or on the first frame after a
    search, not in the middle of a synchronised run *)
Definition prompt (cb : policy) : Prop :=
  forall t o, cb (t ++ [EOut o]) <> [] -> o = Lost \/ searching t.

Definition frames (t : list ev) : list bits := flat_map (fun e => match e with EOut (Frame f) => [f] | _ => [] end) t.

(** from trace [t] on the callback asks for nothing *)
Definition quiet (cb : policy) (t : list ev) : Prop := forall es, es <> [] -> cb (t ++ es) = [].
