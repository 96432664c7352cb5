(** C84, the words. *)
From Coq Require Import List Arith Bool ZArith.
From Verif Require Import Base E1Model.
From Verif Require Export PaceModel.
Import ListNotations.
Open Scope Z_scope.

Definition no_destroy (es : list (Z * pev)) : Prop := forall t id, ~ In (t, PDestroy id) es.
(** each transmission at least [d] after the one before *)
Definition spaced {A} (d : Z) (o : list (Z * A)) : Prop := forall u a b v, o = u ++ a :: b :: v -> fst a + d <= fst b.
Definition in_window {A} (from len : Z) (o : list (Z * A)) : list (Z * A) := filter (fun x => (from <=? fst x) && (fst x <=? from + len)) o.
Definition backlog (ls : list link) : nat := fold_right (fun l n => (length (lk_q l) + n)%nat) 0%nat ls.

(** The host is prompt: up to time [till], the descriptor is served within [eps] after OSMO_FD_WRITE was
    set, and the timer is called within [eps] after it is due. *)
Definition in_time (eps : Z) (s : pst) (t : Z) : Prop :=
  (t_wr (p_ts s) = true -> t <= since s + eps) /\ (t_timer (p_ts s) = TPending -> t <= due s + eps).
Fixpoint prompt (delay eps : Z) (s : pst) (es : list (Z * pev)) (till : Z) : Prop :=
  match es with
  | [] => in_time eps s till
  | (t, e) :: r => in_time eps s t /\ match pstep delay s t e with Some a => prompt delay eps (fst a) r till | None => True end
  end.
(** A link is destroyed only while the delay timer is not running, or as the last one with messages. *)
Fixpoint gentle (delay : Z) (s : pst) (es : list (Z * pev)) : Prop :=
  match es with
  | [] => True
  | (t, e) :: r =>
    match e with PDestroy id => t_timer (p_ts s) = TIdle \/ backlog (filter (fun l => negb (Nat.eqb (lk_id l) id)) (t_links (p_ts s))) = 0%nat | _ => True end /\
    match pstep delay s t e with Some a => gentle delay (fst a) r | None => True end
  end.
