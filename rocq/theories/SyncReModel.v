(** Model of src/trau/trau_sync.c for a frame callback that calls back: it may
    change the patterns (osmo_trau_sync_set_pat followed by any
    osmo_trau_sync_set_secondary_pat calls) while it is being called.

    The functions are those of SyncModel.v, with the callback run at the place
    where the C code calls it; what follows the call in C works on the state the
    callback left.  A callback that delivers bits re-entrantly
    (osmo_trau_sync_rx_ubits from the callback) is not modelled.  The trace records
    the calls of out_cb and the settings asked for, in order. *)
From Coq Require Import List Arith Bool ZArith.
From Verif Require Import Base RtpSpec SyncModel.
Import ListNotations.

(** a setting: set_pat, then set_secondary_pat(pattern, slot) calls *)
Definition conf : Type := pat_id * list (pat_id * nat).
Inductive ev := EOut (o : out) | ESet (c : conf).
(** what the callback asks for, given all that happened so far (last: the frame
    or loss it is being called for) *)
Definition policy := list ev -> list conf.

(** trau_sync.c:668-680, several calls *)
Fixpoint set_secs (junk : nat -> nat -> bool) (s : sync) (l : list (pat_id * nat)) : option sync :=
  match l with
  | [] => Some s
  | (j, k) :: r => do (s, _) <- osmo_trau_sync_set_secondary_pat junk s j k; set_secs junk s r
  end.
(** trau_sync.c:656-680 (a change to FRAME_ALIGNMENT_LOST has no output) *)
Definition set_conf (junk : nat -> nat -> bool) (s : sync) (c : conf) : option sync :=
  do (s, _) <- osmo_trau_sync_set_pat junk s (fst c); set_secs junk s (snd c).
Fixpoint set_confs (junk : nat -> nat -> bool) (s : sync) (l : list conf) : option sync :=
  match l with [] => Some s | c :: r => do s <- set_conf junk s c; set_confs junk s r end.

(** tss->out_cb(...) *)
Definition notify (junk : nat -> nat -> bool) (cb : policy) (t : list ev) (s : sync) (o : out) : option (list ev * sync) :=
  let cs := cb (t ++ [EOut o]) in
  do s <- set_confs junk s cs;
  Some (t ++ EOut o :: map ESet cs, s).

(** osmo_fsm_inst_state_chg with trau_sync.c:496-502 trau_sync_aligned_onenter:
    fi->state is the new state while onenter runs *)
Definition state_chg_re (junk : nat -> nat -> bool) (cb : policy) (t : list ev) (s : sync) (to : fsm) (timer : bool) : option (list ev * sync) :=
  if negb (may_change (s_fsm s) to) then Some (t, s) else
  let s := set_fsm s to timer in
  match to with
  | FRAME_ALIGNED =>
    do s <- rx_history_align junk s;
    do p <- primary s;
    do f <- slice (s_hist s) 0 (p_len p);
    notify junk cb t s (Frame f)
  | _ => Some (t, s)
  end.

(** trau_sync.c:474-489, one pass; true: found, and line 486 dispatches the
    remaining bits in whatever state the callback left *)
Definition wait_step_re (junk : nat -> nat -> bool) (cb : policy) (t : list ev) (s : sync) (bit : bool) : option (list ev * sync * bool) :=
  do s <- rx_history_add_bit s bit;
  do p <- primary s;
  do rc <- correlate (s_hist s) (s_idx s) p;
  if rc =? 0 then do (t, s) <- state_chg_re junk cb t s FRAME_ALIGNED false; Some (t, s, true)
  else Some (t, s, false).

(** trau_sync.c:513-544, one pass; the bits left; true: lost, and line 533
    dispatches them *)
Definition aligned_step_re (junk : nat -> nat -> bool) (cb : policy) (t : list ev) (s : sync) (ubb : bits) : option (list ev * sync * bits * bool) :=
  do p <- primary s;
  let remaining := p_len p - s_idx s in
  if length ubb <? remaining then
    do s <- rx_history_add_bits s ubb;
    Some (t, s, [], false)
  else
    do s <- rx_history_add_bits s (firstn remaining ubb);
    let ubb := skipn remaining ubb in
    do rc <- correlate_all s;
    let s := if 0 <? rc then set_err s (inc32 (s_err s)) else set_err s 0%Z in
    if (0 <? rc) && (3 <=? s_err s)%Z then
      let s := set_hist s (s_hist s) 0 in
      do (t, s) <- notify junk cb t s Lost;
      do (t, s) <- state_chg_re junk cb t s FRAME_ALIGNMENT_LOST true;
      Some (t, s, ubb, true)
    else
      do f <- slice (s_hist s) 0 (s_idx s);
      do (t, s) <- notify junk cb t s (Frame f);
      Some (t, set_hist s (s_hist s) 0, ubb, false).

Definition is_aligned (s : sync) : bool := match s_fsm s with FRAME_ALIGNED => true | _ => false end.

(** which of the two loops runs is fixed when the event is dispatched
    (lines 474 and 513) and does not follow the state: [al] *)
Fixpoint rx_re (fuel : nat) (junk : nat -> nat -> bool) (cb : policy) (al : bool) (t : list ev) (s : sync) (ubb : bits) : option (list ev * sync) :=
  match ubb with
  | [] => Some (t, s)
  | bit :: r =>
    match fuel with
    | O => None
    | S f =>
      if al then
        do (t, s, rest, lost) <- aligned_step_re junk cb t s ubb;
        rx_re f junk cb (if lost then is_aligned s else true) t s rest
      else
        do (t, s, found) <- wait_step_re junk cb t s bit;
        rx_re f junk cb (if found then is_aligned s else false) t s r
    end
  end.
(** trau_sync.c:682-687 osmo_trau_sync_rx_ubits *)
Definition rx_ubits_re (junk : nat -> nat -> bool) (cb : policy) (t : list ev) (s : sync) (b : bits) : option (list ev * sync) :=
  rx_re (length b) junk cb (is_aligned s) t s b.

(** what the user does outside the callback *)
Inductive uop := URx (b : bits) | USet (c : conf) | UTimeout.
Definition do_uop (junk : nat -> nat -> bool) (cb : policy) (t : list ev) (s : sync) (o : uop) : option (list ev * sync) :=
  match o with
  | URx b => rx_ubits_re junk cb t s b
  | USet c => do s <- set_conf junk s c; Some (t ++ [ESet c], s)
  | UTimeout => do (s, _) <- trau_sync_timeout junk s; Some (t, s)
  end.
Fixpoint do_uops (junk : nat -> nat -> bool) (cb : policy) (t : list ev) (s : sync) (l : list uop) : option (list ev * sync) :=
  match l with
  | [] => Some (t, s)
  | o :: r => do (t, s) <- do_uop junk cb t s o; do_uops junk cb t s r
  end.
