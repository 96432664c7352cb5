(** The transmit delay of a signalling timeslot in time: the functions of E1Model.v on one timeslot,
    with a clock in microseconds.  src/e1_input.c:293-328 abis_sendmsg, :781-838 links,
    src/input/dahdi.c:196-271, misdn.c:322-394, e1d.c:318-358 (write ready, delay timer).

    The timer (libosmocore) calls timeout_ts1_write not before it is due; the select loop reports the
    descriptor writable only while OSMO_FD_WRITE is set.  How late either may be is a separate
    condition ([prompt] in PaceSpec.v). *)
From Coq Require Import List Arith Bool ZArith.
From Verif Require Import Base E1Model.
Import ListNotations.
Open Scope Z_scope.

Inductive pev := PSend (id : nat) (m : msg) | PMake (id : nat) (ty : sign_type) (tei sapi : Z) | PDestroy (id : nat) | PWritable | PFire.
(** [due]: when the armed timer expires; [since]: when OSMO_FD_WRITE was last set *)
Record pst := mkP { p_ts : ts; due : Z; since : Z; now : Z }.
(** a timeslot freshly configured for signalling at time [t], from a type that leaves the timer alone *)
Definition p_init (wr : bool) (t : Z) : pst := mkP (mkTs TS_SIGN [] [] 0 TIdle wr) t t t.
(** [t]: the time now; the new timeslot [x] *)
Definition to (s : pst) (t : Z) (x : ts) (d : Z) : pst := mkP x d (if t_wr x && negb (t_wr (p_ts s)) then t else since s) t.

(** dahdi.c:268, e1d.c:355, misdn.c:391: osmo_timer_schedule(0, delay).  Result: what goes to the LAPD
    layer.  None: cannot happen (time runs backwards, the timer early, a link that does not exist) *)
Definition pstep (delay : Z) (s : pst) (t : Z) (e : pev) : option (pst * list (nat * msg)) :=
  if t <? now s then None else
  let x := p_ts s in
  match e with
  | PSend id m => if existsb (fun l => Nat.eqb (lk_id l) id) (t_links x) then Some (to s t (ts_send x id m) (due s), []) else None
  | PMake id ty tei sapi => do y <- ts_link_create x id ty tei sapi; Some (to s t y (due s), [])
  | PDestroy id => do r <- ts_link_destroy x id; Some (to s t (fst r) (due s), [])
  | PWritable =>
    do r <- ts_write_ready x;
    match fst r with
    | WrSign l m => Some (to s t (snd r) (t + delay), [(lk_id l, m)])
    | _ => Some (to s t (snd r) (due s), [])
    end
  | PFire => match t_timer x with
             | TPending => if due s <=? t then Some (to s t (ts_timeout x) (due s), []) else None
             | _ => None end
  end.
Fixpoint prun (delay : Z) (s : pst) (es : list (Z * pev)) : option (pst * list (Z * (nat * msg))) :=
  match es with
  | [] => Some (s, [])
  | (t, e) :: r =>
    do a <- pstep delay s t e; do b <- prun delay (fst a) r;
    Some (fst b, map (fun o => (t, o)) (snd a) ++ snd b)
  end.
