(** Model of src/trau/trau_sync.c (TRAU frame synchroniser) and ubit_buf.h.

    Simplifications: ubit_t is bool (the library's convention: 0 or 1).  The
    struct ubit_buf is the list of bits not yet consumed.  The user's frame
    callback is an entry of the output list; a callback that re-enters the
    synchroniser is not modelled.  libosmocore's FSM core: a state change to a
    state not in out_state_mask is refused (logged) and changes nothing; an
    accepted one sets or clears the timer and runs onenter.  The internal RESET
    event is never dispatched by the library and is left out.

    [rx_history_align] copies a partly uninitialised local array over the
    history; the indeterminate values are an oracle [junk : nat -> nat -> bool]
    (n-th call, array index). *)
From Coq Require Import List Arith Lia Bool ZArith.
From Verif Require Import Base RtpSpec.
Import ListNotations.

(** trau_sync.c:30 struct sync_pattern: the expanded pattern and mask
    (expand_sync_pattern, lines 292-296); byte_len*8 is their length *)
Record pattern := mkPat { p_bits : bits; p_mask : bits }.
Definition p_len (p : pattern) : nat := length (p_bits p).
Definition pat (pb mb : list Z) : pattern := mkPat (bits_of_octets pb) (bits_of_octets mb).

(** enum osmo_trau_sync_pat_id (trau_sync.h:8-19) in order, and trau_sync.c:53-290
    sync_patterns[] *)
Inductive pat_id := PAT_16_FR_EFR | PAT_8_HR | PAT_8_AMR_LOW | PAT_8_AMR_6K7 | PAT_8_AMR_7K4 | PAT_V110
  | PAT_16_ER_CCU | PAT_64_ER_CCU | PAT_64_ER_CCU_MCS9 | PAT_FA.
Definition sync_patterns (i : pat_id) : pattern :=
  match i with
  | PAT_16_FR_EFR => (* :54 *)
      pat [0; 0; 128; 0; 128; 0; 128; 0; 128; 0; 128; 0; 128; 0; 128; 0; 128; 0; 128; 0;
           128; 0; 128; 0; 128; 0; 128; 0; 128; 0; 128; 0; 128; 0; 128; 0; 128; 0; 128; 0]%Z
          [255; 255; 128; 0; 128; 0; 128; 0; 128; 0; 128; 0; 128; 0; 128; 0; 128; 0; 128; 0;
           128; 0; 128; 0; 128; 0; 128; 0; 128; 0; 128; 0; 128; 0; 128; 0; 128; 0; 128; 0]%Z
  | PAT_8_HR => (* :73 *)
      pat ([0; 128; 64] ++ repeat 128 17)%Z ([255; 128; 192] ++ repeat 128 17)%Z
  | PAT_8_AMR_LOW => (* :92 *)
      pat ([0; 128; 128; 64] ++ repeat 128 16)%Z ([255; 128; 128; 192] ++ repeat 128 16)%Z
  | PAT_8_AMR_6K7 => (* :112 *)
      pat ([0] ++ repeat 128 4 ++ [0; 128; 0; 128; 0; 128; 0; 128; 0; 128; 0; 128; 0; 128; 0])%Z
          ([255] ++ repeat 128 6 ++ [0; 128; 0; 128; 0; 128; 0; 128; 0; 128; 0; 128; 0])%Z
  | PAT_8_AMR_7K4 => (* :131 *)
      pat ([32; 0; 128] ++ repeat 0 17)%Z ([224; 128; 128; 128] ++ repeat 0 16)%Z
  | PAT_V110 => (* :150 *)
      pat ([0] ++ repeat 128 9)%Z ([255] ++ repeat 128 9)%Z
  | PAT_16_ER_CCU => (* :163 *)
      pat ([0; 0; 128] ++ repeat 0 37)%Z ([255; 255; 128] ++ repeat 0 37)%Z
  | PAT_64_ER_CCU => (* :181 *)
      pat (repeat 0 8 ++ [128] ++ repeat 0 151)%Z (repeat 255 8 ++ [128] ++ repeat 0 151)%Z
  | PAT_64_ER_CCU_MCS9 => (* :229 *)
      pat ([0; 0; 128] ++ repeat 0 157)%Z ([255; 255; 128] ++ repeat 0 157)%Z
  | PAT_FA => (* :277 *)
      pat [62; 55; 80; 150; 193; 200; 175; 105]%Z (repeat 255 8)%Z
  end.

(** trau_sync.c:446-452 enum trau_sync_state *)
Inductive fsm := WAIT_FRAME_ALIGN | FRAME_ALIGNED | FRAME_ALIGNMENT_LOST.
(** trau_sync.c:341-356 struct trau_rx_sync_state; [s_err] is an unsigned int;
    [s_timer]: T_SYNC armed; [s_aligns] counts rx_history_align calls (index of
    the oracle) *)
Record sync := mkSync {
  s_hist : bits; s_idx : nat; s_pats : list (option pattern); s_err : Z;
  s_fsm : fsm; s_timer : bool; s_aligns : nat }.
(** calls of out_cb: a frame, or NULL *)
Inductive out := Frame (b : bits) | Lost.

Definition HIST : nat := 160 * 8 + 1.   (* ARRAY_SIZE(history), :349 *)

Definition set_hist s h i := mkSync h i (s_pats s) (s_err s) (s_fsm s) (s_timer s) (s_aligns s).
Definition set_err s e := mkSync (s_hist s) (s_idx s) (s_pats s) e (s_fsm s) (s_timer s) (s_aligns s).
Definition set_pats s p := mkSync (s_hist s) (s_idx s) p (s_err s) (s_fsm s) (s_timer s) (s_aligns s).
Definition set_fsm s f t := mkSync (s_hist s) (s_idx s) (s_pats s) (s_err s) f t (s_aligns s).

(** tss->pattern[PRIMARY_PATTERN] dereferenced *)
Definition primary (s : sync) : option pattern :=
  do p <- get (s_pats s) 0; p.

(** trau_sync.c:359-380 correlate_history_against_pattern *)
Definition correlate (h : bits) (idx : nat) (p : pattern) : option nat :=
  let start := (HIST + idx - p_len p) mod HIST in
  if HIST <? p_len p then None (* OSMO_ASSERT :367 *) else
  forM (p_len p) 0 (fun i wrong =>
    let pos := (start + i) mod HIST in
    do m <- get (p_mask p) i;
    if negb m then Some wrong else
    do b <- get h pos;
    do v <- get (p_bits p) i;
    Some (if Bool.eqb b v then wrong else S wrong)) 0.

(** trau_sync.c:383-407 correlate_history_against_patterns *)
Fixpoint correlate_loop (h : bits) (idx : nat) (ps : list (option pattern)) (best : nat) : option nat :=
  match ps with
  | [] => Some best
  | None :: r => correlate_loop h idx r best
  | Some p :: r =>
    do w <- correlate h idx p;
    if w =? 0 then Some 0 else correlate_loop h idx r (if w <? best then w else best)
  end.
Definition correlate_all (s : sync) : option nat := correlate_loop (s_hist s) (s_idx s) (s_pats s) (160 * 8).

(** trau_sync.c:410-415 rx_history_add_bit *)
Definition rx_history_add_bit (s : sync) (b : bool) : option sync :=
  do h <- put (s_hist s) (s_idx s) b;
  Some (set_hist s h ((s_idx s + 1) mod HIST)).

(** trau_sync.c:418-424 rx_history_add_bits; the difference is unsigned, a
    negative one passes the assertion and overruns *)
Definition rx_history_add_bits (s : sync) (b : bits) : option sync :=
  do p <- primary s;
  if (s_idx s <=? p_len p) && (p_len p - s_idx s <? length b) then None (* OSMO_ASSERT :421 *) else
  do h <- blit (s_hist s) (s_idx s) b;
  Some (set_hist s h (s_idx s + length b)).

(** trau_sync.c:427-444 rx_history_align *)
Definition rx_history_align (junk : nat -> nat -> bool) (s : sync) : option sync :=
  do p <- primary s;
  let first := (HIST + s_idx s - p_len p) mod HIST in
  let tmp0 := vec HIST (junk (s_aligns s)) in
  do tmp <- forM (p_len p) 0 (fun i tmp => do b <- get (s_hist s) ((first + i) mod HIST); put tmp i b) tmp0;
  Some (mkSync tmp 0 (s_pats s) (s_err s) (s_fsm s) (s_timer s) (S (s_aligns s))).

(** trau_sync.c:590-611 out_state_mask *)
Definition may_change (from to : fsm) : bool :=
  match from, to with
  | WAIT_FRAME_ALIGN, FRAME_ALIGNED => true
  | FRAME_ALIGNED, (FRAME_ALIGNMENT_LOST | WAIT_FRAME_ALIGN) => true
  | FRAME_ALIGNMENT_LOST, (WAIT_FRAME_ALIGN | FRAME_ALIGNED) => true
  | _, _ => false
  end.
(** osmo_fsm_inst_state_chg(fi, to, timeout, T), with trau_sync.c:496-502
    trau_sync_aligned_onenter *)
Definition state_chg (junk : nat -> nat -> bool) (s : sync) (to : fsm) (timer : bool) : option (sync * list out) :=
  if negb (may_change (s_fsm s) to) then Some (s, []) else
  let s := set_fsm s to timer in
  match to with
  | FRAME_ALIGNED =>
    do s <- rx_history_align junk s;
    do p <- primary s;
    do f <- slice (s_hist s) 0 (p_len p);
    Some (s, [Frame f])
  | _ => Some (s, [])
  end.

(** trau_sync.c:466-494 trau_sync_wait_align: one pass of the loop *)
Definition wait_step (junk : nat -> nat -> bool) (s : sync) (bit : bool) : option (sync * list out) :=
  do s <- rx_history_add_bit s bit;
  do p <- primary s;
  do rc <- correlate (s_hist s) (s_idx s) p;
  if rc =? 0 then state_chg junk s FRAME_ALIGNED false else Some (s, []).

(** uint32 increment *)
Definition inc32 (e : Z) : Z := ((e + 1) mod 2 ^ 32)%Z.

(** trau_sync.c:504-548 trau_sync_aligned: one pass of the loop; returns the
    bits left *)
Definition aligned_step (junk : nat -> nat -> bool) (s : sync) (ubb : bits) : option (sync * list out * bits) :=
  do p <- primary s;
  let remaining := p_len p - s_idx s in
  if length ubb <? remaining then
    do s <- rx_history_add_bits s ubb;
    Some (s, [], [])
  else
    do s <- rx_history_add_bits s (firstn remaining ubb);
    let ubb := skipn remaining ubb in
    do rc <- correlate_all s;
    let s := if 0 <? rc then set_err s (inc32 (s_err s)) else set_err s 0%Z in
    if (0 <? rc) && (3 <=? s_err s)%Z then
      let s := set_hist s (s_hist s) 0 in
      do (s, o) <- state_chg junk s FRAME_ALIGNMENT_LOST true;
      Some (s, Lost :: o, ubb)
    else
      do f <- slice (s_hist s) 0 (s_idx s);
      Some (set_hist s (s_hist s) 0, [Frame f], ubb).

(** TRAUSYNC_E_RX_BITS: the loops of lines 474-489 and 513-544 together with
    the nested dispatches that continue with the remaining bits in the new
    state; every pass consumes at least one bit, so [length ubb] passes suffice *)
Fixpoint rx_bits (fuel : nat) (junk : nat -> nat -> bool) (s : sync) (ubb : bits) : option (sync * list out) :=
  match ubb with
  | [] => Some (s, [])
  | bit :: r =>
    match fuel with
    | O => None
    | S f =>
      do (s, o, rest) <- (match s_fsm s with
                          | FRAME_ALIGNED => aligned_step junk s ubb
                          | _ => do (s, o) <- wait_step junk s bit; Some (s, o, r)
                          end);
      do (s, o') <- rx_bits f junk s rest;
      Some (s, o ++ o')
    end
  end.

(** trau_sync.c:682-687 osmo_trau_sync_rx_ubits *)
Definition osmo_trau_sync_rx_ubits (junk : nat -> nat -> bool) (s : sync) (b : bits) : option (sync * list out) :=
  rx_bits (length b) junk s b.

(** trau_sync.c:624-654 osmo_trau_sync_alloc (allocation succeeds) *)
Definition osmo_trau_sync_alloc (i : pat_id) : sync :=
  mkSync (repeat true HIST) 0 (Some (sync_patterns i) :: repeat None 7) 0 WAIT_FRAME_ALIGN false 0.

(** trau_sync.c:656-666 osmo_trau_sync_set_pat *)
Definition osmo_trau_sync_set_pat (junk : nat -> nat -> bool) (s : sync) (i : pat_id) : option (sync * list out) :=
  state_chg junk (set_pats s (Some (sync_patterns i) :: repeat None 7)) FRAME_ALIGNMENT_LOST false.

(** trau_sync.c:668-680 osmo_trau_sync_set_secondary_pat; None: assertion *)
Definition osmo_trau_sync_set_secondary_pat (junk : nat -> nat -> bool) (s : sync) (i : pat_id) (k : nat) : option (sync * list out) :=
  if (0 <? k) && (k <? 8) then
    do p <- primary s;
    if p_len p =? p_len (sync_patterns i) then
      do ps <- put (s_pats s) k (Some (sync_patterns i));
      state_chg junk (set_pats s ps) FRAME_ALIGNMENT_LOST false
    else None
  else None.

(** trau_sync.c:574-587 trau_sync_timeout: T_SYNC expires *)
Definition trau_sync_timeout (junk : nat -> nat -> bool) (s : sync) : option (sync * list out) :=
  if s_timer s then state_chg junk (set_fsm s (s_fsm s) false) WAIT_FRAME_ALIGN false else Some (s, []).
