(** Model of src/subchan_demux.c (16k sub-channel demultiplexer and multiplexer)
    and include/osmocom/abis/subchan_demux.h. *)
From Coq Require Import List Arith Bool ZArith.
From Verif Require Import Base OldTrauModel.
Import ListNotations.

(** subchan_demux.h:35,39 *)
Definition NR_SUBCH := 4.
Definition TRAU_FRAME_BITS := 320.
(** subchan_demux.c:48 *)
Definition SYNC_HDR_BITS := 16.

(** * Demultiplexer *)

(** subchan_demux.h:46-55 struct demux_subch. [out_idx] is a uint16_t in C;
    every store below keeps it <= 320, so no wrap is modelled.
    [consecutive_zeros] is an unsigned int and wraps modulo 2^32. *)
Record sch := mkSch { out_bitbuf : bits; out_idx : nat; consecutive_zeros : Z; in_sync : bool }.

(** subchan_demux.h:58-69 struct subch_demux; out_cb/data are represented by
    the trace of calls. *)
Record dmx := mkDmx { chan_activ : Z; subch : list sch }.

Definition UINT_MOD : Z := (2 ^ 32)%Z.

(** subchan_demux.c:43-46 append_bit *)
Definition append_bit (s : sch) (b : bool) : option sch :=
  do buf <- put (out_bitbuf s) (out_idx s) b;
  Some (mkSch buf (S (out_idx s)) (consecutive_zeros s) (in_sync s)).

(** subchan_demux.c:52-65 sync_hdr_complete *)
Definition sync_hdr_complete (s : sch) (b : bool) : sch * bool :=
  if negb b then
    (mkSch (out_bitbuf s) (out_idx s) ((consecutive_zeros s + 1) mod UINT_MOD)%Z (in_sync s), false)
  else
    (mkSch (out_bitbuf s) (out_idx s) 0%Z (in_sync s),
     (Z.of_nat SYNC_HDR_BITS <=? consecutive_zeros s)%Z).

(** subchan_demux.c:68-77 resync_to_here *)
Definition resync_to_here (s : sch) : option sch :=
  do buf <- memset (out_bitbuf s) 0 false SYNC_HDR_BITS;
  do buf <- put buf SYNC_HDR_BITS true;
  Some (mkSch buf (SYNC_HDR_BITS + 1) (consecutive_zeros s) true).

(** subchan_demux.c:82-93 subch_demux_init: consecutive_zeros and in_sync keep
    their previous value. The memset to 0xff is a non-ubit filler, written here
    as [true]. *)
Definition subch_demux_init (d : dmx) : dmx :=
  mkDmx 0 (map (fun s => mkSch (repeat true TRAU_FRAME_BITS) 0 (consecutive_zeros s) (in_sync s)) (subch d)).

(** A demultiplexer in zero-initialised memory (talloc_zero / static), as all
    users in the repository have it (struct e1inp_ts in e1_input.c). *)
Definition zero_dmx : dmx :=
  mkDmx 0 (repeat (mkSch (repeat false TRAU_FRAME_BITS) 0 0 false) NR_SUBCH).

(** A callback invocation out_cb(dmx, ch, data, len): (ch, the len bits). *)
Definition call := (nat * bits)%type.

(** subchan_demux.c:95-116 append_bit_resync_out on one sub-channel: new state
    and the frame passed to out_cb, if any. *)
Definition sch_step (s : sch) (b : bool) : option (sch * list bits) :=
  do s <- append_bit s b;
  let '(s, hdr) := sync_hdr_complete s b in
  do s <- (if hdr then resync_to_here s else Some s);
  if TRAU_FRAME_BITS <=? out_idx s then
    if in_sync s then
      do fr <- slice (out_bitbuf s) 0 (out_idx s);
      Some (mkSch (out_bitbuf s) 0 (consecutive_zeros s) false, [fr])
    else Some (mkSch (out_bitbuf s) 0 (consecutive_zeros s) (in_sync s), [])
  else Some (s, []).

Definition append_bit_resync_out (d : dmx) (c : nat) (b : bool) : option (dmx * list call) :=
  do s <- get (subch d) c;
  do r <- sch_step s b; let '(s, fr) := r in
  do l <- put (subch d) c s;
  Some (mkDmx (chan_activ d) l, map (pair c) fr).

(** subchan_demux.c:126-158, body of the loop over c for one input byte *)
Definition demux_subch (inbyte : Z) (c : nat) (st : dmx * list call) : option (dmx * list call) :=
  let '(d, tr) := st in
  if negb (Z.testbit (chan_activ d) (Z.of_nat c)) then Some (d, tr) else
  let inbits := Z.shiftr inbyte (Z.of_nat (2 * c)) in
  do r <- append_bit_resync_out d c (Z.testbit inbits 0); let '(d, t1) := r in
  do r <- append_bit_resync_out d c (Z.testbit inbits 1); let '(d, t2) := r in
  Some (d, tr ++ t1 ++ t2).

Definition demux_byte (st : dmx * list call) (inbyte : Z) : option (dmx * list call) :=
  forM NR_SUBCH 0 (demux_subch inbyte) st.

(** subchan_demux.c:126-158 subch_demux_in; [len] is the length of [data] *)
Fixpoint subch_demux_in (st : dmx * list call) (data : list Z) : option (dmx * list call) :=
  match data with
  | [] => Some st
  | b :: rest => do st <- demux_byte st b; subch_demux_in st rest
  end.

(** subchan_demux.c:168-175 subch_demux_activate. A negative number is a
    negative shift (undefined). [chan_activ] is a uint8_t. *)
Definition subch_demux_activate (d : dmx) (n : Z) : option (Z * dmx) :=
  if (Z.of_nat NR_SUBCH <=? n)%Z then Some (EINVAL, d) else
  if (n <? 0)%Z then None else
  Some (0%Z, mkDmx (Z.lor (chan_activ d) (Z.shiftl 1 n) mod 256)%Z (subch d)).

(** subchan_demux.c:185-192 subch_demux_deactivate *)
Definition subch_demux_deactivate (d : dmx) (n : Z) : option (Z * dmx) :=
  if (Z.of_nat NR_SUBCH <=? n)%Z then Some (EINVAL, d) else
  if (n <? 0)%Z then None else
  Some (0%Z, mkDmx (Z.land (chan_activ d) (Z.lnot (Z.shiftl 1 n)) mod 256)%Z (subch d)).

(** Any history of API calls on one demultiplexer. *)
Inductive dop := Activate (n : Z) | Deactivate (n : Z) | In_ (data : list Z).

Definition dop_step (st : dmx * list call) (o : dop) : option (dmx * list call) :=
  let '(d, tr) := st in
  match o with
  | Activate n => do r <- subch_demux_activate d n; Some (snd r, tr)
  | Deactivate n => do r <- subch_demux_deactivate d n; Some (snd r, tr)
  | In_ data => subch_demux_in (d, tr) data
  end.

Fixpoint dops (st : dmx * list call) (l : list dop) : option (dmx * list call) :=
  match l with [] => Some st | o :: r => do st <- dop_step st o; dops st r end.

(** * Multiplexer *)

(** subchan_demux.h:81-89 struct subch_txq_entry; bit_len = length tbits *)
Record txe := mkTxe { tbits : bits; next_bit : nat }.

(** subchan_demux.h:92-101 struct subch_mux, plus the static state of
    trau_idle_frame() it uses. Simplification: talloc never fails. *)
Record mux := mkMux { queues : list (list txe); idle_st : idle_state }.

(** subchan_demux.c:297-310 tx_queue_evict *)
Definition tx_queue_evict (q : list txe) (n : nat) : list txe := skipn n q.

(** subchan_demux.c:319-338 subchan_mux_enqueue *)
Definition subchan_mux_enqueue (m : mux) (c : nat) (data : bits) : option mux :=
  do q <- get (queues m) c;
  let list_len := length q in
  let q := if 2 <? list_len then tx_queue_evict q (list_len - 2) else q in
  do qs <- put (queues m) c (q ++ [mkTxe data 0]);
  Some (mkMux qs (idle_st m)).

(** subchan_demux.c:196-201 alloc_add_idle_frame *)
Definition alloc_add_idle_frame (m : mux) (c : nat) : option mux :=
  do r <- trau_idle_frame (idle_st m); let '(st, f) := r in
  do f <- slice f 0 TRAU_FRAME_BITS;
  subchan_mux_enqueue (mkMux (queues m) st) c f.

(** subchan_demux.c:204-246 get_subch_bits; [buf]/[off] is the pointer [bits].
    [fuel] bounds the while loop; running out of fuel is [None], so the
    theorems that the result is not [None] include termination. *)
Fixpoint get_subch_bits (fuel : nat) (m : mux) (c : nat) (buf : bits) (off num_bits num_requested : nat)
  : option (mux * bits) :=
  match fuel with O => None | S fuel =>
    if num_bits <? num_requested then
      do q <- get (queues m) c;
      do m <- (match q with [] => alloc_add_idle_frame m c | _ => Some m end);
      do q <- get (queues m) c;
      match q with
      | [] => None (* -EIO, only if the allocation failed *)
      | e :: q' =>
        let num_bits_left := length (tbits e) - next_bit e in
        let thistime := if num_bits_left <? num_requested then num_bits_left else num_requested in
        do buf <- memcpy buf (off + num_bits) (tbits e) (next_bit e) thistime;
        let nb := next_bit e + thistime in
        let q := if length (tbits e) <=? nb then q' else mkTxe (tbits e) nb :: q' in
        do qs <- put (queues m) c q;
        get_subch_bits fuel (mkMux qs (idle_st m)) c buf off (num_bits + thistime) num_requested
      end
    else Some (m, buf)
  end.

(** subchan_demux.c:249-258 compact_bits *)
Definition compact_bits (b : bits) : option Z :=
  forM 8 0 (fun i ret => do x <- get b i; Some (Z.lor ret (Z.shiftl (Z.b2z x) (Z.of_nat i)))) 0%Z.

(** fuel: one iteration per queued entry plus two idle frames and the exit test *)
Definition fuel_for (m : mux) (c : nat) : nat :=
  match get (queues m) c with Some q => length q + 6 | None => 1 end.

(** subchan_demux.c:261-275 mux_output_byte; [bits] is an uninitialised array,
    [junk] its contents *)
Definition mux_output_byte (junk : bits) (m : mux) : option (mux * Z) :=
  do r <- get_subch_bits (fuel_for m 0) m 0 junk 0 0 2; let '(m, b) := r in
  do r <- get_subch_bits (fuel_for m 1) m 1 b 2 0 2; let '(m, b) := r in
  do r <- get_subch_bits (fuel_for m 2) m 2 b 4 0 2; let '(m, b) := r in
  do r <- get_subch_bits (fuel_for m 3) m 3 b 6 0 2; let '(m, b) := r in
  do v <- compact_bits b;
  Some (m, v).

(** subchan_demux.c:283-294 subchan_mux_out *)
Fixpoint subchan_mux_out (junk : bits) (m : mux) (len : nat) : option (mux * list Z) :=
  match len with
  | O => Some (m, [])
  | S n => do r <- mux_output_byte junk m; let '(m, v) := r in
           do r <- subchan_mux_out junk m n; let '(m, l) := r in Some (m, v :: l)
  end.

(** subchan_demux.c:344-355 subchan_mux_init, in a program that has not used
    trau_idle_frame() yet *)
Definition subchan_mux_init : mux := mkMux (repeat [] NR_SUBCH) idle_initial.

(** Any history of calls on one multiplexer; the result collects the output. *)
Inductive mop := Enqueue (c : nat) (data : bits) | Out (len : nat).

Fixpoint mops (junk : bits) (m : mux) (l : list mop) : option (mux * list Z) :=
  match l with
  | [] => Some (m, [])
  | Enqueue c data :: r => do m <- subchan_mux_enqueue m c data; mops junk m r
  | Out n :: r => do x <- subchan_mux_out junk m n; let '(m, o) := x in
                  do x <- mops junk m r; let '(m, o') := x in Some (m, o ++ o')
  end.
