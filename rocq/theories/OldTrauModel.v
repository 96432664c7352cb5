(** Model of src/trau_frame.c (legacy TRAU frame codec) and of
    include/osmocom/abis/trau_frame.h. *)
From Coq Require Import List Arith Bool ZArith.
From Verif Require Import Base.
Import ListNotations.

(** include/osmocom/abis/trau_frame.h:47-53 struct decoded_trau_frame;
    array sizes 25, 288, 4, 6, 2 (lines 34-44) are imposed by [dtf_wf]. *)
Record dtf := mkDtf { c_bits : bits; d_bits : bits; t_bits : bits; s_bits : bits; m_bits : bits }.

(** sizes of the C arrays *)
Definition dtf_wf (fr : dtf) : Prop :=
  length (c_bits fr) = 25 /\ length (d_bits fr) = 288 /\ length (t_bits fr) = 4 /\
  length (s_bits fr) = 6 /\ length (m_bits fr) = 2.

(** include/osmocom/abis/trau_frame.h:55-66 *)
Definition TRAU_FT_FR_UP := 2.      Definition TRAU_FT_FR_DOWN := 28.
Definition TRAU_FT_EFR := 26.       Definition TRAU_FT_AMR := 6.
Definition TRAU_FT_OM_UP := 5.      Definition TRAU_FT_OM_DOWN := 27.
Definition TRAU_FT_DATA_UP := 8.    Definition TRAU_FT_DATA_DOWN := 22.
Definition TRAU_FT_D145_SYNC := 20. Definition TRAU_FT_EDATA := 31.
Definition TRAU_FT_IDLE_UP := 16.   Definition TRAU_FT_IDLE_DOWN := 14.

(** trau_frame.c:40-51 get_bits *)
Definition get_bits (b : bits) (offset num : nat) : option nat :=
  do w <- slice b offset num;
  Some (fold_left (fun acc (x : bool) => 2 * acc + Nat.b2n x) w 0).

(** trau_frame.c:54-72 decode_fr *)
Definition decode_fr (fr : dtf) (b : bits) : option dtf :=
  do c <- memcpy (c_bits fr) 0 b 17 15;
  do c <- memcpy c 15 b 310 6;
  do t <- memcpy (t_bits fr) 0 b 316 4;
  do d <- forM 17 0 (fun k d => memcpy d (15 * k) b (32 + 16 * k + 1) 15) (d_bits fr);
  do d <- memcpy d 255 b 305 5;
  Some (mkDtf c d t (s_bits fr) (m_bits fr)).

(** trau_frame.c:75-96 decode_amr *)
Definition decode_amr (fr : dtf) (b : bits) : option dtf :=
  do c <- memcpy (c_bits fr) 0 b 17 15;
  do c <- memcpy c 15 b 33 10;
  do t <- memcpy (t_bits fr) 0 b 316 4;
  do d <- memcpy (d_bits fr) 0 b 43 5;
  do d <- forM 16 0 (fun k d => memcpy d (5 + 15 * k) b (48 + 16 * k + 1) 15) d;
  do d <- memcpy d 245 b 305 11;
  Some (mkDtf c d t (s_bits fr) (m_bits fr)).

(** trau_frame.c:98-104 decode_data *)
Definition decode_data (fr : dtf) (b : bits) : option dtf :=
  do c <- memcpy (c_bits fr) 0 b 17 15;
  do d <- memcpy (d_bits fr) 0 b 32 288;
  Some (mkDtf c d (t_bits fr) (s_bits fr) (m_bits fr)).

(** the frame types grouped as in the switch statements *)
Definition is_fr_type (t : nat) : bool :=
  existsb (Nat.eqb t) [TRAU_FT_FR_UP; TRAU_FT_FR_DOWN; TRAU_FT_IDLE_UP; TRAU_FT_IDLE_DOWN; TRAU_FT_EFR].
Definition is_data_type (t : nat) : bool :=
  existsb (Nat.eqb t) [TRAU_FT_DATA_UP; TRAU_FT_DATA_DOWN].

(** trau_frame.c:106-141 decode_trau_frame: (rc, *fr afterwards) *)
Definition decode_trau_frame (fr : dtf) (b : bits) : option (Z * dtf) :=
  do cbits5 <- get_bits b 17 5;
  if is_fr_type cbits5 then do f <- decode_fr fr b; Some (0%Z, f)
  else if cbits5 =? TRAU_FT_AMR then do f <- decode_amr fr b; Some (0%Z, f)
  else if is_data_type cbits5 then do f <- decode_data fr b; Some (0%Z, f)
  else Some ((-1)%Z, fr).

(** trau_frame.c:151-211 trau_frame_up2down (tables lines 143-145) *)
Definition trau_frame_up2down (fr : dtf) : option (Z * dtf) :=
  let setc c := mkDtf c (d_bits fr) (t_bits fr) (s_bits fr) (m_bits fr) in
  do cbits5 <- get_bits (c_bits fr) 0 5;
  if cbits5 =? TRAU_FT_FR_UP then
    do c <- blit (c_bits fr) 0 [true; true; true; false; false];
    do c <- memset c 5 false 6;
    do c <- memset c 11 true 10;
    Some (0%Z, setc c)
  else if cbits5 =? TRAU_FT_EFR then
    do c <- memset (c_bits fr) 5 false 6;
    do c <- put c 11 true;
    do c <- memset c 12 true 3;
    do c <- put c 15 true;
    do c <- memset c 16 true 5;
    Some (0%Z, setc c)
  else if cbits5 =? TRAU_FT_IDLE_UP then
    do c <- blit (c_bits fr) 0 [false; true; true; true; false];
    do c <- memset c 5 false 6;
    do c <- memset c 11 true 10;
    Some (0%Z, setc c)
  else if cbits5 =? TRAU_FT_DATA_UP then
    do c <- blit (c_bits fr) 0 [true; false; true; true; false];
    Some (0%Z, setc c)
  else if existsb (Nat.eqb cbits5) [TRAU_FT_FR_DOWN; TRAU_FT_IDLE_DOWN; TRAU_FT_OM_DOWN; TRAU_FT_DATA_DOWN]
  then Some (EINVAL, fr)
  else Some ((-1)%Z, fr).

(** trau_frame.c:213-237 encode_fr *)
Definition encode_fr (b : bits) (fr : dtf) : option bits :=
  do b <- put b 16 true;
  do b <- memcpy b 17 (c_bits fr) 0 15;
  do b <- forM 17 0 (fun k b => do b <- put b (32 + 16 * k) true;
                                memcpy b (32 + 16 * k + 1) (d_bits fr) (15 * k) 15) b;
  do b <- put b 304 true;
  do b <- memcpy b 305 (d_bits fr) 255 5;
  do b <- memcpy b 310 (c_bits fr) 15 6;
  memcpy b 316 (t_bits fr) 0 4.

(** trau_frame.c:239-246 encode_data *)
Definition encode_data (b : bits) (fr : dtf) : option bits :=
  do b <- put b 16 true;
  do b <- memcpy b 17 (c_bits fr) 0 15;
  memcpy b 32 (d_bits fr) 0 288.

(** trau_frame.c:253-289 encode_trau_frame: (rc, trau_bits afterwards) *)
Definition encode_trau_frame (b : bits) (fr : dtf) : option (Z * bits) :=
  do cbits5 <- get_bits (c_bits fr) 0 5;
  do b <- memset b 0 false 16;
  if is_fr_type cbits5 then do b <- encode_fr b fr; Some (0%Z, b)
  else if is_data_type cbits5 then do b <- encode_data b fr; Some (0%Z, b)
  else Some ((-1)%Z, b).

(** trau_frame.c:291-296: the static objects, zero-initialised except for the
    listed members *)
Record idle_state := mkIdle { fr_idle_frame : dtf; encoded_idle_frame : bits; dbits_initted : bool }.
Definition idle_initial : idle_state :=
  mkIdle (mkDtf ([false; true; true; true; false] ++ repeat false 20) (repeat false 288)
                (repeat true 4) (repeat false 6) (repeat false 2))
         (repeat false 320) false.

(** trau_frame.c:300-329 trau_idle_frame: (static state afterwards, returned buffer) *)
Definition trau_idle_frame (st : idle_state) : option (idle_state * bits) :=
  if dbits_initted st then Some (st, encoded_idle_frame st) else
  let fr := fr_idle_frame st in
  do d <- memset (d_bits fr) 0 true 260;
  do c <- memset (c_bits fr) 0 true 25;
  do c <- blit c 0 [false; true; true; true; false];
  do c <- blit c 5 [false; false; false; false; false; false];
  do c <- put c 11 true;
  do c <- put c 15 true;
  let fr := mkDtf c d (t_bits fr) (s_bits fr) (m_bits fr) in
  do e <- encode_fr (encoded_idle_frame st) fr;
  Some (mkIdle fr e true, e).
