(** Model of src/trau/trau_frame.c and include/osmocom/trau/trau_frame.h (TRAU
    frame codec, 16k and 8k sub-slots).  [ubit_t] is modelled as bool (every
    byte of a ubit_t array is 0 or 1).  [None] = access outside an object or
    signed overflow. *)
From Coq Require Import List Arith Bool ZArith.
From Verif Require Import Base.
Import ListNotations.

(** include/osmocom/trau/trau_frame.h:77-98 enum osmo_trau_frame_type; the
    last constructor stands for any value that is not an enumerator. *)
Inductive ftype :=
  | FT_NONE | T16_FR | T16_HR | T16_EFR | T16_AMR | T16_OAM | T16_DATA | T16_EDATA
  | T16_D145_SYNC | T16_DATA_HR | T16_IDLE
  | T8_SPEECH | T8_DATA | T8_OAM | T8_AMR_LOW | T8_AMR_6k7 | T8_AMR_7k4
  | FT_other (n : nat).

(** trau_frame.h:105-108 *)
Inductive fdir := UL | DL.

(** trau_frame.h:110-125 struct osmo_trau_frame; array sizes (lines 35-46,
    122) are imposed by [tf_wf]. *)
Record tframe := mkTf { tf_type : ftype; tf_dir : fdir; tf_ta : Z;
  tf_c : bits; tf_d : bits; tf_t : bits; tf_s : bits; tf_m : bits;
  tf_ufi : bool; tf_crc : bits; tf_xc : bits }.

Definition tf_wf (fr : tframe) : Prop :=
  length (tf_c fr) = 25 /\ length (tf_d fr) = 288 /\ length (tf_t fr) = 4 /\
  length (tf_s fr) = 6 /\ length (tf_m fr) = 2 /\ length (tf_crc fr) = 3 /\ length (tf_xc fr) = 6.

(** C 32-bit int: value in range, or undefined *)
Definition int_chk (z : Z) : option Z :=
  if ((-2147483648 <=? z) && (z <=? 2147483647))%Z then Some z else None.

(** trau_frame.c:39-50 get_bits *)
Definition get_bits (b : bits) (offset num : nat) : option nat :=
  do w <- slice b offset num;
  Some (fold_left (fun acc (x : bool) => 2 * acc + Nat.b2n x) w 0).

(** trau_frame.c:85-103 frame type bit tables *)
Definition ft_fr_up_bits        := [false; false; false; true; false].
Definition ft_fr_down_bits      := [true; true; true; false; false].
Definition ft_data_up_bits      := [false; true; false; false; false].
Definition ft_data_down_bits    := [true; false; true; true; false].
Definition ft_idle_up_bits      := [true; false; false; false; false].
Definition ft_idle_down_bits    := [false; true; true; true; false].
Definition ft_efr_bits          := [true; true; false; true; false].
Definition ft_amr_bits          := [false; false; true; true; false].
Definition ft_oam_up_bits       := [false; false; true; false; true].
Definition ft_oam_down_bits     := [true; true; false; true; true].
Definition ft_d145s_bits        := [true; false; true; false; false].
Definition ft_edata_bits        := [true; true; true; true; true].
Definition ft_hr_up_bits        := [false; false; false; true; true].
Definition ft_hr_down_bits      := [true; true; true; false; true].
Definition ft_data_hr_up_bits   := [false; true; false; false; true].
Definition ft_data_hr_down_bits := [true; false; true; true; true].

(** trau_frame.c:107-116 encode_sync16 *)
Definition encode_sync16 (b : bits) : option bits :=
  do b <- memset b 0 false 16;
  forM 19 0 (fun k b => put b (16 + 16 * k) true) b.

(** trau_frame.c:125-135 trau_frame_16_ta_us *)
Definition trau_frame_16_ta_us (c6_11 : Z) : Z :=
  (if c6_11 <=? 39 then c6_11 * 500
   else if c6_11 =? 62 then 250 else if c6_11 =? 63 then -250 else 0)%Z.

(** trau_frame.c:138-161 trau_frame_8_ta_us *)
Definition trau_frame_8_ta_us (c6_8 : Z) : Z :=
  (if c6_8 =? 7 then 0 else if c6_8 =? 6 then -250 else if c6_8 =? 5 then 250
   else if c6_8 =? 3 then 500 else if c6_8 =? 4 then 1000 else if c6_8 =? 2 then 2000
   else if c6_8 =? 1 then 6000 else if c6_8 =? 0 then 9000 else 0)%Z.

(** trau_frame.c:164-202 osmo_trau_frame_dl_ta_us; the shift/or expressions
    are the MSB-first value of consecutive C bits, [get_bits]. *)
Definition osmo_trau_frame_dl_ta_us (fr : tframe) : option Z :=
  match tf_dir fr with
  | DL => Some 0%Z
  | UL =>
    match tf_type fr with
    | T16_FR | T16_EFR | T16_HR | T16_AMR =>
        do v <- get_bits (tf_c fr) 5 6; Some (trau_frame_16_ta_us (Z.of_nat v))
    | T8_SPEECH => do v <- get_bits (tf_c fr) 5 3; Some (trau_frame_8_ta_us (Z.of_nat v))
    | T8_AMR_LOW =>
        do fc <- get_bits (tf_c fr) 3 2;
        if fc =? 0 then do v <- get_bits (tf_c fr) 5 6; Some (trau_frame_16_ta_us (Z.of_nat v))
        else Some 0%Z
    | _ => Some 0%Z
    end
  end.

(** trau_frame.c:204-220 encode16_handle_ta: (returned length, buffer) *)
Definition encode16_handle_ta (b : bits) (fr : tframe) : option (Z * bits) :=
  match tf_dir fr with
  | DL =>
    do p <- int_chk (tf_ta fr * 4);
    let num := Z.quot p 250 in
    if (0 <? num)%Z then
      let num := if (312 <? num)%Z then 39%Z else num in
      do b <- memset b 320 true (Z.to_nat num);
      Some ((320 + num)%Z, b)
    else if (num <? 0)%Z then
      let num := if (num <? -4)%Z then (-4)%Z else num in
      Some ((320 + num)%Z, b)
    else Some (320%Z, b)
  | UL => Some (320%Z, b)
  end.

(** trau_frame.c:222-238 encode8_handle_ta *)
Definition encode8_handle_ta (b : bits) (fr : tframe) : option (Z * bits) :=
  match tf_dir fr with
  | DL =>
    do p <- int_chk (tf_ta fr * 2);
    let num := Z.quot p 250 in
    if (0 <? num)%Z then
      let num := if (158 <? num)%Z then 158%Z else num in
      do b <- memset b 160 true (Z.to_nat num);
      Some ((160 + num)%Z, b)
    else if (num <? 0)%Z then
      let num := if (num <? -2)%Z then (-2)%Z else num in
      Some ((160 + num)%Z, b)
    else Some (160%Z, b)
  | UL => Some (160%Z, b)
  end.

(** a body that has written the frame, followed by a constant return length *)
Definition ret (n : Z) (b : bits) : option (Z * bits) := Some (n, b).

(** trau_frame.c:247-268: the type bits chosen by encode16_fr *)
Definition fr_cbits5 (fr : tframe) : option bits :=
  match tf_type fr with
  | T16_IDLE => Some (match tf_dir fr with UL => ft_idle_up_bits | DL => ft_idle_down_bits end)
  | T16_FR => Some (match tf_dir fr with UL => ft_fr_up_bits | DL => ft_fr_down_bits end)
  | T16_EFR => Some ft_efr_bits
  | _ => None
  end.

(** trau_frame.c:270-286 encode16_fr, the stores up to the T bits *)
Definition fill16_fr (cbits5 : bits) (fr : tframe) (b : bits) : option bits :=
  do b <- encode_sync16 b;
  do b <- memcpy b 17 cbits5 0 5;
  do b <- memcpy b 22 (tf_c fr) 5 10;
  do b <- forM 17 0 (fun k b => do b <- put b (32 + 16 * k) true;
                                memcpy b (32 + 16 * k + 1) (tf_d fr) (15 * k) 15) b;
  do b <- put b 304 true;
  do b <- memcpy b 305 (tf_d fr) 255 5;
  do b <- memcpy b 310 (tf_c fr) 15 6;
  memcpy b 316 (tf_t fr) 0 4.

(** trau_frame.c:241-290 encode16_fr *)
Definition encode16_fr (b : bits) (fr : tframe) : option (Z * bits) :=
  match fr_cbits5 fr with
  | None => Some (EINVAL, b)
  | Some cbits5 => do b <- fill16_fr cbits5 fr b; encode16_handle_ta b fr
  end.

(** trau_frame.c:293-314 decode16_fr *)
Definition decode16_fr (fr : tframe) (b : bits) : option tframe :=
  do c <- memcpy (tf_c fr) 0 b 17 15;
  do c <- memcpy c 15 b 310 6;
  do t <- memcpy (tf_t fr) 0 b 316 4;
  do d <- forM 17 0 (fun k d => memcpy d (15 * k) b (32 + 16 * k + 1) 15) (tf_d fr);
  do d <- memcpy d 255 b 305 5;
  Some (mkTf (tf_type fr) (tf_dir fr) (tf_ta fr) c d t (tf_s fr) (tf_m fr) (tf_ufi fr) (tf_crc fr) (tf_xc fr)).

(** trau_frame.c:321-342 encode16_amr, the stores up to the T bits; the D loop
    makes 17 iterations (i = 48, 64, ..., 304) *)
Definition fill16_amr (fr : tframe) (b : bits) : option bits :=
  do b <- encode_sync16 b;
  do b <- memcpy b 17 ft_amr_bits 0 5;
  do b <- memcpy b 22 (tf_c fr) 5 10;
  do b <- put b 32 true;
  do b <- memcpy b 33 (tf_c fr) 15 10;
  do b <- memcpy b 43 (tf_d fr) 0 5;
  do b <- forM 17 0 (fun k b => do b <- put b (48 + 16 * k) true;
                                memcpy b (48 + 16 * k + 1) (tf_d fr) (5 + 15 * k) 15) b;
  memcpy b 316 (tf_t fr) 0 4.

(** trau_frame.c:317-347 encode16_amr *)
Definition encode16_amr (b : bits) (fr : tframe) : option (Z * bits) :=
  do b <- fill16_amr fr b; encode16_handle_ta b fr.

(** trau_frame.c:350-374 decode16_amr *)
Definition decode16_amr (fr : tframe) (b : bits) : option tframe :=
  do c <- memcpy (tf_c fr) 0 b 17 15;
  do c <- memcpy c 15 b 33 10;
  do t <- memcpy (tf_t fr) 0 b 316 4;
  do d <- memcpy (tf_d fr) 0 b 43 5;
  do d <- forM 16 0 (fun k d => memcpy d (5 + 15 * k) b (48 + 16 * k + 1) 15) d;
  do d <- memcpy d 245 b 305 11;
  Some (mkTf (tf_type fr) (tf_dir fr) (tf_ta fr) c d t (tf_s fr) (tf_m fr) (tf_ufi fr) (tf_crc fr) (tf_xc fr)).

(** trau_frame.c:377-406 encode16_oam *)
Definition fill16_oam (fr : tframe) (b : bits) : option bits :=
  do b <- encode_sync16 b;
  do b <- memcpy b 17 (match tf_dir fr with UL => ft_oam_up_bits | DL => ft_oam_down_bits end) 0 5;
  do b <- memcpy b 22 (tf_c fr) 0 10;
  do b <- forM 17 0 (fun k b => do b <- put b (32 + 16 * k) true;
                                memcpy b (32 + 16 * k + 1) (tf_d fr) (15 * k) 15) b;
  do b <- memcpy b 305 (tf_d fr) 256 9;
  memcpy b 314 (tf_s fr) 0 6.
Definition encode16_oam (b : bits) (fr : tframe) : option (Z * bits) :=
  do b <- fill16_oam fr b; ret 320 b.

(** trau_frame.c:409-427 decode16_oam; the loop i = 33, 49, ..., 305 makes 18
    iterations and leaves d_idx = 270 *)
Definition decode16_oam (fr : tframe) (b : bits) : option tframe :=
  do c <- memcpy (tf_c fr) 0 b 17 15;
  do d <- forM 18 0 (fun k d => memcpy d (15 * k) b (33 + 16 * k + 1) 15) (tf_d fr);
  do d <- memcpy d 270 b 305 9;
  do s <- memcpy (tf_s fr) 0 b 314 6;
  Some (mkTf (tf_type fr) (tf_dir fr) (tf_ta fr) c d (tf_t fr) s (tf_m fr) (tf_ufi fr) (tf_crc fr) (tf_xc fr)).

(** trau_frame.c:430-474 encode16_hr, the stores up to the T bits *)
Definition fill16_hr (fr : tframe) (b : bits) : option bits :=
  do b <- encode_sync16 b;
  do b <- memcpy b 17 (match tf_dir fr with UL => ft_hr_up_bits | DL => ft_hr_down_bits end) 0 5;
  do b <- memcpy b 22 (tf_c fr) 5 10;
  do b <- put b 33 (tf_ufi fr);
  do b <- memcpy b (4 * 8 + 2) (tf_d fr) 0 14;
  do b <- memcpy b (6 * 8 + 1) (tf_d fr) 14 15;
  do b <- memcpy b (8 * 8 + 1) (tf_d fr) 29 15;
  do b <- memcpy b (10 * 8 + 1) (tf_crc fr) 0 3;
  do b <- memcpy b (10 * 8 + 4) (tf_d fr) 44 12;
  do b <- memcpy b (12 * 8 + 1) (tf_d fr) 56 15;
  do b <- memcpy b (14 * 8 + 1) (tf_d fr) 71 15;
  do b <- memcpy b (16 * 8 + 1) (tf_d fr) 86 15;
  do b <- memcpy b (18 * 8 + 1) (tf_d fr) 101 11;
  do b <- memset b (19 * 8 + 4) true (4 + 18 * 8 + 6);
  do b <- memcpy b (38 * 8 + 6) (tf_c fr) 15 6;
  memcpy b (39 * 8 + 4) (tf_t fr) 0 4.

(** trau_frame.c:430-478 encode16_hr *)
Definition encode16_hr (b : bits) (fr : tframe) : option (Z * bits) :=
  do b <- fill16_hr fr b; encode16_handle_ta b fr.

(** trau_frame.c:481-515 decode16_hr *)
Definition decode16_hr (fr : tframe) (b : bits) : option tframe :=
  do c <- memcpy (tf_c fr) 0 b 17 15;
  do c <- memcpy c 15 b (38 * 8 + 6) 6;
  do t <- memcpy (tf_t fr) 0 b (39 * 8 + 4) 4;
  do ufi <- get b 33;
  do d <- memcpy (tf_d fr) 0 b (4 * 8 + 2) 14;
  do d <- memcpy d 14 b (6 * 8 + 1) 15;
  do d <- memcpy d 29 b (8 * 8 + 1) 15;
  do crc <- memcpy (tf_crc fr) 0 b (10 * 8 + 1) 3;
  do d <- memcpy d 44 b (10 * 8 + 4) 12;
  do d <- memcpy d 56 b (12 * 8 + 1) 15;
  do d <- memcpy d 71 b (14 * 8 + 1) 15;
  do d <- memcpy d 86 b (16 * 8 + 1) 15;
  do d <- memcpy d 101 b (18 * 8 + 1) 11;
  Some (mkTf (tf_type fr) (tf_dir fr) (tf_ta fr) c d t (tf_s fr) (tf_m fr) ufi crc (tf_xc fr)).

(** trau_frame.c:517-524: static objects of the idle frame generator *)
Record idle_state := mkIdle { fr_idle_frame : tframe; encoded_idle_frame : bits; dbits_initted : bool }.
Definition idle_initial : idle_state :=
  mkIdle (mkTf T16_IDLE DL 0 (repeat false 25) (repeat false 288) (repeat true 4) (repeat false 6)
               (repeat false 2) false (repeat false 3) (repeat false 6))
         (repeat false 320) false.

(** trau_frame.c:527-556 trau_idle_frame *)
Definition trau_idle_frame (st : idle_state) : option (idle_state * bits) :=
  if dbits_initted st then Some (st, encoded_idle_frame st) else
  let f := fr_idle_frame st in
  do d <- memset (tf_d f) 0 true 260;
  do c <- memset (tf_c f) 0 true 25;
  do c <- blit c 0 [false; true; true; true; false];
  do c <- blit c 5 [false; false; false; false; false; false];
  do c <- put c 11 true;
  do c <- put c 15 true;
  let f := mkTf (tf_type f) (tf_dir f) (tf_ta f) c d (tf_t f) (tf_s f) (tf_m f) (tf_ufi f) (tf_crc f) (tf_xc f) in
  do r <- encode16_fr (encoded_idle_frame st) f;
  let st := mkIdle f (snd r) true in
  Some (st, snd r).

(** trau_frame.c:559-563 encode16_idle *)
Definition encode16_idle (st : idle_state) (b : bits) : option (idle_state * (Z * bits)) :=
  do r <- trau_idle_frame st;
  do b <- memcpy b 0 (snd r) 0 320;
  Some (fst r, (320%Z, b)).

(** trau_frame.c:566-598 decode16_data *)
Definition decode16_data (fr : tframe) (b : bits) : option tframe :=
  do c <- memcpy (tf_c fr) 0 b 17 15;
  do d <- forM 9 0 (fun i d => memcpy d (7 * i) b ((4 + i) * 8 + 1) 7) (tf_d fr);
  do d <- forM 9 0 (fun i d => memcpy d (63 + 7 * i) b ((13 + i) * 8 + 1) 7) d;
  do d <- forM 9 0 (fun i d => memcpy d (126 + 7 * i) b ((22 + i) * 8 + 1) 7) d;
  do d <- forM 9 0 (fun i d => memcpy d (189 + 7 * i) b ((31 + i) * 8 + 1) 7) d;
  Some (mkTf (tf_type fr) (tf_dir fr) (tf_ta fr) c d (tf_t fr) (tf_s fr) (tf_m fr) (tf_ufi fr) (tf_crc fr) (tf_xc fr)).

(** one 9-octet data block: trau_frame.c:619-624 and the three that follow *)
Definition data9 (first didx : nat) (fr : tframe) (b : bits) : option bits :=
  forM 9 0 (fun i b => do b <- put b ((first + i) * 8) true;
                       memcpy b ((first + i) * 8 + 1) (tf_d fr) (didx + 7 * i) 7) b.

(** trau_frame.c:601-651 encode16_data *)
Definition fill16_data (fr : tframe) (b : bits) : option bits :=
  do b <- encode_sync16 b;
  do b <- memcpy b 17 (match tf_dir fr with UL => ft_data_up_bits | DL => ft_data_down_bits end) 0 5;
  do b <- memcpy b 22 (tf_c fr) 5 10;
  do b <- data9 4 0 fr b;
  do b <- data9 13 63 fr b;
  do b <- data9 22 126 fr b;
  data9 31 189 fr b.
Definition encode16_data (b : bits) (fr : tframe) : option (Z * bits) :=
  do b <- fill16_data fr b; ret 320 b.

(** trau_frame.c:654-667 encode16_d145_sync *)
Definition fill16_d145_sync (fr : tframe) (b : bits) : option bits :=
  do b <- encode_sync16 b;
  do b <- memcpy b 17 ft_d145s_bits 0 5;
  do b <- memcpy b 22 (tf_c fr) 5 10;
  memset b (4 * 8) true ((40 - 4) * 8).
Definition encode16_d145_sync (b : bits) (fr : tframe) : option (Z * bits) :=
  do b <- fill16_d145_sync fr b; ret 320 b.

(** trau_frame.c:670-683 decode16_edata *)
Definition decode16_edata (fr : tframe) (b : bits) : option tframe :=
  do c <- memcpy (tf_c fr) 0 b 17 13;
  do m <- memcpy (tf_m fr) 0 b 30 2;
  do d <- memcpy (tf_d fr) 0 b (4 * 8) 288;
  Some (mkTf (tf_type fr) (tf_dir fr) (tf_ta fr) c d (tf_t fr) (tf_s fr) m (tf_ufi fr) (tf_crc fr) (tf_xc fr)).

(** trau_frame.c:686-712 encode16_edata *)
Definition fill16_edata (fr : tframe) (b : bits) : option bits :=
  do b <- memset b 0 false 16;
  do b <- put b 16 true;
  do b <- memcpy b 17 (match tf_type fr with T16_D145_SYNC => ft_d145s_bits | _ => ft_edata_bits end) 0 5;
  do b <- memcpy b 22 (tf_c fr) 5 8;
  do b <- memcpy b 30 (tf_m fr) 0 2;
  memcpy b (4 * 8) (tf_d fr) 0 288.
Definition encode16_edata (b : bits) (fr : tframe) : option (Z * bits) :=
  do b <- fill16_edata fr b; ret 320 b.

(** trau_frame.c:715-736 decode16_data_hr *)
Definition decode16_data_hr (fr : tframe) (b : bits) : option tframe :=
  do c <- memcpy (tf_c fr) 0 b 17 15;
  do d <- forM 9 0 (fun i d => memcpy d (7 * i) b ((4 + i) * 8 + 1) 7) (tf_d fr);
  do d <- forM 9 0 (fun i d => memcpy d (63 + 7 * i) b ((22 + i) * 8 + 1) 7) d;
  Some (mkTf (tf_type fr) (tf_dir fr) (tf_ta fr) c d (tf_t fr) (tf_s fr) (tf_m fr) (tf_ufi fr) (tf_crc fr) (tf_xc fr)).

(** trau_frame.c:739-777 encode16_data_hr *)
Definition fill16_data_hr (fr : tframe) (b : bits) : option bits :=
  do b <- encode_sync16 b;
  do b <- memcpy b 17 (match tf_dir fr with UL => ft_data_hr_up_bits | DL => ft_data_hr_down_bits end) 0 5;
  do b <- memcpy b 22 (tf_c fr) 5 10;
  do b <- data9 4 0 fr b;
  do b <- memset b (13 * 8) true (9 * 8);
  do b <- data9 22 63 fr b;
  memset b (31 * 8) true (9 * 8).
Definition encode16_data_hr (b : bits) (fr : tframe) : option (Z * bits) :=
  do b <- fill16_data_hr fr b; ret 320 b.

(** trau_frame.c:780-826 decode8_hr *)
Definition decode8_hr (fr : tframe) (b : bits) : option tframe :=
  do c <- memcpy (tf_c fr) 0 b 9 5;
  do xc <- memcpy (tf_xc fr) 0 b (8 + 6) 2;
  do xc <- memcpy xc 2 b (2 * 8 + 2) 4;
  do d <- memcpy (tf_d fr) 0 b (2 * 8 + 6) 2;
  do d <- forM 6 0 (fun k d => memcpy d (2 + 7 * k) b ((3 + k) * 8 + 1) 7) d;
  do crc <- memcpy (tf_crc fr) 0 b 73 3;
  do d <- memcpy d 44 b 76 4;
  do d <- forM 9 0 (fun k d => memcpy d (48 + 7 * k) b ((10 + k) * 8 + 1) 7) d;
  do d <- memcpy d 111 b (19 * 8 + 1) 1;
  do c <- memcpy c 5 b (19 * 8 + 2) 4;
  do t <- memcpy (tf_t fr) 0 b (19 * 8 + 6) 1;
  do t <- memcpy t 1 b (19 * 8 + 7) 1;
  Some (mkTf (tf_type fr) (tf_dir fr) (tf_ta fr) c d t (tf_s fr) (tf_m fr) (tf_ufi fr) crc xc).

(** trau_frame.c:829-843 compute_odd_parity *)
Definition compute_odd_parity (b : bits) (off num : nat) : option bool :=
  do w <- slice b off num;
  Some (negb (Nat.odd (length (filter (fun x => x) w)))).

(** the 8k sync pattern shared by encode8_hr/data/oam: trau_frame.c:850-856,
    1151-1157, 1212-1218 *)
Definition encode_sync8 (b : bits) : option bits :=
  do b <- memset b 0 false 8;
  do b <- put b 8 true;
  do b <- put b 16 false;
  do b <- put b 17 true;
  forM 17 3 (fun i b => put b (i * 8) true) b.

(** trau_frame.c:846-910 encode8_hr, the stores up to the T bits *)
Definition fill8_hr (fr : tframe) (b : bits) : option bits :=
  do b <- encode_sync8 b;
  do b <- (match tf_dir fr with
           | UL => puts b 9 [false; false; false; true; false]
           | DL => do b <- puts b 9 [false; false; false];
                   do b <- memcpy b 12 (tf_c fr) 3 1;
                   do p <- compute_odd_parity b 9 4;
                   put b 13 p
           end);
  do b <- memcpy b (1 * 8 + 6) (tf_xc fr) 0 2;
  do b <- memcpy b (2 * 8 + 2) (tf_xc fr) 2 4;
  do b <- memcpy b (2 * 8 + 6) (tf_d fr) 0 2;
  do b <- forM 6 0 (fun k b => memcpy b ((3 + k) * 8 + 1) (tf_d fr) (2 + 7 * k) 7) b;
  do b <- memcpy b 73 (tf_crc fr) 0 3;
  do b <- memcpy b 76 (tf_d fr) 44 4;
  do b <- forM 9 0 (fun k b => memcpy b ((10 + k) * 8 + 1) (tf_d fr) (48 + 7 * k) 7) b;
  do b <- memcpy b (19 * 8 + 1) (tf_d fr) 111 1;
  do b <- memcpy b (19 * 8 + 2) (tf_c fr) 5 4;
  do b <- memcpy b (19 * 8 + 6) (tf_t fr) 0 1;
  memcpy b (19 * 8 + 7) (tf_t fr) 1 1.

(** trau_frame.c:846-914 encode8_hr *)
Definition encode8_hr (b : bits) (fr : tframe) : option (Z * bits) :=
  do b <- fill8_hr fr b; encode8_handle_ta b fr.

(** trau_frame.c:917-947 decode8_amr_low *)
Definition decode8_amr_low (fr : tframe) (b : bits) : option tframe :=
  do d <- memcpy (tf_d fr) 0 b (1 * 8 + 1) 7;
  do c <- memcpy (tf_c fr) 0 b (2 * 8 + 1) 5;
  do d <- memcpy d 7 b (2 * 8 + 6) 2;
  do d <- memcpy d 9 b (3 * 8 + 2) 6;
  do d <- forM 15 0 (fun k d => memcpy d (15 + 7 * k) b ((4 + k) * 8 + 1) 7) d;
  do d <- memcpy d 120 b (19 * 8 + 1) 6;
  do t <- memcpy (tf_t fr) 0 b (19 * 8 + 7) 1;
  Some (mkTf (tf_type fr) (tf_dir fr) (tf_ta fr) c d t (tf_s fr) (tf_m fr) (tf_ufi fr) (tf_crc fr) (tf_xc fr)).

(** trau_frame.c:950-985 encode8_amr_low, the stores *)
Definition fill8_amr_low (fr : tframe) (b : bits) : option bits :=
  do b <- memset b 0 false 8;
  do b <- put b 8 true;
  do b <- put b 16 true;
  do b <- put b 24 false;
  do b <- put b 25 true;
  do b <- forM 16 4 (fun i b => put b (i * 8) true) b;
  do b <- memcpy b (1 * 8 + 1) (tf_d fr) 0 7;
  do b <- memcpy b (2 * 8 + 1) (tf_c fr) 0 5;
  do b <- memcpy b (2 * 8 + 6) (tf_d fr) 7 2;
  do b <- memcpy b (3 * 8 + 2) (tf_d fr) 9 6;
  do b <- forM 15 0 (fun k b => memcpy b ((4 + k) * 8 + 1) (tf_d fr) (15 + 7 * k) 7) b;
  do b <- memcpy b (19 * 8 + 1) (tf_d fr) 120 6;
  memcpy b (19 * 8 + 7) (tf_t fr) 0 1.

(** trau_frame.c:950-988 encode8_amr_low *)
Definition encode8_amr_low (b : bits) (fr : tframe) : option (Z * bits) :=
  do b <- fill8_amr_low fr b; encode8_handle_ta b fr.

(** trau_frame.c:991-1019 decode8_amr_67; second loop i = 7, 9, ..., 19 *)
Definition decode8_amr_67 (fr : tframe) (b : bits) : option tframe :=
  do d <- memcpy (tf_d fr) 0 b (1 * 8 + 1) 7;
  do c <- memcpy (tf_c fr) 0 b (2 * 8 + 1) 3;
  do d <- memcpy d 7 b (2 * 8 + 4) 4;
  do d <- forM 4 0 (fun k d => memcpy d (11 + 7 * k) b ((3 + k) * 8 + 2) 7) d;
  do d <- forM 7 0 (fun k d => memcpy d (39 + 15 * k) b ((7 + 2 * k) * 8 + 1) 15) d;
  Some (mkTf (tf_type fr) (tf_dir fr) (tf_ta fr) c d (tf_t fr) (tf_s fr) (tf_m fr) (tf_ufi fr) (tf_crc fr) (tf_xc fr)).

(** trau_frame.c:1022-1056 encode8_amr_67, the stores *)
Definition fill8_amr_67 (fr : tframe) (b : bits) : option bits :=
  do b <- memset b 0 false 8;
  do b <- put b (1 * 8) true;
  do b <- put b (2 * 8) true;
  do b <- put b (3 * 8) true;
  do b <- put b (4 * 8) true;
  do b <- put b (5 * 8) false;
  do b <- forM 8 0 (fun k b => put b ((5 + 2 * k) * 8) true) b;
  do b <- memcpy b (1 * 8 + 1) (tf_d fr) 0 7;
  do b <- memcpy b (2 * 8 + 1) (tf_c fr) 0 3;
  do b <- memcpy b (2 * 8 + 4) (tf_d fr) 7 4;
  do b <- forM 4 0 (fun k b => memcpy b ((3 + k) * 8 + 2) (tf_d fr) (11 + 7 * k) 7) b;
  forM 7 0 (fun k b => memcpy b ((7 + 2 * k) * 8 + 1) (tf_d fr) (39 + 15 * k) 15) b.

(** trau_frame.c:1022-1059 encode8_amr_67 *)
Definition encode8_amr_67 (b : bits) (fr : tframe) : option (Z * bits) :=
  do b <- fill8_amr_67 fr b; encode8_handle_ta b fr.

(** trau_frame.c:1062-1085 decode8_amr_74 *)
Definition decode8_amr_74 (fr : tframe) (b : bits) : option tframe :=
  do d <- memcpy (tf_d fr) 0 b 3 5;
  do d <- memcpy d 5 b (1 * 8 + 1) 7;
  do c <- memcpy (tf_c fr) 0 b (2 * 8 + 1) 3;
  do d <- memcpy d 12 b (2 * 8 + 4) 4;
  do d <- memcpy d 16 b (3 * 8 + 1) 7;
  do d <- memcpy d 23 b (4 * 8) (16 * 8);
  Some (mkTf (tf_type fr) (tf_dir fr) (tf_ta fr) c d (tf_t fr) (tf_s fr) (tf_m fr) (tf_ufi fr) (tf_crc fr) (tf_xc fr)).

(** trau_frame.c:1088-1115 encode8_amr_74, the stores *)
Definition fill8_amr_74 (fr : tframe) (b : bits) : option bits :=
  do b <- puts b 0 [false; false; true];
  do b <- put b (1 * 8) false;
  do b <- put b (2 * 8) true;
  do b <- put b (3 * 8) false;
  do b <- memcpy b 3 (tf_d fr) 0 5;
  do b <- memcpy b (1 * 8 + 1) (tf_d fr) 5 7;
  do b <- memcpy b (2 * 8 + 1) (tf_c fr) 0 3;
  do b <- memcpy b (2 * 8 + 4) (tf_d fr) 12 4;
  do b <- memcpy b (3 * 8 + 1) (tf_d fr) 16 7;
  memcpy b (4 * 8) (tf_d fr) 23 (16 * 8).

(** trau_frame.c:1088-1118 encode8_amr_74 *)
Definition encode8_amr_74 (b : bits) (fr : tframe) : option (Z * bits) :=
  do b <- fill8_amr_74 fr b; encode8_handle_ta b fr.

(** trau_frame.c:1121-1144 decode8_data *)
Definition decode8_data (fr : tframe) (b : bits) : option tframe :=
  do c <- memcpy (tf_c fr) 0 b (1 * 8 + 1) 5;
  do d <- memcpy (tf_d fr) 0 b (1 * 8 + 6) 2;
  do d <- memcpy d 2 b (2 * 8 + 2) 6;
  do d <- forM 16 0 (fun k d => memcpy d (8 + 7 * k) b ((3 + k) * 8 + 1) 7) d;
  do d <- memcpy d 120 b (19 * 8 + 1) 6;
  Some (mkTf (tf_type fr) (tf_dir fr) (tf_ta fr) c d (tf_t fr) (tf_s fr) (tf_m fr) (tf_ufi fr) (tf_crc fr) (tf_xc fr)).

(** trau_frame.c:1147-1178 encode8_data *)
Definition fill8_data (fr : tframe) (b : bits) : option bits :=
  do b <- encode_sync8 b;
  do b <- put b (19 * 8 + 7) true;
  do b <- memcpy b (1 * 8 + 1) (tf_c fr) 0 5;
  do b <- memcpy b (1 * 8 + 6) (tf_d fr) 0 2;
  do b <- memcpy b (2 * 8 + 2) (tf_d fr) 2 6;
  do b <- forM 16 0 (fun k b => memcpy b ((3 + k) * 8 + 1) (tf_d fr) (8 + 7 * k) 7) b;
  memcpy b (19 * 8 + 1) (tf_d fr) 120 6.
Definition encode8_data (b : bits) (fr : tframe) : option (Z * bits) :=
  do b <- fill8_data fr b; ret 160 b.

(** trau_frame.c:1181-1205 decode8_oam *)
Definition decode8_oam (fr : tframe) (b : bits) : option tframe :=
  do c <- memcpy (tf_c fr) 0 b (1 * 8 + 1) 5;
  do xc <- memcpy (tf_xc fr) 0 b (1 * 8 + 6) 2;
  do xc <- memcpy xc 2 b (2 * 8 + 2) 4;
  do d <- memcpy (tf_d fr) 0 b (2 * 8 + 6) 2;
  do d <- forM 16 0 (fun k d => memcpy d (2 + 7 * k) b ((3 + k) * 8 + 1) 7) d;
  do d <- memcpy d 114 b (19 * 8 + 1) 6;
  Some (mkTf (tf_type fr) (tf_dir fr) (tf_ta fr) c d (tf_t fr) (tf_s fr) (tf_m fr) (tf_ufi fr) (tf_crc fr) xc).

(** trau_frame.c:1208-1239 encode8_oam *)
Definition fill8_oam (fr : tframe) (b : bits) : option bits :=
  do b <- encode_sync8 b;
  do b <- memcpy b (1 * 8 + 1) (tf_c fr) 0 5;
  do b <- memcpy b (1 * 8 + 6) (tf_xc fr) 0 2;
  do b <- memcpy b (2 * 8 + 2) (tf_xc fr) 2 4;
  do b <- memcpy b (2 * 8 + 6) (tf_d fr) 0 2;
  do b <- forM 16 0 (fun k b => memcpy b ((3 + k) * 8 + 1) (tf_d fr) (2 + 7 * k) 7) b;
  memcpy b (19 * 8 + 1) (tf_d fr) 114 6.
Definition encode8_oam (b : bits) (fr : tframe) : option (Z * bits) :=
  do b <- fill8_oam fr b; ret 160 b.

(** trau_frame.c:1250-1285: the size check, first switch of
    osmo_trau_frame_encode.  Some 0 = passed. *)
Definition encode_size_check (n_bits : nat) (fr : tframe) : Z :=
  match tf_type fr with
  | T16_FR | T16_EFR | T16_HR | T16_AMR => if n_bits <? 2 * 40 * 8 - 1 then ENOSPC else 0%Z
  | T16_OAM | T16_IDLE | T16_DATA_HR | T16_DATA | T16_D145_SYNC | T16_EDATA =>
      if n_bits <? 1 * 40 * 8 then ENOSPC else 0%Z
  | T8_SPEECH | T8_AMR_LOW | T8_AMR_6k7 | T8_AMR_7k4 => if n_bits <? 2 * 20 * 8 - 1 then ENOSPC else 0%Z
  | T8_DATA | T8_OAM => if n_bits <? 1 * 20 * 8 then ENOSPC else 0%Z
  | FT_NONE => 0%Z
  | FT_other _ => EINVAL
  end.

(** trau_frame.c:1247-1323 osmo_trau_frame_encode; [st] = the static idle
    frame objects. Result: (static objects, (return value, buffer)). *)
Definition osmo_trau_frame_encode (st : idle_state) (b : bits) (n_bits : nat) (fr : tframe)
  : option (idle_state * (Z * bits)) :=
  if (encode_size_check n_bits fr <? 0)%Z then Some (st, (encode_size_check n_bits fr, b)) else
  let keep r := match r with Some x => Some (st, x) | None => None end in
  match tf_type fr with
  | T16_FR | T16_EFR => keep (encode16_fr b fr)
  | T16_HR => keep (encode16_hr b fr)
  | T16_AMR => keep (encode16_amr b fr)
  | T16_OAM => keep (encode16_oam b fr)
  | T16_IDLE => encode16_idle st b
  | T16_DATA_HR => keep (encode16_data_hr b fr)
  | T16_DATA => keep (encode16_data b fr)
  | T16_D145_SYNC => keep (encode16_d145_sync b fr)
  | T16_EDATA => keep (encode16_edata b fr)
  | T8_SPEECH => keep (encode8_hr b fr)
  | T8_DATA => keep (encode8_data b fr)
  | T8_OAM => keep (encode8_oam b fr)
  | T8_AMR_LOW => keep (encode8_amr_low b fr)
  | T8_AMR_6k7 => keep (encode8_amr_67 b fr)
  | T8_AMR_7k4 => keep (encode8_amr_74 b fr)
  | FT_NONE | FT_other _ => Some (st, (EINVAL, b))
  end.

(** trau_frame.h:48-64 frame type numbers *)
Definition TRAU_FT_FR_UP := 2.        Definition TRAU_FT_HR_UP := 3.
Definition TRAU_FT_FR_DOWN := 28.     Definition TRAU_FT_HR_DOWN := 29.
Definition TRAU_FT_EFR := 26.         Definition TRAU_FT_AMR := 6.
Definition TRAU_FT_OM_UP := 5.        Definition TRAU_FT_OM_DOWN := 27.
Definition TRAU_FT_DATA_UP := 8.      Definition TRAU_FT_DATA_UP_HR := 9.
Definition TRAU_FT_DATA_DOWN := 22.   Definition TRAU_FT_DATA_DOWN_HR := 23.
Definition TRAU_FT_D145_SYNC := 20.   Definition TRAU_FT_EDATA := 31.
Definition TRAU_FT_IDLE_UP := 16.     Definition TRAU_FT_IDLE_DOWN := 14.

Definition one_of (x : nat) (l : list nat) : bool := existsb (Nat.eqb x) l.

(** trau_frame.c:1335-1337, 1477-1479: fr->type, fr->dir, fr->dl_ta_usec set *)
Definition set_head (fr : tframe) (t : ftype) (dir : fdir) : tframe :=
  mkTf t dir 0 (tf_c fr) (tf_d fr) (tf_t fr) (tf_s fr) (tf_m fr) (tf_ufi fr) (tf_crc fr) (tf_xc fr).

Definition ok (r : option tframe) : option (Z * tframe) :=
  match r with Some f => Some (0%Z, f) | None => None end.

(** trau_frame.c:1330-1380 osmo_trau_frame_decode_16k *)
Definition osmo_trau_frame_decode_16k (fr : tframe) (b : bits) (dir : fdir) : option (Z * tframe) :=
  do c5 <- get_bits b 17 5;
  if one_of c5 [TRAU_FT_FR_UP; TRAU_FT_FR_DOWN] then ok (decode16_fr (set_head fr T16_FR dir) b)
  else if one_of c5 [TRAU_FT_IDLE_UP; TRAU_FT_IDLE_DOWN] then ok (decode16_fr (set_head fr T16_IDLE dir) b)
  else if c5 =? TRAU_FT_EFR then ok (decode16_fr (set_head fr T16_EFR dir) b)
  else if c5 =? TRAU_FT_AMR then ok (decode16_amr (set_head fr T16_AMR dir) b)
  else if one_of c5 [TRAU_FT_OM_UP; TRAU_FT_OM_DOWN] then ok (decode16_oam (set_head fr T16_OAM dir) b)
  else if one_of c5 [TRAU_FT_DATA_UP; TRAU_FT_DATA_DOWN] then ok (decode16_data (set_head fr T16_DATA dir) b)
  else if one_of c5 [TRAU_FT_HR_UP; TRAU_FT_HR_DOWN] then ok (decode16_hr (set_head fr T16_HR dir) b)
  else if one_of c5 [TRAU_FT_DATA_UP_HR; TRAU_FT_DATA_DOWN_HR] then ok (decode16_data_hr (set_head fr T16_DATA_HR dir) b)
  else if c5 =? TRAU_FT_EDATA then ok (decode16_edata (set_head fr T16_EDATA dir) b)
  else if c5 =? TRAU_FT_D145_SYNC then ok (decode16_data (set_head fr T16_D145_SYNC dir) b)
  else Some (EINVAL, set_head fr FT_NONE dir).

(** "bits[off] == v for every (off, v) in l", reading in order and stopping at
    the first mismatch like the C early returns *)
Fixpoint check_bits (b : bits) (l : list (nat * bool)) : option bool :=
  match l with
  | [] => Some true
  | (o, v) :: r => do x <- get b o; if Bool.eqb x v then check_bits b r else Some false
  end.

(** the memcmp of the first 8 bits with zero (all 8 must be readable) *)
Definition zero8 (b : bits) : option bool :=
  do w <- slice b 0 8; Some (forallb negb w).

(** trau_frame.c:1389-1405 is_hr *)
Definition is_hr (b : bits) : option bool :=
  do z <- zero8 b;
  if z then check_bits b ([(8, true); (16, false); (17, true)] ++ map (fun k => (24 + 8 * k, true)) (seq 0 17))
  else Some false.
(** trau_frame.c:1409-1427 is_amr_low *)
Definition is_amr_low (b : bits) : option bool :=
  do z <- zero8 b;
  if z then check_bits b ([(8, true); (16, true); (24, false); (25, true)] ++ map (fun k => (32 + 8 * k, true)) (seq 0 16))
  else Some false.
(** trau_frame.c:1430-1452 is_amr_67; loop i = 48, 64, ..., 144 *)
Definition is_amr_67 (b : bits) : option bool :=
  do z <- zero8 b;
  if z then check_bits b ([(8, true); (16, true); (24, true); (32, true); (40, false)]
                          ++ map (fun k => (48 + 16 * k, true)) (seq 0 7))
  else Some false.
(** trau_frame.c:1455-1467 is_amr_74 *)
Definition is_amr_74 (b : bits) : option bool :=
  check_bits b [(0, false); (1, false); (2, true); (8, false); (16, true); (24, false)].

(** trau_frame.c:1474-1522 osmo_trau_frame_decode_8k *)
Definition osmo_trau_frame_decode_8k (fr : tframe) (b : bits) (dir : fdir) : option (Z * tframe) :=
  do hr <- is_hr b;
  if hr then
    do c5 <- get_bits b 9 5;
    match dir with
    | UL =>
        if c5 =? 2 then ok (decode8_hr (set_head fr T8_SPEECH dir) b)
        else if c5 =? 7 then ok (decode8_data (set_head fr T8_DATA dir) b)
        else if c5 =? 11 then ok (decode8_oam (set_head fr T8_OAM dir) b)
        else Some (EINVAL, set_head fr FT_NONE dir)
    | DL =>
        if c5 / 4 =? 0 then ok (decode8_hr (set_head fr T8_SPEECH dir) b)
        else if c5 / 4 =? 1 then ok (decode8_data (set_head fr T8_DATA dir) b)
        else if c5 / 4 =? 2 then ok (decode8_oam (set_head fr T8_OAM dir) b)
        else Some (EINVAL, set_head fr FT_NONE dir)
    end
  else
    do low <- is_amr_low b;
    if low then ok (decode8_amr_low (set_head fr T8_AMR_LOW dir) b) else
    do a67 <- is_amr_67 b;
    if a67 then ok (decode8_amr_67 (set_head fr T8_AMR_6k7 dir) b) else
    do a74 <- is_amr_74 b;
    if a74 then ok (decode8_amr_74 (set_head fr T8_AMR_7k4 dir) b)
    else Some (EINVAL, set_head fr FT_NONE dir).
