(** Model of src/trau/trau_rtp_conv.c (TRAU frame <-> RTP payload).

    Octet buffers are handled as their bits, MSB first: bit j of the buffer is
    [(data[j/8] >> (7-(j%8))) & 1], the expression used by the C code, and
    [out[j/8] |= b << (7-(j%8))] is "or b into bit j".  The API functions at
    the end take and return octets.

    Not modelled: the [#if 0] AMR code (lines 937-1071).  SID classification
    and the HR SID reset are libosmocodec functions: they are parameters
    ([codec]).  osmo_crc8gen_* (libosmocore) is modelled for the one code used
    here. *)
From Coq Require Import List Arith Lia Bool ZArith.
From Verif Require Import Base RtpSpec RaaModel TrauModel.
Import ListNotations.

(** enum osmo_gsm631_sid_class (libosmocodec): 0, 1, 2 *)
Inductive sid_class := SID_SPEECH | SID_INVALID | SID_VALID.
Definition sid_msb (s : sid_class) : bool := match s with SID_VALID => true | _ => false end.
Definition sid_lsb (s : sid_class) : bool := match s with SID_INVALID => true | _ => false end.

(** the libosmocodec functions called; arguments are payload bits *)
Record codec := mkCodec {
  osmo_fr_is_any_sid : bits -> bool;
  osmo_fr_sid_classify : bits -> sid_class;
  osmo_fr_check_sid : bits -> bool;
  osmo_efr_is_any_sid : bits -> bool;
  osmo_efr_sid_classify : bits -> sid_class;
  osmo_efr_check_sid : bits -> bool;
  osmo_hr_check_sid : bits -> bool;
  osmo_hr_sid_reset : bits -> bits }.

(** RTP_EXT / struct osmo_trau2rtp_state (trau_rtp.h): the fields used *)
Record rtp_state := mkRtpState { st_type : ftype; st_twts001 : bool; st_twts002 : bool; st_ir16k : bool }.

(** octet packing (inverse of [bits_of_octets]) *)
Definition octet_of_bits (b : bits) : Z :=
  fold_left (fun acc (x : bool) => (2 * acc + Z.b2z x)%Z) b 0%Z.
Fixpoint octets_of_bits (l : bits) : list Z :=
  match l with
  | b7 :: b6 :: b5 :: b4 :: b3 :: b2 :: b1 :: b0 :: r =>
      octet_of_bits [b7;b6;b5;b4;b3;b2;b1;b0] :: octets_of_bits r
  | _ => []
  end.

(** field updates of struct osmo_trau_frame *)
Definition set_type f v := mkTf v (tf_dir f) (tf_ta f) (tf_c f) (tf_d f) (tf_t f) (tf_s f) (tf_m f) (tf_ufi f) (tf_crc f) (tf_xc f).
Definition set_c f v := mkTf (tf_type f) (tf_dir f) (tf_ta f) v (tf_d f) (tf_t f) (tf_s f) (tf_m f) (tf_ufi f) (tf_crc f) (tf_xc f).
Definition set_d f v := mkTf (tf_type f) (tf_dir f) (tf_ta f) (tf_c f) v (tf_t f) (tf_s f) (tf_m f) (tf_ufi f) (tf_crc f) (tf_xc f).
Definition set_t f v := mkTf (tf_type f) (tf_dir f) (tf_ta f) (tf_c f) (tf_d f) v (tf_s f) (tf_m f) (tf_ufi f) (tf_crc f) (tf_xc f).
Definition set_m f v := mkTf (tf_type f) (tf_dir f) (tf_ta f) (tf_c f) (tf_d f) (tf_t f) (tf_s f) v (tf_ufi f) (tf_crc f) (tf_xc f).
Definition set_ufi f v := mkTf (tf_type f) (tf_dir f) (tf_ta f) (tf_c f) (tf_d f) (tf_t f) (tf_s f) (tf_m f) v (tf_crc f) (tf_xc f).
Definition set_crc f v := mkTf (tf_type f) (tf_dir f) (tf_ta f) (tf_c f) (tf_d f) (tf_t f) (tf_s f) (tf_m f) (tf_ufi f) v (tf_xc f).
Definition set_xc f v := mkTf (tf_type f) (tf_dir f) (tf_ta f) (tf_c f) (tf_d f) (tf_t f) (tf_s f) (tf_m f) (tf_ufi f) (tf_crc f) v.

(** trau_rtp_conv.c:41-52 *)
Definition gsm_fr_map : list nat := [
  6; 6; 5; 5; 4; 4; 3; 3;
  7; 2; 2; 6; 3; 3; 3; 3;
  3; 3; 3; 3; 3; 3; 3; 3;
  3; 7; 2; 2; 6; 3; 3; 3;
  3; 3; 3; 3; 3; 3; 3; 3;
  3; 3; 7; 2; 2; 6; 3; 3;
  3; 3; 3; 3; 3; 3; 3; 3;
  3; 3; 3; 7; 2; 2; 6; 3;
  3; 3; 3; 3; 3; 3; 3; 3;
  3; 3; 3; 3].

(** trau_rtp_conv.c:59-64 gsm0860_efr_crc3 with libosmocore's
    osmo_crc8gen_compute_bits: 3-bit register, init 0, polynomial x+1 below
    x^3, final xor 7. State: (bit 2, bit 1, bit 0). *)
Definition crc3_step (s : bool * bool * bool) (b : bool) : bool * bool * bool :=
  let '(s2, s1, s0) := s in
  let top := xorb s2 b in (s1, xorb s0 top, top).
Definition crc3_state (w : bits) : bool * bool * bool := fold_left crc3_step w (false, false, false).
Definition crc3 (w : bits) (i : nat) : bool :=
  let '(s2, s1, s0) := crc3_state w in
  negb (match i with 0 => s2 | 1 => s1 | _ => s0 end).
(** osmo_crc8gen_set_bits: the three stored bits *)
Definition crc3_bits (w : bits) : bits := [crc3 w 0; crc3 w 1; crc3 w 2].
(** osmo_crc8gen_check_bits: 0 iff all bits agree *)
Definition crc3_check (w c : bits) : bool :=
  match c with
  | [c0; c1; c2] => Bool.eqb c0 (crc3 w 0) && Bool.eqb c1 (crc3 w 1) && Bool.eqb c2 (crc3 w 2)
  | _ => false
  end.

(** trau_rtp_conv.c:67-98 efr_parity_bits_1..5: the check_bits contents *)
Definition efr_parity_bits_1 (d : bits) : option bits :=
  do a <- slice d 0 22; do b <- slice d 24 3; do c <- get d 28; Some (a ++ b ++ [c]).
Definition efr_parity_bits_2 (d : bits) : option bits :=
  do a <- slice d 42 10; do b <- slice d 90 2; Some (a ++ b).
Definition efr_parity_bits_3 (d : bits) : option bits :=
  do a <- slice d 98 5; do c <- get d 104; do b <- slice d 143 2; Some (a ++ [c] ++ b).
Definition efr_parity_bits_4 (d : bits) : option bits :=
  do a <- slice d 151 10; do b <- slice d 199 2; Some (a ++ b).
Definition efr_parity_bits_5 (d : bits) : option bits :=
  do a <- slice d 207 5; do c <- get d 213; do b <- slice d 252 2; Some (a ++ [c] ++ b).

(** [out[j/8] |= b << (7-(j%8))], j relative to bit offset [op] *)
Definition or_bit (out : bits) (j : nat) (b : bool) : option bits :=
  do x <- get out j; put out j (x || b).
(** [out[j/8] &= ~(1 << (7-(j%8)))] *)
Definition clr_bit (out : bits) (j : nat) : option bits := put out j false.

(** the while loops of lines 169-187 and 656-674: [body (k+o) j]; [n] = 260 - i *)
Fixpoint fr_loop {T : Type} (n i j k l o : nat) (body : nat -> nat -> T -> option T) (s : T) : option T :=
  match n with
  | O => Some s
  | S n' =>
    do s <- body (k + o) j s;
    if i =? 259 then Some s else
    match k with
    | O => do w <- get gsm_fr_map l; do w' <- get gsm_fr_map (S l);
           fr_loop n' (S i) (S j) (w' - 1) (S l) (o + w) body s
    | S k' => fr_loop n' (S i) (S j) k' l o body s
    end
  end.
Definition fr_loop0 {T : Type} (body : nat -> nat -> T -> option T) (s : T) : option T :=
  do w <- get gsm_fr_map 0; fr_loop 260 0 4 (w - 1) 0 0 body s.

(** trau_rtp_conv.c:120-131 make_fr_bfi_nonsid; 0x24 = bits 2, 5; 0x90 = bits 0, 3 *)
Definition make_fr_bfi_nonsid (out : bits) (op : nat) : option bits :=
  forM 4 0 (fun n out =>
    let p := op + 8 * (5 + 7 * n) in
    do out <- put out (p + 16 + 2) true;
    do out <- put out (p + 16 + 5) true;
    do out <- put out (p + 24) true;
    put out (p + 24 + 3) true) out.

(** trau_rtp_conv.c:152-161, 475-484 TW-TS-001 header octet: 0xE0 with DTXd
    (0x08), BFI (0x02), TAF (0x01) *)
Definition twts001_hdr (tf : tframe) : option bits :=
  do c16 <- get (tf_c tf) 16; do c11 <- get (tf_c tf) 11; do c14 <- get (tf_c tf) 14;
  Some [true; true; true; false; c16; false; c11; c14].

(** trau_rtp_conv.c:166-187: D bits into the payload at bit [op] *)
Definition fr_reassemble (out : bits) (op : nat) (d : bits) : option bits :=
  do out <- blit out op [true; true; false; true; false; false; false; false];
  do out <- memset out (op + 8) false (32 * 8);
  fr_loop0 (fun di j out => do b <- get d di; or_bit out (op + j) b) out.

(** trau_rtp_conv.c:151-219, the part of trau2rtp_fr after the argument checks *)
Definition trau2rtp_fr_body (cd : codec) (out : bits) (tf : tframe) (twts001 : bool) : option (Z * bits) :=
  do out <- (if twts001 then do h <- twts001_hdr tf; blit out 0 h else Some out);
  let op := if twts001 then 8 else 0 in
  do bfi <- get (tf_c tf) 11;
  if bfi && negb twts001 then Some (0%Z, out) else
  do out <- fr_reassemble out op (tf_d tf);
  do c12 <- get (tf_c tf) 12;
  do c13 <- get (tf_c tf) 13;
  do pl <- slice out op (33 * 8);
  do out <- (if bfi && negb c12 && negb c13 && osmo_fr_is_any_sid cd pl
             then make_fr_bfi_nonsid out op else Some out);
  Some ((if twts001 then 34 else 33)%Z, out).

(** trau_rtp_conv.c:138-219 trau2rtp_fr (GSM_FR_BYTES = 33) *)
Definition trau2rtp_fr (cd : codec) (out : bits) (out_len : nat) (tf : tframe) (twts001 : bool) : option (Z * bits) :=
  match tf_type tf with
  | T16_FR => if out_len <? (if twts001 then 34 else 33) then Some (ENOSPC, out)
              else trau2rtp_fr_body cd out tf twts001
  | _ => Some (EINVAL, out)
  end.

(** trau_rtp_conv.c:230-238; [hi] = the frame type nibble stored before *)
Definition twts002_hr16_octet (hi : bits) (tf : tframe) : option bits :=
  do c16 <- get (tf_c tf) 16; do c14 <- get (tf_c tf) 14;
  Some (hi ++ [c16; false; tf_ufi tf; c14]).

(** RFC 5993 / TW-TS-002 frame types << 4 (lines 222-228) *)
Definition FT_GOOD_SPEECH := [false; false; false; false].
Definition FT_INVALID_SID := [false; false; false; true].
Definition FT_GOOD_SID := [false; false; true; false].
Definition FT_BFI_WITH_DATA := [false; true; true; false].
Definition FT_NO_DATA := [false; true; true; true].
Definition zero4 := [false; false; false; false].

(** trau_rtp_conv.c:307-314 bad_frame of trau2rtp_hr16 *)
Definition hr16_bad_frame (out : bits) (tf : tframe) (twts002 : bool) : option (Z * bits) :=
  if twts002 then
    do o <- twts002_hr16_octet FT_NO_DATA tf; do out <- blit out 0 o; Some (1%Z, out)
  else Some (0%Z, out).

(** trau_rtp_conv.c:260-315, after the argument checks.  [sidc] is the pair
    (C13, C14); GSM_HR_BYTES_RTP_RFC5993 = 15. *)
Definition trau2rtp_hr16_body (cd : codec) (out : bits) (tf : tframe) (twts002 : bool) : option (Z * bits) :=
  do w <- slice (tf_d tf) 0 44;
  do crc <- slice (tf_crc tf) 0 3;
  if negb (crc3_check w crc) then hr16_bad_frame out tf twts002 else
  do c11 <- get (tf_c tf) 11;
  do c12 <- get (tf_c tf) 12;
  do c13 <- get (tf_c tf) 13;
  if c12 && c13 then hr16_bad_frame out tf twts002 else
  if negb twts002 && (c11 || c13) then hr16_bad_frame out tf twts002 else
  let sidc := if c12 then (if c11 then SID_INVALID else SID_VALID)
              else if c13 then SID_INVALID else SID_SPEECH in
  let ft := match sidc with SID_SPEECH => FT_GOOD_SPEECH | SID_INVALID => FT_INVALID_SID | SID_VALID => FT_GOOD_SID end in
  let is_inv := match sidc with SID_INVALID => true | _ => false end in
  let is_speech := match sidc with SID_SPEECH => true | _ => false end in
  let is_valid := match sidc with SID_VALID => true | _ => false end in
  do out <- blit out 0 (ft ++ zero4);
  do out <- (if twts002 then
               do o <- twts002_hr16_octet (if c11 && is_speech then FT_BFI_WITH_DATA else ft) tf;
               blit out 0 o
             else Some out);
  if twts002 && is_inv then Some (1%Z, out) else
  do pl <- slice (tf_d tf) 0 112;
  do out <- blit out 8 pl;
  do out <- (if negb twts002 && is_valid then
               do pl <- slice out 8 112; blit out 8 (osmo_hr_sid_reset cd pl)
             else Some out);
  Some (15%Z, out).

(** trau_rtp_conv.c:249-315 trau2rtp_hr16 *)
Definition trau2rtp_hr16 (cd : codec) (out : bits) (out_len : nat) (tf : tframe) (twts002 : bool) : option (Z * bits) :=
  match tf_type tf with
  | T16_HR => if out_len <? 15 then Some (ENOSPC, out) else trau2rtp_hr16_body cd out tf twts002
  | _ => Some (EINVAL, out)
  end.

(** trau_rtp_conv.c:317-328 *)
Definition hr8_xc_bits_good_parity (xc : bits) : option bool :=
  do w <- slice xc 0 6; Some (fold_left xorb w false).

(** trau_rtp_conv.c:330-336; [taf] is or-ed in by lines 394-395, 406-407 *)
Definition twts002_hr8_octet (hi : bits) (tf : tframe) (taf : bool) : option bits :=
  do c8 <- get (tf_c tf) 8; do x4 <- get (tf_xc tf) 4;
  Some (hi ++ [c8; false; x4; taf]).

(** trau_rtp_conv.c:411-418 *)
Definition hr8_bad_frame (out : bits) (tf : tframe) (twts002 : bool) : option (Z * bits) :=
  if twts002 then
    do o <- twts002_hr8_octet FT_NO_DATA tf false; do out <- blit out 0 o; Some (1%Z, out)
  else Some (0%Z, out).

(** trau_rtp_conv.c:356-419, after the argument checks *)
Definition trau2rtp_hr8_body (cd : codec) (out : bits) (tf : tframe) (twts002 : bool) : option (Z * bits) :=
  do par <- hr8_xc_bits_good_parity (tf_xc tf);
  do w <- slice (tf_d tf) 0 44;
  do crc <- slice (tf_crc tf) 0 3;
  if negb par || negb (crc3_check w crc) then hr8_bad_frame out tf twts002 else
  do x <- slice (tf_xc tf) 0 4;
  do pl <- slice (tf_d tf) 0 112;
  let speech ft := do o <- (if twts002 then twts002_hr8_octet ft tf false else Some (ft ++ zero4));
                   do out <- blit out 0 o; blit out 8 pl in
  match x with
  | [false; false; false; false] => do out <- speech FT_GOOD_SPEECH; Some (15%Z, out)
  | [false; false; false; true] =>
      do out <- speech FT_GOOD_SID;
      do out <- (if twts002 then Some out else
                   do pl <- slice out 8 112; blit out 8 (osmo_hr_sid_reset cd pl));
      Some (15%Z, out)
  | [false; true; false; taf] =>
      if twts002 then do o <- twts002_hr8_octet FT_INVALID_SID tf taf; do out <- blit out 0 o; Some (1%Z, out)
      else Some (0%Z, out)
  | [false; true; true; taf] =>
      if twts002 then do o <- twts002_hr8_octet FT_BFI_WITH_DATA tf taf; do out <- blit out 0 o;
                      do out <- blit out 8 pl; Some (15%Z, out)
      else Some (0%Z, out)
  | _ => hr8_bad_frame out tf twts002
  end.

(** trau_rtp_conv.c:345-419 trau2rtp_hr8 *)
Definition trau2rtp_hr8 (cd : codec) (out : bits) (out_len : nat) (tf : tframe) (twts002 : bool) : option (Z * bits) :=
  match tf_type tf with
  | T8_SPEECH => if out_len <? 15 then Some (ENOSPC, out) else trau2rtp_hr8_body cd out tf twts002
  | _ => Some (EINVAL, out)
  end.

(** trau_rtp_conv.c:440-451 make_efr_bfi_nonsid: the cleared bits of octets
    6 (&0x99), 12 (&0xE6), 13 (&0x7F), 19 (&0x33), 25 (&0xCC) *)
Definition efr_nonsid_positions : list nat :=
  [48+1; 48+2; 48+5; 48+6; 96+3; 96+4; 96+7; 104; 152; 152+1; 152+4; 152+5; 200+2; 200+3; 200+6; 200+7].
Definition make_efr_bfi_nonsid (out : bits) (op : nat) : option bits :=
  fold_left (fun o p => do out <- o; clr_bit out (op + p)) efr_nonsid_positions (Some out).

(** the five copy loops, e.g. lines 493-494: n bits from d_bits[i] to bit j *)
Definition efr_copy (out : bits) (op : nat) (d : bits) (i j n : nat) : option bits :=
  forM n 0 (fun k out => do b <- get d (i + k); or_bit out (op + j + k) b) out.

(** lines 558-564 bad_frame: the header octet (only with TW-TS-001) gets |= 0x06 *)
Definition efr_bad_frame (out : bits) (twts001 : bool) : option (Z * bits) :=
  if twts001 then
    do out <- put out 5 true; do out <- put out 6 true; Some (1%Z, out)
  else Some (0%Z, out).

(** trau_rtp_conv.c:489-542: D bits into the payload at bit [op], checking the
    five CRCs on the way; (false, _) = goto bad_frame *)
Definition efr_reassemble (out : bits) (op : nat) (d : bits) : option (bool * bits) :=
  do out <- blit out op [true; true; false; false; false; false; false; false];
  do out <- memset out (op + 8) false (30 * 8);
  do out <- efr_copy out op d 1 4 38;
  do w <- efr_parity_bits_1 d; do c <- slice d 39 3;
  if negb (crc3_check w c) then Some (false, out) else
  do out <- efr_copy out op d 42 42 53;
  do w <- efr_parity_bits_2 d; do c <- slice d 95 3;
  if negb (crc3_check w c) then Some (false, out) else
  do out <- efr_copy out op d 98 95 50;
  do w <- efr_parity_bits_3 d; do c <- slice d 148 3;
  if negb (crc3_check w c) then Some (false, out) else
  do out <- efr_copy out op d 151 145 53;
  do w <- efr_parity_bits_4 d; do c <- slice d 204 3;
  if negb (crc3_check w c) then Some (false, out) else
  do out <- efr_copy out op d 207 198 50;
  do w <- efr_parity_bits_5 d; do c <- slice d 257 3;
  Some (crc3_check w c, out).

(** trau_rtp_conv.c:472-565, after the argument checks (GSM_EFR_BYTES = 31) *)
Definition trau2rtp_efr_body (cd : codec) (out : bits) (tf : tframe) (twts001 : bool) : option (Z * bits) :=
  do out <- (if twts001 then do h <- twts001_hdr tf; blit out 0 h else Some out);
  let op := if twts001 then 8 else 0 in
  do bfi <- get (tf_c tf) 11;
  if bfi && negb twts001 then Some (0%Z, out) else
  do (ok, out) <- efr_reassemble out op (tf_d tf);
  if negb ok then efr_bad_frame out twts001 else
  do c12 <- get (tf_c tf) 12;
  do c13 <- get (tf_c tf) 13;
  do pl <- slice out op (31 * 8);
  do out <- (if bfi && negb c12 && negb c13 && osmo_efr_is_any_sid cd pl
             then make_efr_bfi_nonsid out op else Some out);
  Some ((if twts001 then 32 else 31)%Z, out).

(** trau_rtp_conv.c:458-565 trau2rtp_efr *)
Definition trau2rtp_efr (cd : codec) (out : bits) (out_len : nat) (tf : tframe) (twts001 : bool) : option (Z * bits) :=
  if out_len <? (if twts001 then 32 else 31) then Some (ENOSPC, out) else
  match tf_type tf with
  | T16_EFR => trau2rtp_efr_body cd out tf twts001
  | _ => Some (EINVAL, out)
  end.

(** lines 574-597 and 830-853: strip a TW-TS-001 header and check signature
    [sig] and length; None = -EINVAL; Some (bfi, taf, dtxd, payload bits) *)
Definition speech_input (sig : bits) (nbytes : nat) (data : bits) : option (bool * bool * bool * bits) :=
  let '(bfi, taf, dtxd, data) :=
    match data with
    | true :: true :: true :: false :: dtxd :: _ :: bfi :: taf :: r => (bfi, taf, dtxd, r)
    | _ => (false, false, false, data)
    end in
  if length data =? 8 * nbytes then
    if forallb (fun p => Bool.eqb (fst p) (snd p)) (combine (firstn 4 data) sig)
    then Some (bfi, taf, dtxd, data) else None
  else if length data =? 0 then Some (true, taf, dtxd, data) else None.

(** trau_rtp_conv.c:604-648 (FR), 860-902 (EFR): C and T bits; [ul], [dl],
    [idle] = C1..C5 (idle = DL without data) *)
Definition speech_c_bits (ul dl : bits) (classify : bits -> sid_class) (check_sid : bits -> bool)
    (bfi taf dtxd : bool) (data : bits) (tf : tframe) : option tframe :=
  let nodata := length data =? 0 in
  do c <- blit (tf_c tf) 0 (match tf_dir tf with
                            | UL => ul
                            | DL => if nodata then [false; true; true; true; false] else dl
                            end);
  do c <- memset c 5 false 6;
  do c <- match tf_dir tf with
          | UL =>
            do c <- put c 11 bfi;
            let sidc := if nodata then SID_SPEECH else classify data in
            do c <- put c 12 (sid_msb sidc);
            do c <- put c 13 (sid_lsb sidc);
            do c <- put c 14 taf;
            do c <- put c 15 true;
            put c 16 dtxd
          | DL =>
            do c <- memset c 11 true 4;
            do c <- put c 15 (negb (negb nodata && check_sid data));
            put c 16 true
          end;
  do c <- memset c 17 true 4;
  do t <- memset (tf_t tf) 0 true 4;
  Some (set_t (set_c tf c) t).

(** trau_rtp_conv.c:656-674: D bits from a payload *)
Definition fr_set_d (d data : bits) : option bits :=
  fr_loop0 (fun di j d => do b <- get data j; put d di b) d.

(** trau_rtp_conv.c:568-677 rtp2trau_fr, after the input checks *)
Definition rtp2trau_fr_body (cd : codec) (tf : tframe) (bfi taf dtxd : bool) (data : bits) : option tframe :=
  let tf := set_type tf T16_FR in
  do tf <- speech_c_bits [false; false; false; true; false] [true; true; true; false; false]
             (osmo_fr_sid_classify cd) (osmo_fr_check_sid cd) bfi taf dtxd data tf;
  do d <- (if length data =? 0 then memset (tf_d tf) 0 true 260 else fr_set_d (tf_d tf) data);
  Some (set_d tf d).
Definition rtp2trau_fr (cd : codec) (tf : tframe) (data : bits) : option (Z * tframe) :=
  match speech_input [true; true; false; true] 33 data with
  | None => Some (EINVAL, tf)
  | Some (bfi, taf, dtxd, data) =>
    do tf <- rtp2trau_fr_body cd tf bfi taf dtxd data; Some (0%Z, tf)
  end.

(** lines 681-696 and 761-775 (GSM_HR_BYTES = 14): None = -EINVAL *)
Definition hr_input (data : bits) : option bits :=
  if length data =? 8 * 14 then Some data
  else if length data =? 8 * 15 then Some (skipn 8 data)
  else if length data =? 0 then Some data
  else None.

(** lines 746-753 and 811-817: D bits and CRC from the payload *)
Definition hr_d_bits (tf : tframe) (data : bits) : option tframe :=
  do d <- (if length data =? 0 then memset (tf_d tf) 0 false 112
           else do p <- slice data 0 112; blit (tf_d tf) 0 p);
  do w <- slice d 0 44;
  do crc <- blit (tf_crc tf) 0 (crc3_bits w);
  Some (set_crc (set_d tf d) crc).

(** trau_rtp_conv.c:679-757 rtp2trau_hr16, after the input checks. In UL C15
    keeps its previous value (FIXME at line 730). *)
Definition rtp2trau_hr16_body (cd : codec) (tf : tframe) (data : bits) : option tframe :=
  let tf := set_type tf T16_HR in
  do c <- blit (tf_c tf) 0 (match tf_dir tf with UL => [false; false; false; true; true]
                                               | DL => [true; true; true; false; true] end);
  do c <- memset c 5 false 6;
  do c <- match tf_dir tf with
          | UL =>
            do c <- put c 11 (length data =? 0);
            do c <- put c 12 (osmo_hr_check_sid cd data);
            do c <- put c 13 false;
            do c <- put c 15 false;
            put c 16 false
          | DL =>
            do c <- memset c 11 true 4;
            do c <- put c 15 (negb (osmo_hr_check_sid cd data));
            put c 16 true
          end;
  do c <- memset c 17 true 4;
  do t <- memset (tf_t tf) 0 true 4;
  hr_d_bits (set_ufi (set_t (set_c tf c) t) (match tf_dir tf with UL => false | DL => true end)) data.
Definition rtp2trau_hr16 (cd : codec) (tf : tframe) (data : bits) : option (Z * tframe) :=
  match hr_input data with
  | None => Some (EINVAL, tf)
  | Some data => do tf <- rtp2trau_hr16_body cd tf data; Some (0%Z, tf)
  end.

(** trau_rtp_conv.c:759-820 rtp2trau_hr8 *)
Definition rtp2trau_hr8_body (cd : codec) (tf : tframe) (data : bits) : option tframe :=
  let tf := set_type tf T8_SPEECH in
  do c <- blit (tf_c tf) 0 [false; false; false; true; false];
  do c <- memset c 5 true 4;
  do x <- blit (tf_xc tf) 0 (if osmo_hr_check_sid cd data
                             then [false; false; false; true; false; false]
                             else [false; false; false; false; false; true]);
  do t <- memset (tf_t tf) 0 true 2;
  hr_d_bits (set_t (set_xc (set_c tf c) x) t) data.
Definition rtp2trau_hr8 (cd : codec) (tf : tframe) (data : bits) : option (Z * tframe) :=
  match hr_input data with
  | None => Some (EINVAL, tf)
  | Some data =>
    match tf_dir tf with
    | UL => Some (ENOTSUP, tf)
    | DL => do tf <- rtp2trau_hr8_body cd tf data; Some (0%Z, tf)
    end
  end.

(** copy loops of rtp2trau_efr, e.g. lines 912-913 *)
Definition efr_fetch (d data : bits) (i j n : nat) : option bits :=
  forM n 0 (fun k d => do b <- get data (j + k); put d (i + k) b) d.

(** trau_rtp_conv.c:910-934: D bits from a payload *)
Definition efr_set_d (d data : bits) : option bits :=
  do d <- put d 0 true;
  do d <- efr_fetch d data 1 4 38;
  do w <- efr_parity_bits_1 d; do d <- blit d 39 (crc3_bits w);
  do d <- efr_fetch d data 42 42 53;
  do w <- efr_parity_bits_2 d; do d <- blit d 95 (crc3_bits w);
  do d <- efr_fetch d data 98 95 50;
  do w <- efr_parity_bits_3 d; do d <- blit d 148 (crc3_bits w);
  do d <- efr_fetch d data 151 145 53;
  do w <- efr_parity_bits_4 d; do d <- blit d 204 (crc3_bits w);
  do d <- efr_fetch d data 207 198 50;
  do w <- efr_parity_bits_5 d; blit d 257 (crc3_bits w).

(** trau_rtp_conv.c:823-935 rtp2trau_efr, after the input checks *)
Definition rtp2trau_efr_body (cd : codec) (tf : tframe) (bfi taf dtxd : bool) (data : bits) : option tframe :=
  let tf := set_type tf T16_EFR in
  do tf <- speech_c_bits [true; true; false; true; false] [true; true; false; true; false]
             (osmo_efr_sid_classify cd) (osmo_efr_check_sid cd) bfi taf dtxd data tf;
  do d <- (if length data =? 0 then memset (tf_d tf) 0 true 260 else efr_set_d (tf_d tf) data);
  Some (set_d tf d).
Definition rtp2trau_efr (cd : codec) (tf : tframe) (data : bits) : option (Z * tframe) :=
  match speech_input [true; true; false; false] 31 data with
  | None => Some (EINVAL, tf)
  | Some (bfi, taf, dtxd, data) =>
    do tf <- rtp2trau_efr_body cd tf bfi taf dtxd data; Some (0%Z, tf)
  end.

(** ** Circuit-switched data *)

(** trau_rtp_conv.c:1078-1092 trau2v110_bits(out, d_bits + off): the 80 bits;
    the C buffer is local and completely written *)
Definition trau2v110_bits (d : bits) (off : nat) : option bits :=
  forM 9 0 (fun i out => do x <- slice d (off + 7 * i) 7; Some (out ++ true :: x)) (repeat false 8).

(** trau_rtp_conv.c:1095-1102 trau2v110_ir8, 1105-1112 trau2v110_ir16 *)
Definition trau2v110_ir8 (out : bits) (ob : nat) (d : bits) (off : nat) : option bits :=
  do ra <- trau2v110_bits d off; blit out (8 * ob) (bits_of_octets (ra2_8k_pack ra)).
Definition trau2v110_ir16 (out : bits) (ob : nat) (d : bits) (off : nat) : option bits :=
  do ra <- trau2v110_bits d off; do o <- ra2_16k_pack 40 ra; blit out (8 * ob) (bits_of_octets o).

(** trau_rtp_conv.c:1114-1136 trau2rtp_data_fr *)
Definition trau2rtp_data_fr (out : bits) (out_len : nat) (tf : tframe) : option (Z * bits) :=
  match tf_type tf with
  | T16_DATA =>
    if out_len <? 160 then Some (ENOSPC, out) else
    do c5 <- get (tf_c tf) 5;
    do out <- (if c5 : bool then
                 do out <- trau2v110_ir16 out 0 (tf_d tf) 0;
                 do out <- trau2v110_ir16 out 40 (tf_d tf) 63;
                 do out <- trau2v110_ir16 out 80 (tf_d tf) (63 * 2);
                 trau2v110_ir16 out 120 (tf_d tf) (63 * 3)
               else
                 do out <- trau2v110_ir8 out 0 (tf_d tf) 0;
                 trau2v110_ir8 out 80 (tf_d tf) (63 * 2));
    Some (160%Z, out)
  | _ => Some (EINVAL, out)
  end.

(** trau_rtp_conv.c:1138-1155 trau2rtp_data_hr16 *)
Definition trau2rtp_data_hr16 (out : bits) (out_len : nat) (tf : tframe) : option (Z * bits) :=
  match tf_type tf with
  | T16_DATA_HR =>
    if out_len <? 160 then Some (ENOSPC, out) else
    do out <- trau2v110_ir8 out 0 (tf_d tf) 0;
    do out <- trau2v110_ir8 out 80 (tf_d tf) 63;
    Some (160%Z, out)
  | _ => Some (EINVAL, out)
  end.

(** trau_rtp_conv.c:1157-1170 trau2rtp_data_hr8 *)
Definition trau2rtp_data_hr8 (out : bits) (out_len : nat) (tf : tframe) : option (Z * bits) :=
  match tf_type tf with
  | T8_DATA =>
    if out_len <? 160 then Some (ENOSPC, out) else
    do out <- trau2v110_ir8 out 0 (tf_d tf) 0;
    do out <- trau2v110_ir8 out 80 (tf_d tf) 63;
    Some (160%Z, out)
  | _ => Some (EINVAL, out)
  end.

(** trau_rtp_conv.c:1172-1187 trau2rtp_edata *)
Definition trau2rtp_edata (out : bits) (out_len : nat) (tf : tframe) : option (Z * bits) :=
  match tf_type tf with
  | T16_EDATA =>
    if out_len <? 160 then Some (ENOSPC, out) else
    do c5 <- get (tf_c tf) 5;
    do o <- to_atrau_ra2 (repeat false 320) (tf_m tf) (tf_d tf) true c5;
    do out <- blit out 0 (bits_of_octets o);
    Some (160%Z, out)
  | _ => Some (EINVAL, out)
  end.

(** trau_rtp_conv.c:1218-1231 check_v110_align(ra_bits + off) *)
Definition check_v110_align (ra : bits) (off : nat) : option bool :=
  do z <- slice ra off 8;
  do ones <- forM 9 1 (fun i acc => do b <- get ra (off + i * 8); Some (acc && b)) true;
  Some (forallb negb z && ones).

(** trau_rtp_conv.c:1233-1244 v110_to_63bits(d_bits + off, ra_bits + roff) *)
Definition v110_to_63bits (d : bits) (off : nat) (ra : bits) (roff : nat) : option bits :=
  forM 9 0 (fun i d => memcpy d (off + 7 * i) ra (roff + 9 + 8 * i) 7) d.

(** trau_rtp_conv.c:1247-1272 rtp2trau_data_ir8: new d_bits; data are octets *)
Definition rtp2trau_data_ir8 (d : bits) (data : list Z) (second_offset : nat) : option bits :=
  let idle := do d <- memset d 0 true 63; memset d second_offset true 63 in
  if negb (length data =? 160) then idle else
  let ra := ra2_8k_unpack data in
  do a1 <- check_v110_align ra 0;
  do a2 <- check_v110_align ra 80;
  if negb a1 || negb a2 then idle else
  do d <- v110_to_63bits d 0 ra 0;
  v110_to_63bits d second_offset ra 80.

(** trau_rtp_conv.c:1275-1305 rtp2trau_data_ir16 *)
Definition rtp2trau_data_ir16 (d : bits) (data : list Z) : option bits :=
  let idle := memset d 0 true (63 * 4) in
  if negb (length data =? 160) then idle else
  let ra := ra2_16k_unpack data in
  do a1 <- check_v110_align ra 0;
  do a2 <- check_v110_align ra 80;
  do a3 <- check_v110_align ra (80 * 2);
  do a4 <- check_v110_align ra (80 * 3);
  if negb a1 || negb a2 || negb a3 || negb a4 then idle else
  do d <- v110_to_63bits d 0 ra 0;
  do d <- v110_to_63bits d 63 ra 80;
  do d <- v110_to_63bits d (63 * 2) ra (80 * 2);
  v110_to_63bits d (63 * 3) ra (80 * 3).

(** trau_rtp_conv.c:1307-1343 rtp2trau_data_fr *)
Definition rtp2trau_data_fr (tf : tframe) (data : list Z) (ir16 : bool) : option (Z * tframe) :=
  let tf := set_type tf T16_DATA in
  do c <- blit (tf_c tf) 0 (match tf_dir tf with UL => [false; true; false; false; false]
                                               | DL => [true; false; true; true; false] end);
  do c <- put c 5 ir16;
  do d <- (if ir16 then rtp2trau_data_ir16 (tf_d tf) data
           else do d <- rtp2trau_data_ir8 (tf_d tf) data (63 * 2);
                do d <- memset d 63 true 63;
                memset d (63 * 3) true 63);
  do c <- memset c 6 true 9;
  Some (0%Z, set_d (set_c tf c) d).

(** trau_rtp_conv.c:1345-1377 rtp2trau_data_hr16 *)
Definition rtp2trau_data_hr16 (tf : tframe) (data : list Z) : option (Z * tframe) :=
  let tf := set_type tf T16_DATA_HR in
  do c <- blit (tf_c tf) 0 (match tf_dir tf with UL => [false; true; false; false; true]
                                               | DL => [true; false; true; true; true] end);
  do c <- put c 5 false;
  do d <- rtp2trau_data_ir8 (tf_d tf) data 63;
  do c <- memset c 6 true 9;
  Some (0%Z, set_d (set_c tf c) d).

(** trau_rtp_conv.c:1379-1394 rtp2trau_data_hr8 *)
Definition rtp2trau_data_hr8 (tf : tframe) (data : list Z) : option (Z * tframe) :=
  let tf := set_type tf T8_DATA in
  do c <- blit (tf_c tf) 0 [false; false; true; true; true];
  do d <- rtp2trau_data_ir8 (tf_d tf) data 63;
  Some (0%Z, set_d (set_c tf c) d).

(** trau_rtp_conv.c:1409-1441 rtp2trau_edata.  When the A-TRAU decoder fails
    it may have stored into m_bits and d_bits; both are overwritten entirely. *)
Definition rtp2trau_edata (tf : tframe) (data : list Z) : option (Z * tframe) :=
  let tf := set_type tf T16_EDATA in
  do c <- memset (tf_c tf) 0 true 13;
  do c <- put c 5 false;
  let idle := do m <- memset (tf_m tf) 0 true 2;
              do d <- memset (tf_d tf) 0 true 288;
              do c <- put c 6 true;
              Some (0%Z, set_m (set_d (set_c tf c) d) m) in
  if length data =? 160 then
    do r <- from_atrau_ra2 (tf_d tf) data;
    match r with
    | inl _ => idle
    | inr (m0, m1, d, c4, _) =>
      do m <- blit (tf_m tf) 0 [m0; m1];
      do c <- put c 6 (negb c4);
      Some (0%Z, set_m (set_d (set_c tf c) d) m)
    end
  else idle.

(** trau_rtp_conv.c:1459-1482 osmo_trau2rtp on the bits of the output buffer *)
Definition trau2rtp_bits (cd : codec) (out : bits) (out_len : nat) (tf : tframe) (st : rtp_state) : option (Z * bits) :=
  match tf_type tf with
  | T16_FR => trau2rtp_fr cd out out_len tf (st_twts001 st)
  | T16_EFR => trau2rtp_efr cd out out_len tf (st_twts001 st)
  | T16_HR => trau2rtp_hr16 cd out out_len tf (st_twts002 st)
  | T16_DATA => trau2rtp_data_fr out out_len tf
  | T16_DATA_HR => trau2rtp_data_hr16 out out_len tf
  | T16_EDATA => trau2rtp_edata out out_len tf
  | T8_SPEECH => trau2rtp_hr8 cd out out_len tf (st_twts002 st)
  | T8_DATA => trau2rtp_data_hr8 out out_len tf
  | _ => Some (EINVAL, out)
  end.

(** trau_rtp_conv.c:1459-1482 osmo_trau2rtp(out, out_len, tf, st): [out] is the
    caller's memory (octets) of which the first [out_len] are offered *)
Definition osmo_trau2rtp (cd : codec) (out : list Z) (out_len : nat) (tf : tframe) (st : rtp_state)
  : option (Z * list Z) :=
  do (rc, o) <- trau2rtp_bits cd (bits_of_octets out) out_len tf st;
  Some (rc, octets_of_bits o).

(** trau_rtp_conv.c:1484-1507 osmo_rtp2trau(tf, rtp, rtp_len, st) *)
Definition osmo_rtp2trau (cd : codec) (tf : tframe) (rtp : list Z) (st : rtp_state) : option (Z * tframe) :=
  match st_type st with
  | T16_FR => rtp2trau_fr cd tf (bits_of_octets rtp)
  | T16_EFR => rtp2trau_efr cd tf (bits_of_octets rtp)
  | T16_HR => rtp2trau_hr16 cd tf (bits_of_octets rtp)
  | T16_DATA => rtp2trau_data_fr tf rtp (st_ir16k st)
  | T16_DATA_HR => rtp2trau_data_hr16 tf rtp
  | T16_EDATA => rtp2trau_edata tf rtp
  | T8_SPEECH => rtp2trau_hr8 cd tf (bits_of_octets rtp)
  | T8_DATA => rtp2trau_data_hr8 tf rtp
  | _ => Some (EINVAL, tf)
  end.
