(** Model of src/trau/trau_pcu_ericsson.c: Ericsson GPRS TRAU frames between PCU and
    CCU, 16k and 64k.  Frames are lists of ubits; [None] = access outside the C object
    or failed assertion.  MAC blocks (uint8_t data[155]) are held as their 1240 bits,
    octet k bit j (LSB = 0) at 8*k+j, i.e. in osmo_pbit2ubit_ext's lsb_mode order.
    Enums are integers; &enum as octet pointer = low octet (little endian).  Logging is
    left out. *)
From Coq Require Import List Arith Bool ZArith.
From Verif Require Import Base.
Import ListNotations.
Open Scope nat_scope.

(** include/osmocom/trau/trau_pcu_ericsson.h:3-45 *)
Definition TIME_ADJ_NONE := 0%Z. Definition TIME_ADJ_DELAY := 1%Z. Definition TIME_ADJ_ADVANCE := 2%Z.
Definition CS_AB := 0%Z. Definition CS_CS1 := 1%Z. Definition CS_CS2 := 2%Z. Definition CS_CS3 := 3%Z.
Definition CS_CS4 := 4%Z. Definition CS_HDR1 := 5%Z. Definition CS_HDR2 := 6%Z. Definition CS_HDR3 := 7%Z.
Definition UL_VOID := 0%Z. Definition UL_NB_GMSK := 1%Z. Definition UL_NB_UNKN := 2%Z.
Definition UL_AB := 3%Z. Definition UL_AB_UNKN := 4%Z.

(** trau_pcu_ericsson.h:86-106 struct er_pcu_sync_ind *)
Record pcu_sync := mkPS { ps_tav : Z; ps_err : bool; ps_pseq : Z; ps_ss : Z; ps_fn_ul : Z; ps_fn_ss : Z; ps_fn_dl : Z; ps_ls : Z }.
(** trau_pcu_ericsson.h:108-131 struct er_pcu_data_ind *)
Record pcu_data := mkPD { pd_tav : Z; pd_err : bool; pd_cs : Z; pd_mode : Z; pd_atten : Z; pd_offs : Z; pd_data : bits }.
Inductive pcu_frame := PSync (s : pcu_sync) | PData (d : pcu_data) | POther.
(** trau_pcu_ericsson.h:66-84 struct er_ccu_sync_ind *)
Record ccu_sync := mkCS { cs_tav : Z; cs_dfe : bool; cs_dbe : bool; cs_pseq : Z; cs_afn_ul : Z; cs_afn_dl : Z }.
(** trau_pcu_ericsson.h:47-64 struct er_gprs_ab *)
Inductive ab_u := AbType1 (crc burst_qual frame_qual : Z) | AbType2 (abi type : Z).
Record ab := mkAb { ab_u_ : ab_u; ab_rxlev : Z; ab_acc_delay : Z; ab_data : Z }.
Inductive qual := Gprs (block_qual : Z) (parity_ok : bool) | Egprs (mean_bep cv_bep : Z) (hdr_good d0 d1 : bool).
(** trau_pcu_ericsson.h:133-178 struct er_ccu_data_ind *)
Record ccu_data := mkCD { cd_tav : Z; cd_dbe : bool; cd_cs : Z; cd_rx_lev : Z; cd_eadd : Z; cd_u : qual; cd_data : bits; cd_len : Z; cd_ab : list ab }.
Inductive ccu_frame := CSync (s : ccu_sync) | CData (d : ccu_data) | CNone.

(** trau_pcu_ericsson.c:36-40 *)
Definition FT_PCU_SYNC_IND := 0x0f%Z. Definition FT_CCU_SYNC_IND := 0x15%Z.
Definition FT_DATA_IND := 0x1a%Z. Definition FT_DATA9_IND := 0x04%Z.
(** :42-84 T_bits_16, :86-249 T_bits_64 *)
Definition T_bits_16 : bits := repeat true 16 ++ concat (repeat (true :: repeat false 15) 19) ++ repeat false 8.
Definition T_bits_64 : bits := repeat true 64 ++ concat (repeat (true :: repeat false 63) 19) ++ repeat false 16.

(** libosmocore: osmo_pbit2ubit_ext of an integer's bits, LSB first from bit 0 /
    MSB first ending with bit 0 *)
Definition lsb_bits (n : nat) (t : Z -> bool) : bits := map (fun i => t (Z.of_nat i)) (seq 0 n).
Definition msb_bits (n : nat) (t : Z -> bool) : bits := map (fun i => t (Z.of_nat (n - 1 - i))) (seq 0 n).
Definition b2z (b : bool) : Z := if b then 1%Z else 0%Z.
(** libosmocore: osmo_ubit2pbit_ext into a zeroed integer: LSB first from bit 0 / MSB
    first, right-aligned *)
Fixpoint val_lsb (l : bits) : Z := match l with [] => 0%Z | b :: r => (b2z b + 2 * val_lsb r)%Z end.
Definition val_msb (l : bits) : Z := fold_left (fun a b => (2 * a + b2z b)%Z) l 0%Z.

(** :252-259 calc_parity(bits + off, len) *)
Definition calc_parity (b : bits) (off len : nat) : option bool :=
  do s <- slice b off len; Some (fold_left xorb s true).

(** libosmocore crc16gen.c with cs1_crc16 = {16, 0x1021, 0, 0xffff}: register MSB
    first; poly = bits 12, 5, 0 *)
Definition poly16 : bits := [false;false;false;true;false;false;false;false;false;false;true;false;false;false;false;true].
Definition xor_bits (a b : bits) : bits := map (fun p => xorb (fst p) (snd p)) (combine a b).
Definition crc16_step (r : bits) (b : bool) : bits :=
  match r with [] => [] | t :: r' => if xorb t b then xor_bits (r' ++ [false]) poly16 else r' ++ [false] end.
Definition crc16 (w : bits) : bits := map negb (fold_left crc16_step w (repeat false 16)).
Fixpoint beq (a b : bits) : bool :=
  match a, b with [], [] => true | x :: a, y :: b => Bool.eqb x y && beq a b | _, _ => false end.

(** :262-307 put_trau_data: body of the do-while loop, [pos] = offs + bit_count *)
Fixpoint put_loop (fuel : nat) (b map bin : bits) (offs bit_count i len bits_len map_len : nat) : option (Z * bits) :=
  match fuel with
  | O => None
  | S fuel =>
    if bits_len <? bit_count then Some (EINVAL, b) else
    if map_len <? bit_count then Some (EINVAL, b) else
    if bits_len <? i then Some (EINVAL, b) else
    do m <- get map (offs + bit_count);
    do x <- (if m then Some (b, i) else do v <- get bin i; do b' <- put b (offs + bit_count) v; Some (b', S i));
    if snd x <? len then put_loop fuel (fst x) map bin offs (S bit_count) (snd x) len bits_len map_len else Some (0%Z, fst x)
  end.
Definition put_trau_data (b : bits) (bits_len : nat) (map bin : bits) (offs len : nat) : option (Z * bits) :=
  if length map <? bits_len then Some (EINVAL, b) else
  if bits_len <=? offs then Some (EINVAL, b) else
  put_loop (bits_len + 2) b map bin offs 0 0 len (bits_len - offs) (length map - offs).
(** :310-321 put_trau_uint32; [t] = Z.testbit value *)
Definition put_trau_uint32 (b : bits) (bits_len : nat) (map : bits) (t : Z -> bool) (offs len : nat) : option (Z * bits) :=
  if 32 <=? len then None else
  put_trau_data b bits_len map (msb_bits len t ++ repeat false (32 - len)) offs len.
(** :324-368 get_trau_data into a 32-element buffer *)
Fixpoint get_loop (fuel : nat) (out b map : bits) (offs bit_count i len bits_len map_len : nat) : option (Z * bits) :=
  match fuel with
  | O => None
  | S fuel =>
    if bits_len <? bit_count then Some (EINVAL, out) else
    if map_len <? bit_count then Some (EINVAL, out) else
    if 32 <? i then Some (EINVAL, out) else
    do m <- get map (offs + bit_count);
    do x <- (if m then Some (out, i) else do v <- get b (offs + bit_count); do out' <- put out i v; Some (out', S i));
    if snd x <? len then get_loop fuel (fst x) b map offs (S bit_count) (snd x) len bits_len map_len else Some (0%Z, fst x)
  end.
(** :371-390 get_trau_uint32 *)
Definition get_trau_uint32 (b : bits) (bits_len : nat) (map : bits) (offs len : nat) : option Z :=
  if 32 <=? len then None else
  if length map <? bits_len then Some 0%Z else
  if bits_len <=? offs then Some 0%Z else
  do r <- get_loop (bits_len + 2) (repeat false 32) b map offs 0 0 len (bits_len - offs) (length map - offs);
  if (fst r <? 0)%Z then Some 0%Z else
  do s <- slice (snd r) 0 len; Some (val_msb s).

(** :393-428 set_timing_ajustment_bits_16/64 *)
Definition timing_16 (tav : Z) : Z :=
  if (tav =? TIME_ADJ_NONE)%Z then 320%Z else if (tav =? TIME_ADJ_DELAY)%Z then 324%Z
  else if (tav =? TIME_ADJ_ADVANCE)%Z then 316%Z else EINVAL.
Definition timing_64 (tav : Z) : Z :=
  if (tav =? TIME_ADJ_NONE)%Z then 1280%Z else if (tav =? TIME_ADJ_DELAY)%Z then 1296%Z
  else if (tav =? TIME_ADJ_ADVANCE)%Z then 1264%Z else EINVAL.

(** C bits: [at] first C bit, [err]: position cleared by ul_frame_err, [par]: parity *)
Definition put_c (b : bits) (ft : Z) (tav : Z) (e : bool) (at_ err par : nat) : option bits :=
  do b <- blit b at_ (lsb_bits 5 (Z.testbit ft));
  do b <- blit b (at_ + 5) (lsb_bits 2 (Z.testbit tav));
  do b <- (if e then put b err false else Some b);
  do p <- calc_parity b at_ 8;
  put b par p.
Definition put_u32s (b : bits) (bits_len : nat) (map : bits) (l : list ((Z -> bool) * nat * nat)) : option (Z * bits) :=
  fold_left (fun acc x => do r <- acc; if (fst r <? 0)%Z then Some r else
    let '(t, o, n) := x in put_trau_uint32 (snd r) bits_len map t o n) l (Some (0%Z, b)).

(** :458-528 enc_pcu_sync_ind_16 *)
Definition enc_pcu_sync_ind_16 (b : bits) (s : pcu_sync) : option (Z * bits) :=
  do b <- put_c b FT_PCU_SYNC_IND (ps_tav s) (ps_err s) 17 24 25;
  do r <- put_u32s b 320 T_bits_16
    [(Z.testbit (ps_pseq s), 41, 22); (Z.testbit (ps_ss s), 65, 15); (Z.testbit (ps_fn_ul s), 89, 22);
     (Z.testbit (ps_fn_ss s), 113, 15); (Z.testbit (ps_fn_dl s), 137, 22); (Z.testbit (ps_ls s), 161, 15)];
  if (fst r <? 0)%Z then Some (EINVAL, snd r) else Some (timing_16 (ps_tav s), snd r).

(** :560-594 coding scheme and demodulation bits, 16k *)
Definition cs_code_16 (cs : Z) : option (bool * bool) :=
  if (cs =? CS_CS1)%Z then Some (false, false) else if (cs =? CS_CS2)%Z then Some (false, true) else None.
Definition mode_code_16 (m : Z) : option (bool * bool) :=
  if (m =? UL_NB_GMSK)%Z then Some (false, false) else if (m =? UL_NB_UNKN)%Z then Some (false, false) else
  if (m =? UL_AB)%Z then Some (false, true) else if (m =? UL_AB_UNKN)%Z then Some (true, false) else
  if (m =? UL_VOID)%Z then Some (true, true) else None.
(** osmo_crc16gen_set_bits(&cs1_crc16, bits + off, n, bits + off + n) *)
Definition put_crc (b : bits) (off n : nat) : option bits :=
  do w <- slice b off n; blit b (off + n) (crc16 w).
(** :530-628 enc_pcu_data_ind_16 *)
Definition enc_pcu_data_ind_16 (b : bits) (d : pcu_data) : option (Z * bits) :=
  do b <- put_c b FT_DATA_IND (pd_tav d) (pd_err d) 17 24 25;
  match cs_code_16 (pd_cs d) with None => Some (EINVAL, b) | Some (e1, e2) =>
    do b <- put b 26 e1; do b <- put b 27 e2;
    match mode_code_16 (pd_mode d) with None => Some (EINVAL, b) | Some (e3, e4) =>
      do b <- put b 28 e3; do b <- put b 29 e4;
      do b <- blit b 30 (msb_bits 8 (Z.testbit (pd_offs d)));
      do b <- blit b 38 (msb_bits 4 (Z.testbit (pd_atten d)));
      do p <- calc_parity b 26 16; do b <- put b 42 p;
      do b <- (if (pd_cs d =? CS_CS1)%Z then do b <- memcpy b 43 (pd_data d) 0 184; put_crc b 43 184
               else memcpy b 43 (pd_data d) 0 271);
      Some (timing_16 (pd_tav d), b)
    end
  end.
(** :634-650 er_gprs_trau_frame_encode_16k *)
Definition er_gprs_trau_frame_encode_16k (b : bits) (fr : pcu_frame) : option (Z * bits) :=
  do b <- memset b 0 false 16;
  do b <- memset b 16 true (320 + 4 - 16);
  match fr with
  | PSync s => enc_pcu_sync_ind_16 b s
  | PData d => enc_pcu_data_ind_16 b d
  | POther => Some (EINVAL, b)
  end.

(** :919-993 cps_from_mcs_block, mcs_from_cps on the bits of the block; [None] =
    -EINVAL *)
Definition cps_from_mcs_block (d : bits) (cs : Z) (uplink : bool) : option (option Z) :=
  let f o n := do s <- slice d o n; Some (Some (val_lsb s)) in
  if (cs =? CS_HDR1)%Z then if uplink then f 32 5 else f 35 5 else
  if (cs =? CS_HDR2)%Z then if uplink then f 22 3 else f 25 3 else
  if (cs =? CS_HDR3)%Z then if uplink then f 22 4 else f 25 4 else Some None.
Definition mcs_from_cps (cps cs : Z) : option Z :=
  (if cs =? CS_HDR1 then
     if cps <=? 0x0a then Some 9 else if cps <=? 0x13 then Some 8 else if cps <=? 0x1c then Some 7 else None
   else if cs =? CS_HDR2 then
     if (cps <=? 3) || (cps =? 6) || (cps =? 7) then Some 6 else if (cps =? 4) || (cps =? 5) then Some 5 else None
   else if cs =? CS_HDR3 then
     if cps <=? 2 then Some 4 else if cps <=? 8 then Some 3
     else if (cps =? 9) || (cps =? 0xa) || (cps =? 0xd) || (cps =? 0xe) then Some 2
     else if (cps =? 0xb) || (cps =? 0xc) then Some 1 else None
   else None)%Z.

(** :995-1092 enc_pcu_sync_ind_64 *)
Definition enc_pcu_sync_ind_64 (b : bits) (s : pcu_sync) : option (Z * bits) :=
  do b <- put_c b FT_PCU_SYNC_IND (ps_tav s) (ps_err s) 65 73 74;
  do r <- put_u32s b 1280 T_bits_64
    [(Z.testbit (ps_pseq s), 170, 22); (Z.testbit (ps_ss s), 208, 16); (Z.testbit (ps_fn_ul s), 234, 22);
     (Z.testbit (ps_fn_ss s), 272, 15); (Z.testbit (ps_fn_dl s), 298, 22); (Z.testbit (ps_ls s), 336, 16)];
  if (fst r <? 0)%Z then Some (EINVAL, snd r) else Some (timing_64 (ps_tav s), snd r).
(** :1146-1217, 1327-1358 *)
Definition cs_code_64 (cs : Z) : option bits :=
  if ((CS_CS1 <=? cs) && (cs <=? CS_HDR3))%Z then Some (msb_bits 3 (Z.testbit cs)) else None.
Definition mode_code_64 (m : Z) : option bits :=
  if ((UL_VOID <=? m) && (m <=? UL_AB_UNKN))%Z then Some (msb_bits 3 (Z.testbit m)) else None.
(** :1243-1268: data bits per modulation and coding scheme, downlink *)
Definition mcs_bits_dl (mcs : Z) : nat :=
  (if (mcs =? 1)%Z then 209 else if (mcs =? 2)%Z then 257 else if (mcs =? 3)%Z then 329 else if (mcs =? 4)%Z then 385
   else if (mcs =? 5)%Z then 478 else if (mcs =? 6)%Z then 622 else if (mcs =? 7)%Z then 940 else if (mcs =? 8)%Z then 1132 else 0).
(** :1094-1275 enc_pcu_data_ind_64 *)
Definition enc_pcu_data_ind_64 (b : bits) (d : pcu_data) (mcs : Z) : option (Z * bits) :=
  do b <- put_c b FT_DATA_IND (pd_tav d) (pd_err d) 65 73 74;
  match cs_code_64 (pd_cs d) with None => Some (EINVAL, b) | Some e =>
    do b <- blit b 74 e;
    match mode_code_64 (pd_mode d) with None => Some (EINVAL, b) | Some m =>
      do b <- blit b 77 m;
      do b <- blit b 80 (msb_bits 8 (Z.testbit (pd_offs d)));
      do b <- blit b 106 (msb_bits 4 (Z.testbit (pd_atten d)));
      do p <- calc_parity b 74 36; do b <- put b 110 p;
      do b <- (if (pd_cs d =? CS_CS1)%Z then do b <- memcpy b 132 (pd_data d) 0 184; put_crc b 132 184
               else if (pd_cs d =? CS_CS2)%Z then memcpy b 132 (pd_data d) 0 271
               else if (pd_cs d =? CS_CS3)%Z then memcpy b 132 (pd_data d) 0 315
               else if (pd_cs d =? CS_CS4)%Z then memcpy b 132 (pd_data d) 0 431
               else memcpy b 132 (pd_data d) 0 (mcs_bits_dl mcs));
      Some (timing_64 (pd_tav d), b)
    end
  end.
(** :1277-1370 enc_pcu_data_ind_64_mcs9 *)
Definition enc_pcu_data_ind_64_mcs9 (b : bits) (d : pcu_data) : option (Z * bits) :=
  do b <- put b 16 true;
  do b <- memcpy b 17 (pd_data d) 0 48;
  do b <- put_c b FT_DATA9_IND (pd_tav d) (pd_err d) 65 73 74;
  match mode_code_64 (pd_mode d) with None => Some (EINVAL, b) | Some m =>
    do b <- blit b 74 m;
    do b <- blit b 79 (msb_bits 4 (Z.testbit (pd_atten d)));
    do p <- calc_parity b 74 9; do b <- put b 83 p;
    do b <- memcpy b 84 (pd_data d) 48 1180;
    Some (timing_64 (pd_tav d), b)
  end.
(** :1376-1409 er_gprs_trau_frame_encode_64k *)
Definition er_gprs_trau_frame_encode_64k (b : bits) (fr : pcu_frame) : option (Z * bits) :=
  do b <- memset b 0 false 64;
  do b <- memset b 64 true (1280 + 16 - 64);
  match fr with
  | PSync s => enc_pcu_sync_ind_64 b s
  | POther => Some (EINVAL, b)
  | PData d =>
    if ((pd_cs d =? CS_HDR1) || (pd_cs d =? CS_HDR2) || (pd_cs d =? CS_HDR3))%Z then
      do c <- cps_from_mcs_block (pd_data d) (pd_cs d) false;
      match c with None => Some (EINVAL, b) | Some cps =>
        match mcs_from_cps cps (pd_cs d) with
        | None => Some (EINVAL, b)
        | Some mcs => if (mcs <? 9)%Z then enc_pcu_data_ind_64 b d mcs else enc_pcu_data_ind_64_mcs9 b d
        end
      end
    else enc_pcu_data_ind_64 b d 0
  end.

(** ** decoders *)
(** octet [k] of a MAC block *)
Definition octet (d : bits) (k : nat) : option Z := do s <- slice d (8 * k) 8; Some (val_lsb s).
(** :431-456 decode_ab at octet [o]; [Some None] = -EINVAL *)
Definition decode_ab (d : bits) (o : nat) : option (option ab) :=
  do b0 <- octet d o; do b1 <- octet d (o + 1); do b2 <- octet d (o + 2); do b3 <- octet d (o + 3);
  do b4 <- octet d (o + 4); do b5 <- octet d (o + 5); do b6 <- octet d (o + 6); do b7 <- octet d (o + 7);
  let common u := Some (Some (mkAb u b1 (Z.lor (Z.land (Z.shiftl b4 2) 0x300) b5) (Z.lor (Z.land (Z.shiftl b6 3) 0x700) b7))) in
  if (Z.land b0 0x1f =? 0x1f)%Z then common (AbType1 (Z.land (Z.shiftr b0 5) 7) b2 b3)
  else if (Z.land b0 0x1f =? 0)%Z then common (AbType2 (Z.land (Z.shiftr b0 5) 7) (Z.land (Z.shiftr b3 6) 3))
  else Some None.
(** :859-863 the four access bursts *)
Fixpoint decode_abs (d : bits) (l : list nat) : option (option (list ab)) :=
  match l with
  | [] => Some (Some [])
  | o :: r => do a <- decode_ab d o;
              match a with None => Some None | Some a => do x <- decode_abs d r; Some (match x with Some l => Some (a :: l) | None => None end) end
  end.
(** :807-834 estimated access delay; [None] = -EINVAL *)
Definition eadd_of (c : Z) : option Z :=
  (if c =? 0 then Some (-3) else if c =? 1 then Some (-1) else if c =? 2 then Some 1 else if c =? 4 then Some 2
   else if c =? 5 then Some 3 else if c =? 6 then Some 0 else if c =? 7 then Some (-2) else None)%Z.
(** ind->data: zeroed, then [n] bits from the frame at [off] *)
Definition block_from (f : bits) (off n : nat) : option bits := memcpy (repeat false 1240) 0 f off n.
(** osmo_crc16gen_check_bits(&cs1_crc16, bits + off, 184, bits + off + 184) == 0 *)
Definition check_crc (f : bits) (off n : nat) : option bool :=
  do w <- slice f off n; do c <- slice f (off + n) 16; Some (beq c (crc16 w)).
Definition t1_ok (f : bits) (step : nat) : option bool :=
  forM 19 0 (fun i ok => do b <- get f (step + i * step); Some (ok && b)) true.

Definition Rej : option (Z * ccu_frame) := Some (EINVAL, CNone).
(** :652-730 dec_ccu_sync_ind_16 and :1411-1511 dec_ccu_sync_ind_64: [c1] = first C bit;
    on error the caller zeroes the frame *)
Definition dec_ccu_sync (f : bits) (step c1 bits_len : nat) (map : bits) (o1 o2 o3 : nat) : option (Z * ccu_frame) :=
  do ok <- t1_ok f step;
  if negb ok then Rej else
  do p <- calc_parity f c1 8; do pc <- get f (c1 + 8);
  if negb (Bool.eqb p pc) then Rej else
  do tav <- slice f (c1 + 5) 2;
  do dfe <- get f (c1 + 7);
  do e1 <- get f (c1 + 9); do pe <- get f (c1 + 10);
  if negb (Bool.eqb e1 (negb pe)) then Rej else
  do pseq <- get_trau_uint32 f bits_len map o1 22;
  do ul <- get_trau_uint32 f bits_len map o2 22;
  do dl <- get_trau_uint32 f bits_len map o3 22;
  Some (0%Z, CSync (mkCS (val_lsb tav) (negb dfe) (negb e1) pseq ul dl)).
Definition dec_ccu_sync_ind_16 (f : bits) := dec_ccu_sync f 16 17 320 T_bits_16 41 89 137.
Definition dec_ccu_sync_ind_64 (f : bits) := dec_ccu_sync f 64 65 1280 T_bits_64 170 234 298.

(** :732-873 dec_ccu_data_ind_16 *)
Definition dec_ccu_data_ind_16 (f : bits) : option (Z * ccu_frame) :=
  do p <- calc_parity f 17 7; do pc <- get f 24;
  if negb (Bool.eqb p pc) then Rej else
  do tav <- slice f 22 2;
  do p <- calc_parity f 25 19; do pe <- get f 44;
  if negb (Bool.eqb p pe) then Rej else
  do e1 <- get f 25;
  do e <- slice f 26 3;
  let e_2_4 := val_msb e in
  match (if e_2_4 =? 0 then Some CS_CS1 else if e_2_4 =? 1 then Some CS_CS2 else if e_2_4 =? 4 then Some CS_AB else None)%Z with
  | None => Rej
  | Some cs =>
    do sfq <- slice f 29 3; do par <- get f 32; do rxl <- slice f 33 6; do ea <- slice f 39 3;
    match eadd_of (val_msb ea) with
    | None => Rej
    | Some eadd =>
      let fin data len abs := Some (0%Z, CData (mkCD (val_lsb tav) (negb e1) cs (val_msb rxl) eadd (Gprs (val_msb sfq) par) data len abs)) in
      if (cs =? CS_CS1)%Z then
        do data <- block_from f 45 184; do ok <- check_crc f 45 184;
        if negb ok then Rej else fin data 23%Z []
      else if (cs =? CS_CS2)%Z then do data <- block_from f 45 271; fin data 34%Z []
      else do data <- block_from f 48 256; do a <- decode_abs data [0; 8; 16; 24];
           match a with None => Rej | Some l => fin data 32%Z l end
    end
  end.
(** :879-915 er_gprs_trau_frame_decode_16k *)
Definition er_gprs_trau_frame_decode_16k (f : bits) : option (Z * ccu_frame) :=
  do s <- slice f 0 17;
  if negb (beq s (repeat false 16 ++ [true])) then Rej else
  do c <- slice f 17 5;
  let c_1_5 := val_lsb c in
  if (c_1_5 =? FT_CCU_SYNC_IND)%Z then dec_ccu_sync_ind_16 f
  else if (c_1_5 =? FT_DATA_IND)%Z then dec_ccu_data_ind_16 f else Rej.

(** :1679-1747 uplink data bits and octets per MCS *)
Definition mcs_bits_ul (mcs : Z) : option (nat * Z) :=
  (if (mcs =? 1)%Z then Some (209, 27%Z) else if (mcs =? 2)%Z then Some (257, 33%Z) else if (mcs =? 3)%Z then Some (329, 42%Z)
   else if (mcs =? 4)%Z then Some (385, 49%Z) else if (mcs =? 5)%Z then Some (487, 61%Z) else if (mcs =? 6)%Z then Some (631, 79%Z)
   else if (mcs =? 7)%Z then Some (946, 119%Z) else if (mcs =? 8)%Z then Some (1138, 143%Z) else None).
(** :1624-1655, 1869-1890 quality bits of EGPRS blocks; mean_bep is overwritten by
    cv_bep; cv_bep stays 0 *)
Definition egprs_qual (f : bits) (mean cv hdr : nat) : option qual :=
  do m <- slice f mean 7; do c <- slice f cv 3;
  do h <- get f hdr; do a <- get f (hdr + 1); do b <- get f (hdr + 2);
  let mean_bep := val_msb m in let mean_bep := val_msb c in
  Some (Egprs mean_bep 0 (negb h) (negb h && negb a) (negb h && negb b)).
(** :1513-1781 dec_ccu_data_ind_64 *)
Definition dec_ccu_data_ind_64 (f : bits) : option (Z * ccu_frame) :=
  do p <- calc_parity f 65 7; do pc <- get f 72;
  if negb (Bool.eqb p pc) then Rej else
  do tav <- slice f 70 2;
  do p <- calc_parity f 73 57; do pe <- get f 130;
  if negb (Bool.eqb p pe) then Rej else
  do e1 <- get f 73;
  do e <- slice f 74 3;
  let cs := val_msb e in
  do rxl <- slice f 77 6; do ea <- slice f 83 3;
  match eadd_of (val_msb ea) with
  | None => Rej
  | Some eadd =>
    do u <- (if ((CS_CS1 <=? cs) && (cs <=? CS_CS4))%Z then do sfq <- slice f 86 3; do par <- get f 89; Some (Gprs (val_msb sfq) par)
             else egprs_qual f 86 93 96);
    let fin data len abs := Some (0%Z, CData (mkCD (val_lsb tav) (negb e1) cs (val_msb rxl) eadd u data len abs)) in
    if (cs =? CS_CS1)%Z then
      do data <- block_from f 134 184; do ok <- check_crc f 134 184;
      if negb ok then Rej else fin data 23%Z []
    else if (cs =? CS_CS2)%Z then do data <- block_from f 134 271; fin data 34%Z []
    else if (cs =? CS_CS3)%Z then do data <- block_from f 134 315; fin data 40%Z []
    else if (cs =? CS_CS4)%Z then do data <- block_from f 134 431; fin data 54%Z []
    else if (cs =? CS_AB)%Z then do data <- block_from f 144 256; do a <- decode_abs data [0; 8; 16; 24];
         match a with None => Rej | Some l => fin data 32%Z l end
    else
      do data <- block_from f 134 40;
      do c <- cps_from_mcs_block data cs true;
      match c with None => fin data 0%Z [] | Some cps =>
        match mcs_from_cps cps cs with
        | None => fin data 0%Z []
        | Some mcs => match mcs_bits_ul mcs with
                      | Some (n, len) => do data <- block_from f 134 n; fin data len []
                      | None => Rej
                      end
        end
      end
  end.
(** :1783-1925 dec_ccu_data_ind_64_mcs9; [un] = the uninitialised array block[1234] *)
Definition dec_ccu_data_ind_64_mcs9 (f un : bits) : option (Z * ccu_frame) :=
  do p <- calc_parity f 65 7; do pc <- get f 72;
  if negb (Bool.eqb p pc) then Rej else
  do tav <- slice f 70 2;
  do p <- calc_parity f 73 23; do pe <- get f 96;
  if negb (Bool.eqb p pe) then Rej else
  do e1 <- get f 73;
  do rxl <- slice f 74 6; do ea <- slice f 80 3;
  match eadd_of (val_msb ea) with
  | None => Rej
  | Some eadd =>
    do u <- egprs_qual f 83 90 93;
    do bl <- memcpy un 0 f 17 32;
    do bl <- memset bl 32 false 6;
    do pi <- get f 49; do bl <- put bl 38 pi;
    do bl <- memset bl 39 false 7;
    do bl <- memcpy bl 45 f 50 15;
    do bl <- memcpy bl 45 f 99 1173;
    do data <- memcpy (repeat false 1240) 0 bl 0 1234;
    Some (0%Z, CData (mkCD (val_lsb tav) (negb e1) CS_HDR1 (val_msb rxl) eadd u data 0 []))
  end.
(** :1931-2001 er_gprs_trau_frame_decode_64k *)
Definition er_gprs_trau_frame_decode_64k (f un : bits) : option (Z * ccu_frame) :=
  do c <- slice f 65 5;
  let c_1_5 := val_lsb c in
  if ((c_1_5 =? FT_CCU_SYNC_IND) || (c_1_5 =? FT_DATA_IND))%Z then
    do s <- slice f 0 65;
    if negb (beq s (repeat false 64 ++ [true])) then Rej else
    if (c_1_5 =? FT_CCU_SYNC_IND)%Z then dec_ccu_sync_ind_64 f else dec_ccu_data_ind_64 f
  else if (c_1_5 =? FT_DATA9_IND)%Z then
    do s <- slice f 0 17;
    if negb (beq s (repeat false 16 ++ [true])) then Rej else
    dec_ccu_data_ind_64_mcs9 f un
  else Rej.
