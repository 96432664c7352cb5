(** Specification side of C44, C45: the frame figures documented in
    src/trau/trau_pcu_ericsson.c, transcribed cell by cell, and what each frame says. *)
From Coq Require Import List Arith Bool ZArith.
From Verif Require Import Base ErModel.
Import ListNotations.
Open Scope nat_scope.

(** sync 0, sync 1, documented constant, control, data, extended control, spare,
    parity of the C bits, parity of the E bits, time alignment *)
Inductive cell := T0 | T1 | K (b : bool) | C (n : nat) | D (n : nat) | E (n : nat) | S_ (n : nat) | PC | PE | TA (n : nat).
Definition cell_eqb (a b : cell) : bool :=
  match a, b with
  | T0, T0 | T1, T1 | PC, PC | PE, PE => true
  | K x, K y => Bool.eqb x y
  | C x, C y | D x, D y | E x, E y | S_ x, S_ y | TA x, TA y => x =? y
  | _, _ => false
  end.
Definition rng (f : nat -> cell) (a b : nat) : list cell := map f (seq a (b + 1 - a)).
Definition ones (n : nat) : list cell := repeat (K true) n.
Definition zeros (n : nat) : list cell := repeat (K false) n.

(** 16kbps PCU-SYNC-IND, PCU-DATA-IND, CCU-SYNC-IND, CCU-DATA-IND: comments at
    trau_pcu_ericsson.c:460-492, 532-552, 654-690, 734-754 *)
Definition fig_pcu_sync_16 : list cell :=
  repeat T0 16 ++ [T1] ++ rng C 1 8 ++ [PC] ++ zeros 6 ++ [T1] ++ zeros 8 ++ rng D 15 21 ++ [T1] ++ rng D 22 36 ++ [T1] ++ rng D 37 51
  ++ [T1] ++ ones 8 ++ rng D 60 66 ++ [T1] ++ rng D 67 81 ++ [T1] ++ rng D 82 96
  ++ [T1] ++ ones 8 ++ rng D 105 111 ++ [T1] ++ rng D 112 126 ++ [T1] ++ rng D 127 141
  ++ concat (repeat (T1 :: ones 15) 8) ++ [T1] ++ ones 11 ++ rng TA 1 8.
Definition fig_pcu_data_16 : list cell :=
  repeat T0 16 ++ [T1] ++ rng C 1 8 ++ [PC] ++ rng E 1 16 ++ [PE] ++ rng D 1 273 ++ rng TA 1 8.
Definition fig_ccu_sync_16 : list cell :=
  repeat T0 16 ++ [T1] ++ rng C 1 8 ++ [PC; E 1; PE] ++ ones 4 ++ [T1] ++ zeros 8 ++ rng D 13 19 ++ [T1] ++ rng D 20 34
  ++ [T1] ++ ones 15 ++ [T1] ++ ones 8 ++ rng D 58 64 ++ [T1] ++ rng D 65 79
  ++ [T1] ++ ones 15 ++ [T1] ++ ones 8 ++ rng D 103 109 ++ [T1] ++ rng D 110 124
  ++ concat (repeat (T1 :: ones 15) 9) ++ [T1] ++ ones 13 ++ rng TA 1 2.
Definition fig_ccu_data_16 : list cell :=
  repeat T0 16 ++ [T1] ++ rng C 1 7 ++ [PC] ++ rng E 1 19 ++ [PE] ++ rng D 1 271 ++ rng TA 1 4.

(** 64kbps PCU-SYNC-IND, PCU-DATA-IND, PCU-DATA-IND (MCS9), CCU-SYNC-IND,
    CCU-DATA-IND, CCU-DATA-IND (MCS9): comments at trau_pcu_ericsson.c:997-1055,
    1096-1131, 1279-1308, 1413-1466, 1515-1550, 1785-1815.  In the sync figures every
    64th cell is T1. *)
Definition fig_pcu_sync_64 : list cell :=
  repeat T0 64 ++ [T1] ++ rng C 1 8 ++ [PC] ++ ones 54 ++ [T1] ++ ones 41 ++ rng D 96 117
  ++ [T1] ++ ones 15 ++ rng D 133 148 ++ ones 10 ++ rng D 159 180
  ++ [T1] ++ ones 15 ++ rng D 196 211 ++ ones 10 ++ rng D 222 243
  ++ [T1] ++ ones 15 ++ rng D 259 274 ++ ones 32 ++ concat (repeat (T1 :: ones 63) 13) ++ [T1] ++ ones 47 ++ rng TA 1 32.
Definition fig_pcu_data_64 : list cell :=
  repeat T0 64 ++ [T1] ++ rng C 1 8 ++ [PC] ++ rng E 1 36 ++ [PE] ++ rng S_ 1 21 ++ rng D 1 1132 ++ rng TA 1 32.
Definition fig_pcu_data9_64 : list cell :=
  repeat T0 16 ++ [T1] ++ rng D 1 48 ++ rng C 1 8 ++ [PC] ++ rng E 1 9 ++ [PE] ++ rng D 49 1228 ++ rng TA 1 32.
Definition fig_ccu_sync_64 : list cell :=
  repeat T0 64 ++ [T1] ++ rng C 1 8 ++ [PC; E 1; PE] ++ ones 52 ++ [T1] ++ ones 41 ++ rng D 94 115
  ++ [T1] ++ ones 41 ++ rng D 157 178 ++ [T1] ++ ones 41 ++ rng D 220 241
  ++ concat (repeat (T1 :: ones 63) 14) ++ [T1] ++ ones 47 ++ rng TA 1 16.
Definition fig_ccu_data_64 : list cell :=
  repeat T0 64 ++ [T1] ++ rng C 1 7 ++ [PC] ++ rng E 1 57 ++ [PE] ++ rng S_ 1 3 ++ rng D 1 1138 ++ rng TA 9 16.
Definition fig_ccu_data9_64 : list cell :=
  repeat T0 16 ++ [T1] ++ rng D 1 48 ++ rng C 1 7 ++ [PC] ++ rng E 1 23 ++ [PE] ++ rng S_ 1 2 ++ rng D 49 1221 ++ rng TA 9 16.

(** reading a frame by cell name *)
Fixpoint cell_pos (fig : list cell) (c : cell) : nat :=
  match fig with [] => 0 | x :: r => if cell_eqb x c then 0 else S (cell_pos r c) end.
Definition rd (fig : list cell) (f : bits) (c : cell) : bool := nth (cell_pos fig c) f false.
Definition rds (fig : list cell) (f : bits) (l : list cell) : bits := map (rd fig f) l.
(** sync cells are as they must be *)
Definition synced (fig : list cell) (f : bits) : Prop :=
  forall i, (nth_error fig i = Some T0 -> nth_error f i = Some false) /\ (nth_error fig i = Some T1 -> nth_error f i = Some true).
(** cells documented as constant 1 *)
Definition filled (fig : list cell) (f : bits) : Prop :=
  forall i, nth_error fig i = Some (K true) -> nth_error f i = Some true.
Definition one_each (fig : list cell) (f : bits) (l : list cell) : Prop := Forall (fun c => rd fig f c = true) l.

Local Open Scope Z_scope.
(** numbers on the line *)
Definition bz (b : bool) : Z := if b then 1 else 0.
Fixpoint lsb1st (l : bits) : Z := match l with [] => 0 | b :: r => bz b + 2 * lsb1st r end.
Fixpoint msb1st (l : bits) : Z := match l with [] => 0 | b :: r => bz b * 2 ^ Z.of_nat (length r) + msb1st r end.
(** odd parity: the number of ones is odd *)
Definition odd_ones (l : bits) : Prop := Nat.Odd (length (filter (fun b => b) l)).
(** CRC: the remainder of the division of the block, followed by 16 zeros, by
    X^16+X^12+X^5+1, inverted.  Schoolbook division: the leading term is cancelled by
    subtracting the divisor. *)
Definition divisor : bits := [true;false;false;false;true;false;false;false;false;false;false;true;false;false;false;false;true].
Fixpoint sub (a b : bits) : bits := match a, b with x :: a, y :: b => xorb x y :: sub a b | a, [] => a | [], _ => [] end.
Fixpoint division (n : nat) (a : bits) : bits :=
  match n with O => a | S n => match a with [] => [] | x :: r => division n (tl (if x then sub a divisor else a)) end end.
Definition crc_of (w : bits) : bits := map negb (division (length w) (w ++ repeat false 16)).

(** time adjustment: frame length for each value *)
Definition len_16 (tav : Z) : Z := 320 + (if tav =? 1 then 4 else if tav =? 2 then -4 else 0).
Definition len_64 (tav : Z) : Z := 1280 + (if tav =? 1 then 16 else if tav =? 2 then -16 else 0).

(** control bits of a PCU frame: frame type, time adjustment, uplink frame error
    (0 = error), odd parity *)
Definition pcu_control (fig : list cell) (f : bits) (ft tav : Z) (err : bool) : Prop :=
  lsb1st (rds fig f (rng C 1 5)) = ft /\ lsb1st (rds fig f [C 6; C 7]) = tav /\ rd fig f (C 8) = negb err /\
  odd_ones (rds fig f (rng C 1 8 ++ [PC])).

(** ** what the PCU frames say *)
Definition pcu_sync_16 (f : bits) (s : pcu_sync) : Prop :=
  let F := fig_pcu_sync_16 in
  synced F f /\ filled F f /\ one_each F f (rng TA 1 8) /\ pcu_control F f 0x0f (ps_tav s) (ps_err s) /\
  msb1st (rds F f (rng D 15 36)) = ps_pseq s mod 2 ^ 22 /\ msb1st (rds F f (rng D 37 51)) = ps_ss s mod 2 ^ 15 /\
  msb1st (rds F f (rng D 60 81)) = ps_fn_ul s mod 2 ^ 22 /\ msb1st (rds F f (rng D 82 96)) = ps_fn_ss s mod 2 ^ 15 /\
  msb1st (rds F f (rng D 105 126)) = ps_fn_dl s mod 2 ^ 22 /\ msb1st (rds F f (rng D 127 141)) = ps_ls s mod 2 ^ 15.
(** demodulation codes E3-E4 *)
Definition mode_16 (m : Z) : bits := if m =? 0 then [true;true] else if m =? 3 then [false;true] else if m =? 4 then [true;false] else [false;false].
Definition pcu_data_16 (f : bits) (d : pcu_data) : Prop :=
  let F := fig_pcu_data_16 in
  synced F f /\ one_each F f (rng TA 1 8) /\ pcu_control F f 0x1a (pd_tav d) (pd_err d) /\
  odd_ones (rds F f (rng E 1 16 ++ [PE])) /\
  rds F f [E 1; E 2] = [false; pd_cs d =? CS_CS2] /\ rds F f [E 3; E 4] = mode_16 (pd_mode d) /\
  msb1st (rds F f (rng E 5 12)) = pd_offs d mod 2 ^ 8 /\ msb1st (rds F f (rng E 13 16)) = pd_atten d mod 2 ^ 4 /\
  (pd_cs d = CS_CS1 -> rds F f (rng D 1 184) = firstn 184 (pd_data d) /\
                       rds F f (rng D 185 200) = crc_of (firstn 184 (pd_data d)) /\ one_each F f (rng D 201 273)) /\
  (pd_cs d = CS_CS2 -> rds F f (rng D 1 271) = firstn 271 (pd_data d) /\ one_each F f (rng D 272 273)).

(** ** what the CCU frames say *)
(** the octets of a MAC block; bits not transmitted are 0 *)
Definition block (l : bits) : bits := l ++ repeat false (1240 - length l)%nat.
Definition oct (d : bits) (k : nat) : Z := lsb1st (firstn 8 (skipn (8 * k)%nat d)).
(** estimated access delay deviation *)
Definition eadd_code (c e : Z) : Prop := In (c, e) [(0,-3); (1,-1); (2,1); (4,2); (5,3); (6,0); (7,-2)].
(** the access burst in octets o..o+7 *)
Definition access_burst (d : bits) (o : nat) (a : ab) : Prop :=
  ab_rxlev a = oct d (o + 1) /\ ab_acc_delay a = oct d (o + 4) / 64 * 256 + oct d (o + 5) /\
  ab_data a = oct d (o + 6) / 32 * 256 + oct d (o + 7) /\
  ((oct d o mod 32 = 31 /\ ab_u_ a = AbType1 (oct d o / 32) (oct d (o + 2)) (oct d (o + 3))) \/
   (oct d o mod 32 = 0 /\ ab_u_ a = AbType2 (oct d o / 32) (oct d (o + 3) / 64))).
Definition ccu_sync_16 (f : bits) (s : ccu_sync) : Prop :=
  let F := fig_ccu_sync_16 in
  synced F f /\ lsb1st (rds F f (rng C 1 5)) = 0x15 /\ odd_ones (rds F f (rng C 1 8 ++ [PC])) /\ odd_ones (rds F f [E 1; PE]) /\
  cs_tav s = lsb1st (rds F f [C 6; C 7]) /\ cs_dfe s = negb (rd F f (C 8)) /\ cs_dbe s = negb (rd F f (E 1)) /\
  cs_pseq s = msb1st (rds F f (rng D 13 34)) /\ cs_afn_ul s = msb1st (rds F f (rng D 58 79)) /\
  cs_afn_dl s = msb1st (rds F f (rng D 103 124)).
(** coding scheme E2-E4 *)
Definition cs_16 (c cs : Z) : Prop := In (c, cs) [(0, CS_CS1); (1, CS_CS2); (4, CS_AB)].
Definition ccu_data_16 (f : bits) (d : ccu_data) : Prop :=
  let F := fig_ccu_data_16 in
  synced F f /\ lsb1st (rds F f (rng C 1 5)) = 0x1a /\ odd_ones (rds F f (rng C 1 7 ++ [PC])) /\ odd_ones (rds F f (rng E 1 19 ++ [PE])) /\
  cd_tav d = lsb1st (rds F f [C 6; C 7]) /\ cd_dbe d = negb (rd F f (E 1)) /\
  cs_16 (msb1st (rds F f (rng E 2 4))) (cd_cs d) /\
  cd_u d = Gprs (msb1st (rds F f (rng E 5 7))) (rd F f (E 8)) /\
  cd_rx_lev d = msb1st (rds F f (rng E 9 14)) /\ eadd_code (msb1st (rds F f (rng E 15 17))) (cd_eadd d) /\
  ((cd_cs d = CS_CS1 /\ cd_len d = 23 /\ cd_ab d = [] /\ cd_data d = block (rds F f (rng D 1 184)) /\
      rds F f (rng D 185 200) = crc_of (rds F f (rng D 1 184))) \/
   (cd_cs d = CS_CS2 /\ cd_len d = 34 /\ cd_ab d = [] /\ cd_data d = block (rds F f (rng D 1 271))) \/
   (cd_cs d = CS_AB /\ cd_len d = 32 /\ cd_data d = block (rds F f (rng D 4 259)) /\
      Forall2 (access_burst (cd_data d)) [0; 8; 16; 24]%nat (cd_ab d))).

(** ** 64 kbit/s *)
(** EGPRS: modulation and coding scheme by header type and CPS range
    (3GPP TS 44.060, coding and puncturing scheme indicator): header, first CPS, last
    CPS, MCS *)
Definition cps_table : list (Z * Z * Z * Z) :=
  [(CS_HDR1,0,10,9); (CS_HDR1,11,19,8); (CS_HDR1,20,28,7);
   (CS_HDR2,0,3,6); (CS_HDR2,4,5,5); (CS_HDR2,6,7,6);
   (CS_HDR3,0,2,4); (CS_HDR3,3,8,3); (CS_HDR3,9,10,2); (CS_HDR3,11,12,1); (CS_HDR3,13,14,2)].
Definition mcs_of (h cps mcs : Z) : Prop := exists a b, In (h, a, b, mcs) cps_table /\ a <= cps <= b.
(** the CPS field inside the block: first bit and length, downlink and uplink *)
Definition cps_dl (h : Z) (d : bits) : Z :=
  lsb1st (if h =? CS_HDR1 then firstn 5 (skipn 35 d) else if h =? CS_HDR2 then firstn 3 (skipn 25 d) else firstn 4 (skipn 25 d)).
Definition cps_ul (h : Z) (d : bits) : Z :=
  lsb1st (if h =? CS_HDR1 then firstn 5 (skipn 32 d) else if h =? CS_HDR2 then firstn 3 (skipn 22 d) else firstn 4 (skipn 22 d)).
(** block size in bits: CS-1 to CS-4; EGPRS: header plus data part(s) *)
Definition cs_size (cs : Z) : nat := if cs =? CS_CS1 then 184%nat else if cs =? CS_CS2 then 271%nat else if cs =? CS_CS3 then 315%nat else 431%nat.
Definition hdr_dl (mcs : Z) : nat := if 7 <=? mcs then 40%nat else if 5 <=? mcs then 28%nat else 31%nat.
Definition hdr_ul (mcs : Z) : nat := if 7 <=? mcs then 46%nat else if 5 <=? mcs then 37%nat else 31%nat.
Definition payload (mcs : Z) : nat :=
  nth (Z.to_nat mcs) [0; 178; 226; 298; 354; 450; 594; 2 * 450; 2 * 546; 2 * 594]%nat 0%nat.
Definition octets (n : nat) : Z := (Z.of_nat n + 7) / 8.

(** control bits as a PCU sends them at 64k: C1-C7 as documented *)
Definition pcu_type_64 (fig : list cell) (f : bits) (ft tav : Z) : Prop :=
  lsb1st (rds fig f (rng C 1 5)) = ft /\ lsb1st (rds fig f [C 6; C 7]) = tav.
Definition pcu_sync_64 (f : bits) (s : pcu_sync) : Prop :=
  let F := fig_pcu_sync_64 in
  synced F f /\ (forall i, i <> 74%nat -> nth_error F i = Some (K true) -> nth_error f i = Some true) /\ one_each F f (rng TA 1 32) /\
  pcu_type_64 F f 0x0f (ps_tav s) /\
  msb1st (rds F f (rng D 96 117)) = ps_pseq s mod 2 ^ 22 /\ msb1st (rds F f (rng D 133 148)) = ps_ss s mod 2 ^ 16 /\
  msb1st (rds F f (rng D 159 180)) = ps_fn_ul s mod 2 ^ 22 /\
  msb1st (rds F f (rng D 222 243)) = ps_fn_dl s mod 2 ^ 22 /\ msb1st (rds F f (rng D 259 274)) = ps_ls s mod 2 ^ 16.
Definition pcu_data_64 (f : bits) (d : pcu_data) (n : nat) : Prop :=
  let F := fig_pcu_data_64 in
  synced F f /\ one_each F f (rng S_ 1 21 ++ rng TA 1 32) /\ pcu_type_64 F f 0x1a (pd_tav d) /\
  odd_ones (rds F f (rng E 1 36 ++ [PE])) /\
  msb1st (rds F f (rng E 1 3)) = pd_cs d /\ msb1st (rds F f (rng E 4 6)) = pd_mode d /\
  msb1st (rds F f (rng E 7 14)) = pd_offs d mod 2 ^ 8 /\ one_each F f (rng E 15 32) /\
  msb1st (rds F f (rng E 33 36)) = pd_atten d mod 2 ^ 4 /\
  rds F f (rng D 1 n) = firstn n (pd_data d) /\
  (if pd_cs d =? CS_CS1 then rds F f (rng D 185 200) = crc_of (firstn 184 (pd_data d)) /\ one_each F f (rng D 201 1132)
   else one_each F f (rng D (n + 1) 1132)).
Definition pcu_data9_64 (f : bits) (d : pcu_data) : Prop :=
  let F := fig_pcu_data9_64 in
  synced F f /\ one_each F f (rng TA 1 32) /\ pcu_type_64 F f 0x04 (pd_tav d) /\
  odd_ones (rds F f (rng E 1 9 ++ [PE])) /\
  msb1st (rds F f (rng E 1 3)) = pd_mode d /\ one_each F f [E 4; E 5] /\ msb1st (rds F f (rng E 6 9)) = pd_atten d mod 2 ^ 4 /\
  rds F f (rng D 1 1228) = firstn 1228 (pd_data d).
(** how many bits of the block a downlink frame carries, and in which frame type *)
Definition dl_block (d : pcu_data) (mcs : Z) : Prop :=
  (CS_CS1 <= pd_cs d <= CS_CS4 /\ mcs = 0) \/ (CS_HDR1 <= pd_cs d <= CS_HDR3 /\ mcs_of (pd_cs d) (cps_dl (pd_cs d) (pd_data d)) mcs).
Definition dl_size (cs mcs : Z) : nat := if mcs =? 0 then cs_size cs else (hdr_dl mcs + payload mcs)%nat.

Definition ccu_sync_64 (f : bits) (s : ccu_sync) : Prop :=
  let F := fig_ccu_sync_64 in
  synced F f /\ lsb1st (rds F f (rng C 1 5)) = 0x15 /\ odd_ones (rds F f (rng C 1 8 ++ [PC])) /\ odd_ones (rds F f [E 1; PE]) /\
  cs_tav s = lsb1st (rds F f [C 6; C 7]) /\ cs_dfe s = negb (rd F f (C 8)) /\ cs_dbe s = negb (rd F f (E 1)) /\
  cs_pseq s = msb1st (rds F f (rng D 94 115)) /\ cs_afn_ul s = msb1st (rds F f (rng D 157 178)) /\
  cs_afn_dl s = msb1st (rds F f (rng D 220 241)).
(** EGPRS quality: mean and coefficient of variation of the bit error probability,
    0 = good header, 0 = good data part (only with a good header) *)
Definition egprs_says (mean cv hdr : bits) (q : qual) : Prop :=
  match hdr with
  | [h; a; b] => q = Egprs (msb1st mean) (msb1st cv) (negb h) (negb h && negb a) (negb h && negb b)
  | _ => False
  end.
Definition ccu_data_64 (f : bits) (d : ccu_data) : Prop :=
  let F := fig_ccu_data_64 in
  synced F f /\ lsb1st (rds F f (rng C 1 5)) = 0x1a /\ odd_ones (rds F f (rng C 1 7 ++ [PC])) /\ odd_ones (rds F f (rng E 1 57 ++ [PE])) /\
  cd_tav d = lsb1st (rds F f [C 6; C 7]) /\ cd_dbe d = negb (rd F f (E 1)) /\
  cd_cs d = msb1st (rds F f (rng E 2 4)) /\
  cd_rx_lev d = msb1st (rds F f (rng E 5 10)) /\ eadd_code (msb1st (rds F f (rng E 11 13))) (cd_eadd d) /\
  ((CS_CS1 <= cd_cs d <= CS_CS4 /\ cd_u d = Gprs (msb1st (rds F f (rng E 14 16))) (rd F f (E 17))) \/
   (~ CS_CS1 <= cd_cs d <= CS_CS4 /\ egprs_says (rds F f (rng E 14 20)) (rds F f (rng E 21 23)) (rds F f (rng E 24 26)) (cd_u d))) /\
  ((CS_CS1 <= cd_cs d <= CS_CS4 /\ cd_ab d = [] /\ cd_len d = octets (cs_size (cd_cs d)) /\
      cd_data d = block (rds F f (rng D 1 (cs_size (cd_cs d)))) /\
      (cd_cs d = CS_CS1 -> rds F f (rng D 185 200) = crc_of (rds F f (rng D 1 184)))) \/
   (cd_cs d = CS_AB /\ cd_len d = 32 /\ cd_data d = block (rds F f (rng D 11 266)) /\
      Forall2 (access_burst (cd_data d)) [0; 8; 16; 24]%nat (cd_ab d)) \/
   (CS_HDR1 <= cd_cs d <= CS_HDR3 /\ cd_ab d = [] /\
      let cps := cps_ul (cd_cs d) (rds F f (rng D 1 40)) in
      ((exists mcs, mcs_of (cd_cs d) cps mcs /\ mcs <= 8 /\
          let n := (hdr_ul mcs + payload mcs)%nat in cd_len d = octets n /\ cd_data d = block (rds F f (rng D 1 n))) \/
       ((forall mcs, ~ mcs_of (cd_cs d) cps mcs) /\ cd_len d = 0 /\ cd_data d = block (rds F f (rng D 1 40)))))).
(** CCU-DATA-IND (MCS9): everything but the block *)
Definition ccu_data9_64 (f : bits) (d : ccu_data) : Prop :=
  let F := fig_ccu_data9_64 in
  synced F f /\ lsb1st (rds F f (rng C 1 5)) = 0x04 /\ odd_ones (rds F f (rng C 1 7 ++ [PC])) /\ odd_ones (rds F f (rng E 1 23 ++ [PE])) /\
  cd_tav d = lsb1st (rds F f [C 6; C 7]) /\ cd_dbe d = negb (rd F f (E 1)) /\ cd_cs d = CS_HDR1 /\ cd_ab d = [] /\
  cd_rx_lev d = msb1st (rds F f (rng E 2 7)) /\ eadd_code (msb1st (rds F f (rng E 8 10))) (cd_eadd d) /\
  egprs_says (rds F f (rng E 11 17)) (rds F f (rng E 18 20)) (rds F f (rng E 21 23)) (cd_u d).
(** the documented MCS9 block: 46 header bits, 13 of which are not transmitted and 0,
    then two data parts of 594 bits *)
Definition mcs9_block (f : bits) : bits :=
  let F := fig_ccu_data9_64 in
  rds F f (rng D 1 32) ++ repeat false 6 ++ [rd F f (D 33)] ++ repeat false 7 ++ rds F f (rng D 34 1221).
