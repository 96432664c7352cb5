(** The frame layouts of 3GPP TS 48.060 (08.60) section 3 and TS 48.061 (08.61) sections 5 and
    6, octet by octet as drawn there, leftmost bit first.  Only the struct of the API is used,
    no function of the model. *)
From Coq Require Import List Arith Bool ZArith.
From Verif Require Import Base TrauModel TrauFields.
Import ListNotations.

(** a box of a figure: a constant, or a numbered bit (numbers start at 1 for C, D, T, S, M,
    XC; CRC0..CRC2) *)
Inductive cell := O | I | C (n : nat) | D (n : nat) | T (n : nat) | S (n : nat) | M (n : nat) | XC (n : nat) | CRC (n : nat) | UFI.
(** boxes numbered [a] to [b] *)
Definition run (k : nat -> cell) (a b : nat) : list cell := map k (seq a (b + 1 - a)).
(** [rows] rows of: a one and [w] D bits, the first being number [a] *)
Definition drows (a w rows : nat) : list cell := flat_map (fun r => I :: run D (a + w * r) (a + w * r + w - 1)) (seq 0 rows).
Definition zeros n := repeat O n.
Definition ones n := repeat I n.

(** 48.060 3.1: speech frame FR, EFR (and idle speech).  Octets 0, 1: zeros; 2, 3: 1 C1..C15;
    4-37: 17 times 1 D..D (15); 38, 39: 1 D256..D260 C16..C21 T1..T4 *)
Definition fig_speech : list cell := zeros 16 ++ [I] ++ run C 1 15 ++ drows 1 15 17 ++ [I] ++ run D 256 260 ++ run C 16 21 ++ run T 1 4.
(** 48.060 3.1 AMR: octets 4, 5: 1 C16..C25 D1..D5; then 16 times 1 D..D (15); 38, 39: 1 D246..D256 T1..T4 *)
Definition fig_amr : list cell := zeros 16 ++ [I] ++ run C 1 15 ++ [I] ++ run C 16 25 ++ run D 1 5 ++ drows 6 15 16 ++ [I] ++ run D 246 256 ++ run T 1 4.
(** 48.060 3.2: O&M: 4-37: 17 times 1 D..D (15); 38, 39: 1 D256..D264 S1..S6 *)
Definition fig_oam : list cell := zeros 16 ++ [I] ++ run C 1 15 ++ drows 1 15 17 ++ [I] ++ run D 256 264 ++ run S 1 6.
(** 48.060 3.3.1: data: octets 4-39: 1 and 7 data bits each *)
Definition fig_data : list cell := zeros 16 ++ [I] ++ run C 1 15 ++ drows 1 7 36.
(** 48.060 3.3.2: E-TRAU data: 1 C1..C13 M1 M2, then D1..D288 *)
Definition fig_edata : list cell := zeros 16 ++ [I] ++ run C 1 13 ++ run M 1 2 ++ run D 1 288.
(** 48.060: 14.5 kbit/s synchronisation: the data part all ones *)
Definition fig_d145_sync : list cell := zeros 16 ++ [I] ++ run C 1 15 ++ ones 288.
(** 48.061 5.1.1.1: HR speech on 16k: 1 UFI D1..D14; 1 D15..D29; 1 D30..D44; 1 CRC0..CRC2
    D45..D56; 1 D57..D71; 1 D72..D86; 1 D87..D101; 1 D102..D112 1 1 1 1; octets 20-37 ones;
    1 1 1 1 1 1 C16..C21 T1..T4 *)
Definition fig_hr : list cell := zeros 16 ++ [I] ++ run C 1 15 ++ [I; UFI] ++ run D 1 14 ++ drows 15 15 2 ++ [I] ++ run CRC 0 2 ++ run D 45 56 ++ drows 57 15 3 ++ [I] ++ run D 102 112 ++ ones 4 ++
  ones (18 * 8) ++ ones 6 ++ run C 16 21 ++ run T 1 4.
(** 48.061 5.1.2: HR data on 16k: octets 4-12 and 22-30 1 and 7 data bits each, 13-21 and 31-39 ones *)
Definition fig_data_hr : list cell := zeros 16 ++ [I] ++ run C 1 15 ++ drows 1 7 9 ++ ones 72 ++ drows 64 7 9 ++ ones 72.
(** 48.061 5.2.1.1: HR speech on 8k: 0; 1 C1..C5 XC1 XC2; 0 1 XC3..XC6 D1 D2; six times 1 D..D
    (7); 1 CRC0..CRC2 D45..D48; nine times 1 D..D (7); 1 D112 C6..C9 T1 T2 *)
Definition fig8_speech : list cell := zeros 8 ++ [I] ++ run C 1 5 ++ run XC 1 2 ++ [O; I] ++ run XC 3 6 ++ run D 1 2 ++ drows 3 7 6 ++ [I] ++ run CRC 0 2 ++ run D 45 48 ++ drows 49 7 9 ++ [I] ++ run D 112 112 ++ run C 6 9 ++ run T 1 2.
(** 48.061 5.2.2: data on 8k: 1 C1..C5 D1 D2; 0 1 D3..D8; 16 times 1 D..D (7); 1 D121..D126 1 *)
Definition fig8_data : list cell := zeros 8 ++ [I] ++ run C 1 5 ++ run D 1 2 ++ [O; I] ++ run D 3 8 ++ drows 9 7 16 ++ [I] ++ run D 121 126 ++ [I].
(** 48.061 5.2.3: O&M on 8k: 1 C1..C5 XC1 XC2; 0 1 XC3..XC6 D1 D2; 16 times 1 D..D (7); 1
    D115..D120 1 *)
Definition fig8_oam : list cell := zeros 8 ++ [I] ++ run C 1 5 ++ run XC 1 2 ++ [O; I] ++ run XC 3 6 ++ run D 1 2 ++ drows 3 7 16 ++ [I] ++ run D 115 120 ++ [I].
(** 48.061 5.2.1.2.1: AMR low rates: 1 D1..D7; 1 C1..C5 D8 D9; 0 1 D10..D15; 15 times 1 D..D (7); 1
    D121..D126 T1 *)
Definition fig8_low : list cell := zeros 8 ++ [I] ++ run D 1 7 ++ [I] ++ run C 1 5 ++ run D 8 9 ++ [O; I] ++ run D 10 15 ++ drows 16 7 15 ++ [I] ++ run D 121 126 ++ run T 1 1.
(** 48.061 5.2.1.2.2: AMR 6.7: 1 D1..D7; 1 C1..C3 D8..D11; 1 D12..D18; 1 D19..D25; 0 D26..D32;
    1 D33..D39 D40..D47; six times 1 D..D (15) *)
Definition fig8_67 : list cell := zeros 8 ++ [I] ++ run D 1 7 ++ [I] ++ run C 1 3 ++ run D 8 11 ++ [I] ++ run D 12 18 ++ [I] ++ run D 19 25 ++ [O] ++ run D 26 32 ++ drows 33 15 7.
(** 48.061 5.2.1.2.3: AMR 7.4: 0 0 1 D1..D5; 0 D6..D12; 1 C1..C3 D13..D16; 0 D17..D23; D24..D151 *)
Definition fig8_74 : list cell := [O; O; I] ++ run D 1 5 ++ [O] ++ run D 6 12 ++ [I] ++ run C 1 3 ++ run D 13 16 ++ [O] ++ run D 17 23 ++ run D 24 151.

Definition figure (ty : ftype) : list cell :=
  match ty with
  | T16_FR | T16_EFR | T16_IDLE => fig_speech | T16_AMR => fig_amr | T16_HR => fig_hr | T16_OAM => fig_oam
  | T16_DATA => fig_data | T16_EDATA => fig_edata | T16_D145_SYNC => fig_d145_sync | T16_DATA_HR => fig_data_hr
  | T8_SPEECH => fig8_speech | T8_DATA => fig8_data | T8_OAM => fig8_oam | T8_AMR_LOW => fig8_low | T8_AMR_6k7 => fig8_67 | T8_AMR_7k4 => fig8_74
  | FT_NONE | FT_other _ => []
  end.

(** the bit of the struct a box stands for; None: a constant *)
Definition of_struct (fr : tframe) (c : cell) : option bool :=
  match c with
  | O | I => None
  | C n => nth_error (tf_c fr) (n - 1) | D n => nth_error (tf_d fr) (n - 1) | T n => nth_error (tf_t fr) (n - 1)
  | S n => nth_error (tf_s fr) (n - 1) | M n => nth_error (tf_m fr) (n - 1) | XC n => nth_error (tf_xc fr) (n - 1)
  | CRC n => nth_error (tf_crc fr) n | UFI => Some (tf_ufi fr)
  end.
(** C1..C5 of a frame sent: the type code (48.060 3.5, 48.061 5.1.4); on 8k speech in downlink
    000, C4 of the struct, odd parity over the four (48.061 5.2.4); else from the struct *)
Definition type_bits (fr : tframe) : list bool :=
  match tf_type fr, tf_dir fr with
  | T8_SPEECH, UL => [false; false; false; true; false]
  | T8_SPEECH, DL => match nth_error (tf_c fr) 3 with Some c4 => [false; false; false; c4; negb c4] | None => [] end
  | (T8_DATA | T8_OAM | T8_AMR_LOW), _ => firstn 5 (tf_c fr)
  | (T8_AMR_6k7 | T8_AMR_7k4), _ => firstn 3 (tf_c fr)
  | ty, d => code16 ty d
  end.
(** what must be in a box of a frame made from [fr] *)
Definition sent (fr : tframe) (c : cell) : option bool :=
  match c with
  | O => Some false | I => Some true
  | C n => if (n <=? 5)%nat then nth_error (type_bits fr) (n - 1) else of_struct fr c
  | _ => of_struct fr c
  end.
Definition variable (c : cell) : bool := match c with O | I => false | _ => true end.
