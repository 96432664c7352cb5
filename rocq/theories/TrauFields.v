(** Specification over the API types of the TRAU codec (no model function is
    used): buffer sizes, line lengths, sync patterns, and which fields a frame
    of each type carries (08.60 section 3, 08.61 section 5). *)
From Coq Require Import List Arith Bool ZArith.
From Verif Require Import Base TrauSpec TrauModel.
Import ListNotations.

(** buffer size, in bits, that a frame type can need; frames with timing
    alignment may be almost twice as long *)
Definition required (ty : ftype) : option nat :=
  match ty with
  | T16_FR | T16_EFR | T16_HR | T16_AMR => Some 639
  | T16_OAM | T16_IDLE | T16_DATA_HR | T16_DATA | T16_D145_SYNC | T16_EDATA => Some 320
  | T8_SPEECH | T8_AMR_LOW | T8_AMR_6k7 | T8_AMR_7k4 => Some 319
  | T8_DATA | T8_OAM => Some 160
  | FT_NONE | FT_other _ => None
  end.

(** frame length without timing alignment *)
Definition frame_len (ty : ftype) : nat :=
  match ty with
  | T8_SPEECH | T8_AMR_LOW | T8_AMR_6k7 | T8_AMR_7k4 | T8_DATA | T8_OAM => 160
  | _ => 320
  end.

Definition sync_pattern (ty : ftype) : list (nat * bool) :=
  match ty with
  | T16_EDATA => pat_edata
  | T8_SPEECH | T8_DATA | T8_OAM => pat8
  | T8_AMR_LOW => pat_low
  | T8_AMR_6k7 => pat_67
  | T8_AMR_7k4 => pat_74
  | _ => pat16
  end.

Definition is_speech16 (ty : ftype) : bool :=
  match ty with T16_FR | T16_EFR | T16_HR | T16_AMR => true | _ => false end.

(** 16k frames: C bits transported besides the type code C1..C5 *)
Definition n_c16 (ty : ftype) : nat :=
  match ty with
  | T16_FR | T16_EFR | T16_HR => 16
  | T16_AMR => 20
  | T16_DATA | T16_DATA_HR | T16_D145_SYNC | T16_OAM => 10
  | T16_EDATA => 8
  | _ => 0
  end.
(** 16k frames: D bits transported *)
Definition n_d16 (ty : ftype) : nat :=
  match ty with
  | T16_FR | T16_EFR => 260 | T16_AMR => 256 | T16_HR => 112 | T16_OAM => 264
  | T16_DATA => 252 | T16_DATA_HR => 126 | T16_EDATA => 288
  | _ => 0
  end.

(** frame [fr'] received where [fr] was sent (16k), T bits apart *)
Definition same_contents16 (fr fr' : tframe) : Prop :=
  tf_type fr' = tf_type fr /\
  sub (tf_c fr') 5 (n_c16 (tf_type fr)) = sub (tf_c fr) 5 (n_c16 (tf_type fr)) /\
  firstn (n_d16 (tf_type fr)) (tf_d fr') = firstn (n_d16 (tf_type fr)) (tf_d fr) /\
  (tf_type fr = T16_EDATA -> tf_m fr' = tf_m fr) /\
  (tf_type fr = T16_OAM -> tf_s fr' = tf_s fr) /\
  (tf_type fr = T16_HR -> tf_ufi fr' = tf_ufi fr /\ tf_crc fr' = tf_crc fr).

(** 8k frames: leading C bits and D, T bits transported *)
Definition n_d8 (ty : ftype) : nat :=
  match ty with
  | T8_SPEECH => 112 | T8_DATA => 126 | T8_OAM => 120 | T8_AMR_LOW => 126 | T8_AMR_7k4 => 151 | T8_AMR_6k7 => 137
  | _ => 0
  end.
Definition n_c8 (ty : ftype) : nat :=
  match ty with T8_DATA | T8_OAM | T8_AMR_LOW => 5 | T8_AMR_7k4 | T8_AMR_6k7 => 3 | _ => 0 end.
Definition n_t8 (ty : ftype) : nat := match ty with T8_SPEECH => 2 | T8_AMR_LOW => 1 | _ => 0 end.

Definition same_contents8 (fr fr' : tframe) : Prop :=
  tf_type fr' = tf_type fr /\
  firstn (n_c8 (tf_type fr)) (tf_c fr') = firstn (n_c8 (tf_type fr)) (tf_c fr) /\
  firstn (n_d8 (tf_type fr)) (tf_d fr') = firstn (n_d8 (tf_type fr)) (tf_d fr) /\
  (tf_type fr = T8_SPEECH ->
     sub (tf_c fr') 5 4 = sub (tf_c fr) 5 4 /\
     tf_crc fr' = tf_crc fr /\ tf_xc fr' = tf_xc fr /\
     (tf_dir fr = DL -> nth 3 (tf_c fr') false = nth 3 (tf_c fr) false)) /\
  (tf_type fr = T8_OAM -> tf_xc fr' = tf_xc fr).

(** 08.61 5.2.4.1: the caller supplies C1..C5 of 8k data and O&M frames *)
Definition valid_c8 (fr : tframe) : Prop :=
  match tf_type fr, tf_dir fr with
  | T8_DATA, UL => firstn 5 (tf_c fr) = [false;false;true;true;true]
  | T8_DATA, DL => firstn 3 (tf_c fr) = [false;false;true]
  | T8_OAM, UL => firstn 5 (tf_c fr) = [false;true;false;true;true]
  | T8_OAM, DL => firstn 3 (tf_c fr) = [false;true;false]
  | _, _ => True
  end.

(** 08.60 frame type codes C1..C5 *)
Definition type16 (code : list bool) : ftype :=
  match code with
  | [false;false;false;true;false] | [true;true;true;false;false] => T16_FR
  | [true;false;false;false;false] | [false;true;true;true;false] => T16_IDLE
  | [true;true;false;true;false] => T16_EFR
  | [false;false;true;true;false] => T16_AMR
  | [false;false;true;false;true] | [true;true;false;true;true] => T16_OAM
  | [false;true;false;false;false] | [true;false;true;true;false] => T16_DATA
  | [false;false;false;true;true] | [true;true;true;false;true] => T16_HR
  | [false;true;false;false;true] | [true;false;true;true;true] => T16_DATA_HR
  | [true;true;true;true;true] => T16_EDATA
  | [true;false;true;false;false] => T16_D145_SYNC
  | _ => FT_NONE
  end.

(** a requested downlink alignment whose bit count is computable in an int *)
Definition ta_ok (fr : tframe) : Prop := (-536870912 <= tf_ta fr <= 536870911)%Z.

(** 08.61 5.2.4 / 6.8.2.1: type of the 160-bit frame [b] received in direction [dir] *)
Inductive line8 (b : bits) (dir : fdir) : ftype -> Prop :=
  | line8_speech : has_pattern b pat8 ->
      match dir with UL => sub b 9 5 = [false;false;false;true;false] | DL => sub b 9 3 = [false;false;false] end ->
      line8 b dir T8_SPEECH
  | line8_data : has_pattern b pat8 ->
      match dir with UL => sub b 9 5 = [false;false;true;true;true] | DL => sub b 9 3 = [false;false;true] end ->
      line8 b dir T8_DATA
  | line8_oam : has_pattern b pat8 ->
      match dir with UL => sub b 9 5 = [false;true;false;true;true] | DL => sub b 9 3 = [false;true;false] end ->
      line8 b dir T8_OAM
  | line8_low : has_pattern b pat_low -> line8 b dir T8_AMR_LOW
  | line8_67 : has_pattern b pat_67 -> line8 b dir T8_AMR_6k7
  | line8_74 : has_pattern b pat_74 -> line8 b dir T8_AMR_7k4.

(** 08.60 3.5 / 08.61 5.1.4: C1..C5 by type and direction *)
Definition code16 (ty : ftype) (dir : fdir) : list bool :=
  match ty, dir with
  | T16_FR, UL => [false;false;false;true;false]   | T16_FR, DL => [true;true;true;false;false]
  | T16_HR, UL => [false;false;false;true;true]    | T16_HR, DL => [true;true;true;false;true]
  | T16_EFR, _ => [true;true;false;true;false]     | T16_AMR, _ => [false;false;true;true;false]
  | T16_OAM, UL => [false;false;true;false;true]   | T16_OAM, DL => [true;true;false;true;true]
  | T16_DATA, UL => [false;true;false;false;false] | T16_DATA, DL => [true;false;true;true;false]
  | T16_DATA_HR, UL => [false;true;false;false;true] | T16_DATA_HR, DL => [true;false;true;true;true]
  | T16_EDATA, _ => [true;true;true;true;true]     | T16_D145_SYNC, _ => [true;false;true;false;false]
  | T16_IDLE, UL => [true;false;false;false;false] | T16_IDLE, DL => [false;true;true;true;false]
  | _, _ => []
  end.
