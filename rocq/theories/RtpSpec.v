(** Specification vocabulary for TRAU <-> RTP conversion, independent of the
    model: octets and bits, codec payload layouts. *)
From Coq Require Import List Arith Lia Bool ZArith.
From Verif Require Import Base.
Import ListNotations.

(** octets; bit order MSB first *)
Definition is_octet (z : Z) : Prop := (0 <= z <= 255)%Z.
Definition bits_of_octet (z : Z) : bits :=
  map (fun i => Z.testbit z i) [7;6;5;4;3;2;1;0]%Z.
Definition bits_of_octets (l : list Z) : bits := flat_map bits_of_octet l.

(** cut [l] into consecutive pieces of the given widths *)
Fixpoint pieces (widths : list nat) (l : bits) : list bits :=
  match widths with
  | [] => []
  | w :: ws => firstn w l :: pieces ws (skipn w l)
  end.

(** GSM 06.10 full rate: widths of the 76 codec parameters (3GPP TS 46.010
    table 1.1): eight LARs, then per sub-frame lag, gain, grid, xmax and 13
    pulses.  TRAU D bits carry each parameter LSB first, RTP MSB first. *)
Definition fr_widths : list nat :=
  [6; 6; 5; 5; 4; 4; 3; 3] ++ concat (repeat ([7; 2; 2; 6] ++ repeat 3 13) 4).
Definition fr_rtp_bits (d : bits) : bits :=
  [true; true; false; true] ++ concat (map (@rev bool) (pieces fr_widths (firstn 260 d))).

(** GSM EFR (3GPP TS 48.060 5.5.1.1.2): the 260 TRAU D bits are a spare bit,
    then five blocks of speech bits each followed by three parity bits. *)
Definition efr_speech_widths : list nat := [38; 53; 50; 53; 50].
(** zero-based D positions of each block's protected bits and of its parity *)
Definition efr_protected : list (list nat * nat) :=
  [ (seq 0 22 ++ [24; 25; 26; 28], 39);
    (seq 42 10 ++ [90; 91], 95);
    (seq 98 5 ++ [104; 143; 144], 148);
    (seq 151 10 ++ [199; 200], 204);
    (seq 207 5 ++ [213; 252; 253], 257) ].
Definition at_ (d : bits) (l : list nat) : bits := map (fun i => nth i d false) l.
(** speech bits of a D field *)
Definition efr_speech (d : bits) : bits :=
  firstn 38 (skipn 1 d) ++ firstn 53 (skipn 42 d) ++ firstn 50 (skipn 98 d) ++
  firstn 53 (skipn 151 d) ++ firstn 50 (skipn 207 d).
Definition efr_rtp_bits (d : bits) : bits := [true; true; false; false] ++ efr_speech d.

(** V.110 frame: an octet of zeros, then nine octets led by a 1 *)
Definition v110_frame (x : bits) : bits :=
  repeat false 8 ++ concat (map (fun p => true :: p) (pieces (repeat 7 9) x)).
Definition is_v110 (f : bits) : Prop :=
  length f = 80 /\ (forall i, i < 8 -> nth_error f i = Some false) /\
  (forall i, 1 <= i <= 9 -> nth_error f (8 * i) = Some true).
