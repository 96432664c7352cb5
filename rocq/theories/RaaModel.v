(** Model of src/trau/csd_ra2.c, src/trau/raa_prime_encode.c and
    src/trau/raa_prime_decode.c. *)
From Coq Require Import List Arith Lia Bool ZArith.
From Verif Require Import Base.
Import ListNotations.

(** ** csd_ra2.c *)

(** csd_ra2.c:25-33 osmo_csd_ra2_8k_pack.  One call packs [length in_bits]
    octets; octets are Z. *)
Definition ra2_8k_pack (in_bits : bits) : list Z :=
  map (fun b => Z.lor 127 (Z.shiftl (Z.b2z b) 7)) in_bits.

(** csd_ra2.c:35-42 osmo_csd_ra2_8k_unpack *)
Definition ra2_8k_unpack (in_bytes : list Z) : bits :=
  map (fun b => Z.odd (Z.shiftr b 7)) in_bytes.

(** csd_ra2.c:44-58 osmo_csd_ra2_16k_pack with n_out_bytes = n: reads 2n bits
    (checked) and stores n octets. *)
Fixpoint ra2_16k_pack (n : nat) (in_bits : bits) : option (list Z) :=
  match n with
  | O => Some []
  | S n' =>
    match in_bits with
    | b0 :: b1 :: rest =>
      do r <- ra2_16k_pack n' rest;
      Some (Z.lor (Z.lor 63 (Z.shiftl (Z.b2z b0) 7)) (Z.shiftl (Z.b2z b1) 6) :: r)
    | _ => None
    end
  end.

(** csd_ra2.c:60-70 osmo_csd_ra2_16k_unpack *)
Definition ra2_16k_unpack (in_bytes : list Z) : bits :=
  flat_map (fun b => [Z.odd (Z.shiftr b 7); Z.odd (Z.shiftr b 6)]) in_bytes.

(** ** raa_prime_encode.c *)

(** raa_prime_encode.c:32-41 is_z_seq: eight checked reads from d_bits+idx.
    The C loop stops at the first set bit; reading the whole window first is
    equivalent for callers that pass idx+8 <= size. *)
Definition is_z_seq (d : bits) (idx : nat) : option bool :=
  do w <- slice d idx 8; Some (negb (existsb (fun b => b) w)).

(** raa_prime_encode.c:43-56 find_z_seqs; zseq_pos has MAX_ZSEQ_CNT = 4
    elements (line 30), a fifth store is out of bounds. [fuel] bounds the loop
    (idx grows by at least one per iteration, stops above 28). *)
Fixpoint find_z_seqs (fuel : nat) (d : bits) (idx : nat) (zseq : list nat) : option (list nat) :=
  match fuel with
  | O => Some zseq
  | S k =>
    if idx <=? 28 then
      do z <- is_z_seq d idx;
      if z then
        if length zseq <? 4 then find_z_seqs k d (idx + 8) (zseq ++ [idx]) else None
      else find_z_seqs k d (S idx) zseq
    else Some zseq
  end.

(** bit i of a small number, as in [(pos_1based >> i) & 1] *)
Definition nbit (n i : nat) : bool := Nat.odd (n / 2 ^ i).

(** raa_prime_encode.c:58-70 encode_zsp: the eight stored bits *)
Definition encode_zsp (pos_0based : nat) (is_final : bool) : bits :=
  let p1 := pos_0based + 1 in
  [true; is_final; nbit p1 4; nbit p1 3; nbit p1 2; nbit p1 1; nbit p1 0; true].

(** raa_prime_encode.c:86-97, the loop over zseq_pos; [n] counts remaining.
    [op] is the offset of out_bits in the output object. *)
Fixpoint pack_loop (zs : list nat) (out : bits) (op : nat) (d : bits) (dp in_pos : nat)
  : option (bits * nat * nat) :=
  match zs with
  | [] => Some (out, op, in_pos)
  | z_pos :: rest =>
    let final := match rest with [] => true | _ => false end in
    do out <- blit out op (encode_zsp z_pos final);
    let op := op + 8 in
    if in_pos <=? z_pos then           (* OSMO_ASSERT(z_pos >= in_pos) *)
      let numd := z_pos - in_pos in
      do out <- memcpy out op d (dp + in_pos) numd;
      pack_loop rest out (op + numd) d dp (in_pos + numd + 8)
    else None
  end.

(** raa_prime_encode.c:72-101 atrau_pack_subframe(out_bits + op, d_bits + dp) *)
Definition pack_subframe (out : bits) (op : nat) (d : bits) (dp : nat) : option bits :=
  do dsub <- slice d dp 36;
  do zs <- find_z_seqs 37 dsub 0 [];
  match zs with
  | [] =>
    do out <- put out op true;
    memcpy out (op + 1) d dp 36
  | _ =>
    do out <- put out op false;
    do (out, op, in_pos) <- pack_loop zs out (op + 1) d dp 0;
    if in_pos <=? 36 then                (* OSMO_ASSERT(in_pos <= 36) *)
      memcpy out op d (dp + in_pos) (36 - in_pos)
    else None
  end.

(** raa_prime_encode.c:103-128 osmo_csd144_to_atrau_bits; [out] is the
    caller's buffer (OSMO_ATRAU_FRAME_BITS = 320, csd_raa_prime.h). *)
Definition to_atrau_bits (out m_bits d_bits : bits) (c4 c5 : bool) : option bits :=
  do out <- memset out 0 false 16;
  do out <- put out 16 true;
  do out <- put out 17 false;
  do out <- put out 18 true;
  do out <- put out 19 true;
  do out <- put out 20 c4;
  do out <- put out 21 c5;
  do m0 <- get m_bits 0;
  do out <- put out 22 m0;
  do m1 <- get m_bits 1;
  do out <- put out 23 m1;
  forM 8 0 (fun subf out => pack_subframe out (24 + subf * 37) d_bits (subf * 36)) out.

(** raa_prime_encode.c:130-139 osmo_csd144_to_atrau_ra2 (OSMO_ATRAU_RA2_OCTETS
    = 160); the uninitialised local buffer is modelled as an arbitrary one. *)
Definition to_atrau_ra2 (uninit m_bits d_bits : bits) (c4 c5 : bool) : option (list Z) :=
  do b <- to_atrau_bits uninit m_bits d_bits c4 c5;
  ra2_16k_pack 160 b.

(** ** raa_prime_decode.c *)

(** raa_prime_decode.c:29-45 decode_zsp; result: inl error | inr position *)
Definition decode_zsp (a : bits) (ap : nat) : option (Z + nat) :=
  do b0 <- get a ap;
  do b7 <- get a (ap + 7);
  if negb b0 || negb b7 then Some (inl EINVAL) else
  do w <- slice a (ap + 2) 5;
  let pos1 := fold_left (fun acc (b : bool) => 2 * acc + Nat.b2n b) w 0 in
  if (pos1 <? 1) || (29 <? pos1) then Some (inl EINVAL)
  else Some (inr (pos1 - 1)).

(** raa_prime_decode.c:59-75, the for(;;) loop: [a],[ap] = input after Zi,
    [d],[dp] = output; result inl rc | inr (d, pos).  [fuel]: each iteration
    advances pos by at least 8 and the loop returns once pos > 28. *)
Fixpoint decode_loop (fuel : nat) (d : bits) (dp : nat) (a : bits) (ap pos : nat)
  : option (Z + bits * nat) :=
  match fuel with
  | O => None
  | S k =>
    if 28 <? pos then Some (inl EINVAL) else
    do r <- decode_zsp a (ap + pos);
    match r with
    | inl rc => Some (inl rc)
    | inr z_pos =>
      do cbit <- get a (ap + pos + 1);
      if z_pos <? pos then Some (inl EINVAL) else
      let numd := z_pos - pos in
      do d <- memcpy d (dp + pos) a (ap + 8 + pos) numd;
      do d <- memset d (dp + pos + numd) false 8;
      let pos := pos + (numd + 8) in
      if cbit then Some (inr (d, pos)) else decode_loop k d dp a ap pos
    end
  end.

(** raa_prime_decode.c:47-80 decode_subframe(d_bits + dp, atrau_bits + ap) *)
Definition decode_subframe (d : bits) (dp : nat) (a : bits) (ap : nat) : option (Z + bits) :=
  do zi <- get a ap;
  if (zi : bool) then
    do d <- memcpy d dp a (ap + 1) 36; Some (inr d)
  else
    do r <- decode_loop 5 d dp a (ap + 1) 0;
    match r with
    | inl rc => Some (inl rc)
    | inr (d, pos) =>
      if pos <=? 36 then                  (* OSMO_ASSERT(pos <= 36) *)
        do d <- memcpy d (dp + pos) a (ap + 1 + pos) (36 - pos); Some (inr d)
      else None
    end.

(** raa_prime_decode.c:102-108, the loop over the 8 sub-frames *)
Fixpoint decode_subframes (n subf : nat) (d a : bits) : option (Z + bits) :=
  match n with
  | O => Some (inr d)
  | S n' =>
    do r <- decode_subframe d (subf * 36) a (24 + subf * 37);
    match r with
    | inl rc => Some (inl rc)
    | inr d => decode_subframes n' (S subf) d a
    end
  end.

(** raa_prime_decode.c:86-88 *)
Definition atrau_header : bits := repeat false 16 ++ [true; false; true; true].

(** raa_prime_decode.c:82-110 osmo_csd144_from_atrau_bits.  Result:
    inl rc (error) | inr (m0, m1, d_bits, c4, c5).  [d] is the caller's 288-bit
    buffer before the call. *)
Definition from_atrau_bits (d : bits) (a : bits) : option (Z + (bool * bool * bits * bool * bool)) :=
  do h <- slice a 0 20;
  if negb (forallb (fun p => Bool.eqb (fst p) (snd p)) (combine h atrau_header)) then Some (inl EINVAL) else
  do c4 <- get a 20;
  do c5 <- get a 21;
  do m0 <- get a 22;
  do m1 <- get a 23;
  do r <- decode_subframes 8 0 d a;
  match r with
  | inl rc => Some (inl rc)
  | inr d => Some (inr (m0, m1, d, c4, c5))
  end.

(** raa_prime_decode.c:112-121 osmo_csd144_from_atrau_ra2 *)
Definition from_atrau_ra2 (d : bits) (bytes : list Z) : option (Z + (bool * bool * bits * bool * bool)) :=
  from_atrau_bits d (ra2_16k_unpack bytes).
