(** Properties C14-C16 (legacy TRAU frame codec, src/trau_frame.c). *)
From Coq Require Import List Arith Lia Bool ZArith.
From Verif Require Import Base Spec OldTrauModel OldTrauProofs.
Import ListNotations.

(** ** Specification: 08.60 frame type codes, C1..C5, most significant first *)
Definition T_FR_UP     := [false;false;false;true;false].
Definition T_FR_DOWN   := [true;true;true;false;false].
Definition T_EFR       := [true;true;false;true;false].
Definition T_IDLE_UP   := [true;false;false;false;false].
Definition T_IDLE_DOWN := [false;true;true;true;false].
Definition T_DATA_UP   := [false;true;false;false;false].
Definition T_DATA_DOWN := [true;false;true;true;false].
Definition T_AMR       := [false;false;true;true;false].

Definition frame_type (fr : dtf) : list bool := firstn 5 (c_bits fr).
Definition line_type (b : bits) : list bool := firstn 5 (skipn 17 b).

Definition speech_types := [T_FR_UP; T_FR_DOWN; T_EFR; T_IDLE_UP; T_IDLE_DOWN].
Definition dat_types := [T_DATA_UP; T_DATA_DOWN].

(** C14. [buf]/[fr0]: caller's output buffers with arbitrary previous contents.
    Speech and idle frames carry C1..C21, D1..D260, T1..T4; data frames C1..C15
    and D1..D288. In speech/idle frames every 16th bit from bit 16 on is the
    synchronisation bit 1. Anything else is refused by the encoder. *)
Theorem C14_legacy_roundtrip : forall buf fr0 fr,
  length buf = 320 -> dtf_wf fr0 -> dtf_wf fr ->
  (In (frame_type fr) speech_types ->
     exists b fr', encode_trau_frame buf fr = Some (0%Z, b) /\ length b = 320 /\
       firstn 17 b = sync_header /\
       map (fun k => nth (16 + 16 * k) b false) (seq 0 19) = repeat true 19 /\
       decode_trau_frame fr0 b = Some (0%Z, fr') /\
       firstn 21 (c_bits fr') = firstn 21 (c_bits fr) /\
       firstn 260 (d_bits fr') = firstn 260 (d_bits fr) /\ t_bits fr' = t_bits fr) /\
  (In (frame_type fr) dat_types ->
     exists b fr', encode_trau_frame buf fr = Some (0%Z, b) /\ length b = 320 /\
       firstn 17 b = sync_header /\ decode_trau_frame fr0 b = Some (0%Z, fr') /\
       firstn 15 (c_bits fr') = firstn 15 (c_bits fr) /\ d_bits fr' = d_bits fr) /\
  (~ In (frame_type fr) (speech_types ++ dat_types) ->
     exists b, encode_trau_frame buf fr = Some ((-1)%Z, b) /\ length b = 320).
Proof.
  intros buf fr0 fr Hb W0 W. split; [|split].
  - intros HI. destruct (old_roundtrip_fr buf fr0 fr Hb W0 W HI) as (b & fr' & H).
    exists b, fr'. tauto.
  - intros HI. destruct (old_roundtrip_data buf fr0 fr Hb W0 W HI) as (b & fr' & H).
    exists b, fr'. tauto.
  - apply old_unsupported; assumption.
Qed.

(** C14, decoder side: total on every 320-bit input, and nothing is stored for
    an unknown type. *)
Theorem C14_legacy_decoder_total : forall buf fr0, length buf = 320 -> dtf_wf fr0 ->
  exists rc fr', decode_trau_frame fr0 buf = Some (rc, fr') /\ dtf_wf fr' /\
    (In (line_type buf) (speech_types ++ dat_types ++ [T_AMR]) -> rc = 0%Z) /\
    (~ In (line_type buf) (speech_types ++ dat_types ++ [T_AMR]) -> rc = (-1)%Z /\ fr' = fr0).
Proof. exact old_decode_total. Qed.

(** C14, where each bit travels.  Speech/idle: 16 zeros, 1, C1..C15, then 17 times
    (1, 15 D bits), then 1, D256..D260, C16..C21, T1..T4; data: 16 zeros, 1,
    C1..C15, D1..D288; AMR (decoder only): C16..C25 in front of the D bits. *)
Theorem C14_legacy_layout : forall buf fr, length buf = 320 -> dtf_wf fr ->
  (In (frame_type fr) speech_types -> encode_trau_frame buf fr = Some (0%Z, speech_line (c_bits fr) (d_bits fr) (t_bits fr))) /\
  (In (frame_type fr) dat_types -> encode_trau_frame buf fr = Some (0%Z, data_line (c_bits fr) (d_bits fr))) /\
  (In (line_type buf) speech_types -> decode_trau_frame fr buf = Some (0%Z, speech_fields fr buf)) /\
  (In (line_type buf) dat_types -> decode_trau_frame fr buf = Some (0%Z, data_fields fr buf)) /\
  (line_type buf = T_AMR -> decode_trau_frame fr buf = Some (0%Z, amr_fields fr buf)).
Proof.
  intros buf fr Hb W. destruct (old_encode_layout_m buf fr Hb W). destruct (old_decode_layout_m fr buf Hb W) as (? & ? & ?).
  auto.
Qed.
Print Assumptions C14_legacy_layout.

Example C14_example : let fr := mkDtf (T_EFR ++ repeat true 20) (repeat true 288) (repeat true 4) (repeat false 6) (repeat false 2) in
  dtf_wf fr /\ In (frame_type fr) speech_types /\
  dtf_wf (mkDtf (T_AMR ++ repeat true 20) (repeat true 288) (repeat true 4) (repeat false 6) (repeat false 2)) /\
  ~ In T_AMR (speech_types ++ dat_types).
Proof. repeat split; cbn; intuition discriminate. Qed.
Print Assumptions C14_legacy_roundtrip.
Print Assumptions C14_legacy_decoder_total.

(** C15. For the uplink types the type code becomes the downlink one (EFR has
    the same code in both directions), speech/idle control bits C6..C11 are 0
    and C12..C21 are 1 (C6..C21 as received for DATA); D, T, S, M bits stay.
    Everything else is refused and left unchanged. *)
Definition downlink_of (t : list bool) : option (list bool) :=
  if list_eq_dec bool_dec t T_FR_UP then Some T_FR_DOWN
  else if list_eq_dec bool_dec t T_EFR then Some T_EFR
  else if list_eq_dec bool_dec t T_IDLE_UP then Some T_IDLE_DOWN
  else if list_eq_dec bool_dec t T_DATA_UP then Some T_DATA_DOWN
  else None.

Theorem C15_legacy_up2down : forall fr, dtf_wf fr ->
  exists rc fr', trau_frame_up2down fr = Some (rc, fr') /\ dtf_wf fr' /\
    d_bits fr' = d_bits fr /\ t_bits fr' = t_bits fr /\ s_bits fr' = s_bits fr /\ m_bits fr' = m_bits fr /\
    match downlink_of (frame_type fr) with
    | Some t => rc = 0%Z /\ frame_type fr' = t /\
        (if list_eq_dec bool_dec (frame_type fr) T_DATA_UP
         then skipn 5 (c_bits fr') = skipn 5 (c_bits fr)
         else firstn 16 (skipn 5 (c_bits fr')) = repeat false 6 ++ repeat true 10 /\
              skipn 21 (c_bits fr') = skipn 21 (c_bits fr))
    | None => (rc < 0)%Z /\ fr' = fr
    end.
Proof.
  intros fr W. pose proof (old_up2down_m fr W) as H.
  destruct (trau_frame_up2down fr) as [[rc fr']|]; [|contradiction].
  exists rc, fr'. split; [reflexivity|]. destruct H as (W' & Hd & Ht & Hs & Hm & H).
  do 5 (split; [assumption|]). unfold frame_type.
  assert (L : length (firstn 5 (c_bits fr)) = 5) by (rewrite firstn_length; destruct W as [-> _]; reflexivity).
  destruct (firstn 5 (c_bits fr)) as [|b0[|b1[|b2[|b3[|b4[|]]]]]]; try discriminate. clear L.
  destruct b0, b1, b2, b3, b4; cbn in H |- *;
  try (destruct H as [Hr Hc]; rewrite Hc; repeat split; assumption || reflexivity);
  (destruct H as [[->| ->] ->]; split; reflexivity).
Qed.
Example C15_example : let fr := mkDtf (T_FR_UP ++ repeat true 20) (repeat true 288) (repeat true 4) (repeat false 6) (repeat false 2) in
  dtf_wf fr /\ downlink_of (frame_type fr) = Some T_FR_DOWN.
Proof. repeat split. Qed.
Print Assumptions C15_legacy_up2down.

(** C16. However often the filler is requested since program start, each
    request returns the same 320-bit downlink idle-speech frame: full
    synchronisation pattern (17-bit header, then a 1 every 16 bits), type
    IDLE-DOWN, C6..C11 zero, C12..C21 and all D and T bits 1. *)
Theorem C16_legacy_idle : forall n, exists st l,
  idle_calls n idle_initial = Some (st, l) /\ length l = n /\
  forall b, In b l ->
    length b = 320 /\ firstn 17 b = sync_header /\
    (forall k, k < 19 -> nth_error b (16 + 16 * k) = Some true) /\
    line_type b = T_IDLE_DOWN /\
    (forall fr0, dtf_wf fr0 -> exists fr, decode_trau_frame fr0 b = Some (0%Z, fr) /\
       frame_type fr = T_IDLE_DOWN /\ firstn 16 (skipn 5 (c_bits fr)) = repeat false 6 ++ repeat true 10 /\ firstn 260 (d_bits fr) = repeat true 260 /\
       t_bits fr = repeat true 4).
Proof.
  intros n. destruct (idle_calls_spec n) as [st E]. exists st, (repeat idle_pattern n).
  split; [exact E|]. split; [apply repeat_length|]. intros b Hb.
  apply repeat_spec in Hb. subst b.
  split; [reflexivity|]. split; [reflexivity|]. split.
  { intros k Hk. do 19 (destruct k as [|k]; [reflexivity|]). lia. }
  split; [reflexivity|]. intros fr0 W.
  revert fr0 W. sym_frame. intros. eexists. split; [vm_compute; reflexivity|].
  repeat split; vm_compute; reflexivity.
Qed.
Example C16_example : exists st, idle_calls 2 idle_initial = Some (st, [idle_pattern; idle_pattern]).
Proof. apply (idle_calls_spec 2). Qed.
Print Assumptions C16_legacy_idle.

(** what a refusal returns: -EINVAL for the four types of downlink frames (O&M is 11011), -1
    for everything else *)
Definition T_OM_DOWN := [true;true;false;true;true].
Theorem C15_refused : forall fr, dtf_wf fr -> downlink_of (frame_type fr) = None ->
  trau_frame_up2down fr = Some ((if in_dec (list_eq_dec bool_dec) (frame_type fr) [T_FR_DOWN; T_IDLE_DOWN; T_OM_DOWN; T_DATA_DOWN] then -22 else -1)%Z, fr).
Proof.
  intros [c d t s m] (Hc & _) H. unfold frame_type in *. cbn [c_bits] in *.
  destruct c as [|b0 [|b1 [|b2 [|b3 [|b4 r]]]]]; try discriminate Hc. cbn [firstn] in *. clear Hc.
  destruct b0, b1, b2, b3, b4; try discriminate H; reflexivity.
Qed.
Example C15_refused_met : downlink_of T_OM_DOWN = None /\ downlink_of T_AMR = None. Proof. now split. Qed.
