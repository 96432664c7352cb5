(** Properties C01-C04 (RA2 and RAA' rate adaption). *)
From Coq Require Import List Arith Lia Bool ZArith.
From Verif Require Import Base Spec RaaModel RaaProofs.
Import ListNotations.

(** C01 *)
Theorem C01_ra2_lossless :
  (forall b, ra2_8k_unpack (ra2_8k_pack b) = b /\
     length (ra2_8k_pack b) = length b /\
     Forall (fun o => (0 <= o <= 255)%Z /\ Z.land o 127 = 127%Z) (ra2_8k_pack b)) /\
  (forall n b, length b = 2 * n -> exists r,
     ra2_16k_pack n b = Some r /\ ra2_16k_unpack r = b /\ length r = n /\
     Forall (fun o => (0 <= o <= 255)%Z /\ Z.land o 63 = 63%Z) r).
Proof.
  split.
  - intros b. split; [apply ra2_8k_roundtrip|]. split; [apply map_length|apply ra2_8k_fill].
  - intros n b H. destruct (ra2_16k_some n b H) as [r E]. exists r.
    repeat split; eauto using ra2_16k_roundtrip, ra2_16k_pack_length, ra2_16k_fill.
Qed.
Example C01_example : ra2_8k_pack [true; false] = [255%Z; 127%Z] /\
  ra2_16k_pack 2 [true; false; false; true] = Some [191%Z; 127%Z].
Proof. split; reflexivity. Qed.
Print Assumptions C01_ra2_lossless.

(** C02. [out] is the caller's 320-bit buffer with arbitrary previous contents,
    [d0] the caller's output buffer of the decoder. *)
Theorem C02_atrau_roundtrip : forall out m0 m1 d c4 c5 d0,
  length out = 320 -> length d = 288 -> length d0 = 288 ->
  exists f, to_atrau_bits out [m0; m1] d c4 c5 = Some f /\ length f = 320 /\
    from_atrau_bits d0 f = Some (inr (m0, m1, d, c4, c5)).
Proof.
  intros. exists (frame m0 m1 d c4 c5). split; [now apply to_atrau_ok|].
  split; [now apply frame_length|now apply atrau_roundtrip].
Qed.

Theorem C02_atrau_ra2_roundtrip : forall out m0 m1 d c4 c5 d0,
  length out = 320 -> length d = 288 -> length d0 = 288 ->
  exists o, to_atrau_ra2 out [m0; m1] d c4 c5 = Some o /\ length o = 160 /\
    from_atrau_ra2 d0 o = Some (inr (m0, m1, d, c4, c5)).
Proof.
  intros out m0 m1 d c4 c5 d0 Ho Hd Hd0.
  unfold to_atrau_ra2, from_atrau_ra2. rewrite to_atrau_ok by assumption.
  pose proof (frame_length m0 m1 d c4 c5 Hd) as L.
  destruct (ra2_16k_some 160 (frame m0 m1 d c4 c5)) as [r E]; [rewrite L; reflexivity|].
  exists r. split; [exact E|]. split; [eapply ra2_16k_pack_length; eassumption|].
  rewrite (ra2_16k_roundtrip 160 _ _ L E). now apply atrau_roundtrip.
Qed.

(** a payload with zero sequences: the all-zero one needs four ZSPs per sub-frame *)
Example C02_example : length (repeat false 288) = 288 /\
  option_map (fun f => firstn 37 (skipn 24 f))
    (to_atrau_bits (repeat true 320) [true; false] (repeat false 288) true true)
  = Some (map (fun n => n =? 1)
     [0; 1;0;0;0;0;0;1;1; 1;0;0;1;0;0;1;1; 1;0;1;0;0;0;1;1; 1;1;1;1;0;0;1;1; 0;0;0;0]).
Proof. split; vm_compute; reflexivity. Qed.
Print Assumptions C02_atrau_roundtrip.
Print Assumptions C02_atrau_ra2_roundtrip.

(** C03. A frame is anything the encoder can output. *)
Definition is_atrau_frame (f : bits) : Prop := exists out m d c4 c5,
  length out = 320 /\ length m = 2 /\ length d = 288 /\ to_atrau_bits out m d c4 c5 = Some f.

Theorem C03_atrau_no_sync_emulation : forall fs, Forall is_atrau_frame fs -> forall k,
  sync_at (concat fs) k <-> exists j, j < length fs /\ k = 320 * j.
Proof.
  intros fs HF.
  assert (P : exists ps, Forall valid_payload ps /\ fs = map mkframe ps).
  { induction HF as [|f fs (out & m & d & c4 & c5 & Ho & Hm & Hd & E) HF IH].
    - exists []. split; [constructor|reflexivity].
    - destruct IH as (ps & V & ->).
      destruct (is_frame_payload out m d c4 c5 f Ho Hm Hd E) as (p & Vp & ->).
      exists (p :: ps). split; [now constructor|reflexivity]. }
  destruct P as (ps & V & ->). rewrite map_length. intros k. split.
  - intros H. destruct (no_emulation ps k V H) as (j & E & L). now exists j.
  - intros (j & L & ->). now apply stream_sync.
Qed.
Example C03_example : is_atrau_frame
  (match to_atrau_bits (repeat true 320) [false; false] (repeat false 288) false false with
   | Some f => f | None => [] end).
Proof. exists (repeat true 320), [false; false], (repeat false 288), false, false.
  repeat split; vm_compute; reflexivity. Qed.
Print Assumptions C03_atrau_no_sync_emulation.

(** C04. [from_atrau_bits d a = None] would be an out-of-bounds access or a
    failed assertion. *)
Theorem C04_atrau_decoder_total : forall a d, length a = 320 -> length d = 288 ->
  from_atrau_bits d a = Some (inl EINVAL) \/
  exists m0 m1 d' c4 c5, from_atrau_bits d a = Some (inr (m0, m1, d', c4, c5)) /\
    length d' = 288 /\
    firstn 24 a = repeat false 16 ++ [true; false; true; true] ++ [c4; c5; m0; m1].
Proof.
  intros a d Ha Hd. destruct (from_atrau_total a d Ha Hd) as (r & E & Hrc & Hr).
  destruct r as [rc|((((m0, m1), d'), c4), c5)].
  - left. now rewrite E, (Hrc rc eq_refl).
  - right. destruct (Hr m0 m1 d' c4 c5 eq_refl) as [L H]. exists m0, m1, d', c4, c5.
    split; [exact E|]. split; [exact L|]. rewrite H. unfold atrau_header. now rewrite <- app_assoc.
Qed.
(** both outcomes occur; the second input has a good header and a bad ZSP *)
Example C04_example :
  from_atrau_bits (repeat true 288) (repeat true 320) = Some (inl EINVAL) /\
  from_atrau_bits (repeat true 288) (repeat false 16 ++ [true; false; true; true] ++ repeat false 300) = Some (inl EINVAL) /\
  from_atrau_bits (repeat false 288) (repeat false 16 ++ [true; false; true; true] ++ repeat true 300)
    = Some (inr (true, true, repeat true 288, true, true)).
Proof. repeat split; vm_compute; reflexivity. Qed.
Print Assumptions C04_atrau_decoder_total.
