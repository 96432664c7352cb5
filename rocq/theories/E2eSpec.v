(** A call over the Abis, end to end: payloads of RTP packets are made TRAU frames
    (osmo_rtp2trau), the frames bits (osmo_trau_frame_encode), the bits are received in any
    pieces, cut into frames by the synchroniser (osmo_trau_sync_rx_ubits), the frames decoded
    (osmo_trau_frame_decode_16k / _8k) and made payloads again (osmo_trau2rtp).  Only what an
    application does between those API calls is written here. *)
From Coq Require Import List Arith Bool ZArith.
From Verif Require Import Base RtpSpec TrauModel TrauFields RtpModel SyncModel RtpProps RtpHrProps RtpCsdProps.
Import ListNotations.

(** one packet to send: the frame struct and the line buffer the application uses, the payload *)
Definition packet : Type := tframe * bits * list Z.
Definition payload (x : packet) : list Z := snd x.
(** sending it: the bits for the line (and the encoder's static state) *)
Definition tx (cd : codec) (st : rtp_state) (es : idle_state) (x : packet) : option (idle_state * bits) :=
  let '(fr, b, rtp) := x in
  do (rc, fr) <- osmo_rtp2trau cd fr rtp st;
  if Z.eqb rc 0 then
    do r <- osmo_trau_frame_encode es b (length b) fr;
    if Z.ltb 0 (fst (snd r)) then Some (fst r, firstn (Z.to_nat (fst (snd r))) (snd (snd r))) else None
  else None.
Fixpoint tx_all (cd : codec) (st : rtp_state) (es : idle_state) (xs : list packet) : option (list bits) :=
  match xs with
  | [] => Some []
  | x :: r => do (es, f) <- tx cd st es x; do fs <- tx_all cd st es r; Some (f :: fs)
  end.
Definition on8 (t : ftype) : bool := match t with T8_SPEECH | T8_DATA => true | _ => false end.
(** receiving the frame [f]: into the struct [fr0] and the payload buffer [out] *)
Definition rx (cd : codec) (st : rtp_state) (dir : fdir) (fr0 : tframe) (out : list Z) (f : bits) : option (list Z) :=
  do (rc, fr) <- (if on8 (st_type st) then osmo_trau_frame_decode_8k fr0 f dir else osmo_trau_frame_decode_16k fr0 f dir);
  if Z.eqb rc 0 then
    do (n, out) <- osmo_trau2rtp cd out (length out) fr st;
    if Z.ltb n 0 then None else Some (firstn (Z.to_nat n) out)
  else None.
(** the synchroniser's pattern for the type of a call *)
Definition pattern_of (st : rtp_state) : pat_id := if on8 (st_type st) then PAT_8_HR else PAT_16_FR_EFR.

(** what the application has to provide: a struct of the direction of the call (no timing
    alignment asked for in the downlink), a line buffer for the largest frame *)
Definition ready (dir : fdir) (x : packet) : Prop :=
  let '(fr, b, _) := x in tf_wf fr /\ tf_dir fr = dir /\ ta_ok fr /\ (dir = DL -> tf_ta fr = 0%Z) /\ 639 <= length b.
(** what the C code expects of libosmocodec *)
Definition codec_laws (cd : codec) : Prop :=
  (forall p, osmo_fr_is_any_sid cd p = true -> osmo_fr_sid_classify cd p <> SID_SPEECH) /\
  (forall p, osmo_efr_is_any_sid cd p = true -> osmo_efr_sid_classify cd p <> SID_SPEECH) /\
  hr_codec_law cd.
(** speech payloads: length and signature (RFC 3551) *)
Definition speech (st : rtp_state) (rtp : list Z) : Prop :=
  Forall is_octet rtp /\ (st_type st = T16_FR /\ length rtp = 33 /\ hi rtp = 13%Z \/ st_type st = T16_EFR /\ length rtp = 31 /\ hi rtp = 12%Z).
(** [arrives cd st dir p q]: in a call of the kind [st], in direction [dir], the payload [p] is one
    to be sent and [q] is what it has to be on the other side *)
Inductive arrives (cd : codec) (st : rtp_state) : fdir -> list Z -> list Z -> Prop :=
| ar_speech rtp : st_twts001 st = false -> speech st rtp -> arrives cd st UL rtp rtp
| ar_speech_ext h rtp : st_twts001 st = true -> speech st rtp -> is_octet h -> (h / 16 = 14)%Z -> Z.testbit h 2 = false -> arrives cd st UL (h :: rtp) (h :: rtp)
| ar_nothing : st_twts001 st = false -> st_type st = T16_FR \/ st_type st = T16_EFR -> arrives cd st UL [] []
| ar_hr16 pre rtp t : st_type st = T16_HR -> length pre <= 1 -> Forall is_octet rtp -> length rtp = 14 ->
    (t / 16 = if osmo_hr_check_sid cd (bits_of_octets rtp) then 2 else 0)%Z -> arrives cd st UL (pre ++ rtp) (t :: rtp)
| ar_hr16_nothing : st_type st = T16_HR -> st_twts002 st = false -> arrives cd st UL [] []
| ar_hr8 pre rtp t : st_type st = T8_SPEECH -> length pre <= 1 -> Forall is_octet rtp -> length rtp = 14 ->
    (t / 16 = if osmo_hr_check_sid cd (bits_of_octets rtp) then 2 else 0)%Z -> arrives cd st DL (pre ++ rtp) (t :: rtp)
| ar_data dir rtp : st_type st = T16_DATA \/ st_type st = T16_DATA_HR \/ st_type st = T8_DATA -> v110_rtp st rtp -> ra2_filled st rtp -> arrives cd st dir rtp rtp.
