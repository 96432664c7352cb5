(** Property C25 (HR speech, TRAU frame <-> RTP payload, 16k and 8k). *)
From Coq Require Import List Arith Lia Bool ZArith.
From Verif Require Import Base RtpSpec RaaModel RaaProofs RaaProps TrauModel RtpModel RtpProofs RtpProps.
Import ListNotations.

(** what the C code expects of libosmocodec's HR functions: resetting a SID
    frame keeps the length, and leaves a frame already recognised as SID alone *)
Definition hr_codec_law (cd : codec) : Prop :=
  (forall p, length p = 112 -> length (osmo_hr_sid_reset cd p) = 112) /\
  (forall p, osmo_hr_check_sid cd p = true -> osmo_hr_sid_reset cd p = p).

Definition hr_out_octets (hdr pl : bits) (out : list Z) : list Z := octets_of_bits (hdr ++ pl) ++ skipn 15 out.
Definition hr_api_of (r : hr_result) (hdr : bits -> bits) (out : list Z) : option (Z * list Z) :=
  match r with
  | HR_none => Some (0%Z, out)
  | HR_hdr ft => Some (1%Z, octets_of_bits (hdr ft) ++ skipn 1 out)
  | HR_full ft pl => Some (15%Z, hr_out_octets (hdr ft) pl out)
  end.
Definition hr_widths_ok (r : hr_result) : Prop :=
  match r with HR_none => True | HR_hdr ft => length ft = 4 | HR_full ft pl => length ft = 4 /\ length pl = 112 end.

Lemma hr16_result_ok cd tw fr : tf_wf fr -> codec_ok cd -> hr_widths_ok (hr16_result cd tw fr).
Proof.
  intros W C. pose proof W as (_ & Hd & _).
  assert (L : length (firstn 112 (tf_d fr)) = 112) by (rewrite firstn_length; lia).
  unfold hr16_result. destruct (negb _ || _), tw; try exact I; try reflexivity;
  destruct (c_ fr 11), (c_ fr 12), (c_ fr 13); cbn [orb hr_widths_ok]; try exact I; try reflexivity; split; try reflexivity; auto.
Qed.
Lemma hr8_result_ok cd tw fr : tf_wf fr -> codec_ok cd -> hr_widths_ok (fst (hr8_result cd tw fr)).
Proof.
  intros W C. pose proof W as (_ & Hd & _).
  assert (L : length (firstn 112 (tf_d fr)) = 112) by (rewrite firstn_length; lia).
  unfold hr8_result. destruct (negb _ || _), tw; try exact I; try reflexivity;
  destruct (x_ fr 0), (x_ fr 1), (x_ fr 2), (x_ fr 3); cbn [fst hr_widths_ok]; try exact I; try reflexivity; split; try reflexivity; auto.
Qed.

Lemma hr_api out r (hdr : bits -> bits) : Forall is_octet out -> 15 <= length out -> hr_widths_ok r ->
  (forall ft, length ft = 4 -> length (hdr ft) = 8) ->
  (do (rc, o) <- match r with
     | HR_none => Some (0%Z, bits_of_octets out)
     | HR_hdr ft => Some (1%Z, hdr ft ++ skipn 8 (bits_of_octets out))
     | HR_full ft pl => Some (15%Z, hdr ft ++ pl ++ skipn 120 (bits_of_octets out))
     end; Some (rc, octets_of_bits o)) = hr_api_of r hdr out.
Proof.
  intros F L R H. destruct r as [|ft|ft pl]; cbn [hr_api_of hr_widths_ok] in *.
  - now rewrite octets_of_bits_of.
  - change 8 with (8 * 1). rewrite oob_out; [reflexivity|now apply H|exact F].
  - destruct R as [R1 R2]. change 120 with (8 * 15). rewrite app_assoc, oob_out; [reflexivity| |exact F].
    rewrite app_length, H, R2 by assumption. reflexivity.
Qed.
Lemma hr16_api cd out out_len fr st : tf_wf fr -> codec_ok cd -> tf_type fr = T16_HR -> buffer out out_len 15 ->
  osmo_trau2rtp cd out out_len fr st =
  hr_api_of (hr16_result cd (st_twts002 st) fr) (fun ft => hr16_hdr ft (st_twts002 st) fr) out.
Proof.
  intros W C T (F & H1 & H2). unfold osmo_trau2rtp, trau2rtp_bits, trau2rtp_hr16. rewrite T.
  destruct (Nat.ltb_spec out_len 15); [lia|]. rewrite hr16_body by (try assumption; rewrite boo_length; lia).
  rewrite <- hr_api; [destruct (hr16_result _ _ _); reflexivity|exact F|lia|now apply hr16_result_ok|].
  intros ft Hf. unfold hr16_hdr. rewrite app_length, Hf. destruct (st_twts002 st); reflexivity.
Qed.
Lemma hr8_api cd out out_len fr st : tf_wf fr -> codec_ok cd -> tf_type fr = T8_SPEECH -> buffer out out_len 15 ->
  osmo_trau2rtp cd out out_len fr st =
  hr_api_of (fst (hr8_result cd (st_twts002 st) fr)) (fun ft => hr8_hdr ft (snd (hr8_result cd (st_twts002 st) fr)) (st_twts002 st) fr) out.
Proof.
  intros W C T (F & H1 & H2). unfold osmo_trau2rtp, trau2rtp_bits, trau2rtp_hr8. rewrite T.
  destruct (Nat.ltb_spec out_len 15); [lia|]. rewrite hr8_body by (try assumption; rewrite boo_length; lia).
  rewrite <- hr_api; [destruct (hr8_result _ _ _) as [[| |] ?]; reflexivity|exact F|lia|now apply hr8_result_ok|].
  intros ft Hf. unfold hr8_hdr. rewrite app_length, Hf. destruct (st_twts002 st); reflexivity.
Qed.

(** the frame rtp2trau makes *)
Definition hr16_frame (cd : codec) (fr : tframe) (data : bits) : tframe :=
  mkTf T16_HR (tf_dir fr) (tf_ta fr) (hr16_c cd fr data) (hr_payload data ++ skipn 112 (tf_d fr))
     (repeat true 4) (tf_s fr) (tf_m fr) (match tf_dir fr with UL => false | DL => true end)
     (crc3_bits (firstn 44 (hr_payload data))) (tf_xc fr).
Definition hr8_frame (cd : codec) (fr : tframe) (data : bits) : tframe :=
  mkTf T8_SPEECH (tf_dir fr) (tf_ta fr) ([false;false;false;true;false;true;true;true;true] ++ skipn 9 (tf_c fr))
     (hr_payload data ++ skipn 112 (tf_d fr))
     ([true;true] ++ skipn 2 (tf_t fr)) (tf_s fr) (tf_m fr) (tf_ufi fr)
     (crc3_bits (firstn 44 (hr_payload data)))
     (if osmo_hr_check_sid cd data then [false; false; false; true; false; false] else [false; false; false; false; false; true]).
Lemma hr_payload_length data : length data = 112 \/ length data = 0 -> length (hr_payload data) = 112.
Proof. intros [L|L]; unfold hr_payload; rewrite L; [exact L|reflexivity]. Qed.
Lemma hr16_frame_wf cd fr data : tf_wf fr -> length data = 112 \/ length data = 0 -> tf_wf (hr16_frame cd fr data).
Proof.
  intros W L. pose proof W as (Hc & Hd & Ht & Hs & Hm & Hcr & Hx). unfold tf_wf, hr16_frame.
  cbn [tf_c tf_d tf_t tf_s tf_m tf_crc tf_xc].
  assert (A : length (hr16_c cd fr data) = 25)
    by (unfold hr16_c; rewrite !app_length, skipn_length, Hc; destruct (tf_dir fr); reflexivity).
  assert (B : length (hr_payload data ++ skipn 112 (tf_d fr)) = 288) by (rewrite app_length, skipn_length, hr_payload_length by assumption; lia).
  repeat split; assumption.
Qed.
Lemma hr8_frame_wf cd fr data : tf_wf fr -> length data = 112 \/ length data = 0 -> tf_wf (hr8_frame cd fr data).
Proof.
  intros W L. pose proof W as (Hc & Hd & Ht & Hs & Hm & Hcr & Hx). unfold tf_wf, hr8_frame.
  cbn [tf_c tf_d tf_t tf_s tf_m tf_crc tf_xc].
  assert (B : length (hr_payload data ++ skipn 112 (tf_d fr)) = 288) by (rewrite app_length, skipn_length, hr_payload_length by assumption; lia).
  repeat split; try assumption.
  - rewrite app_length, skipn_length, Hc. reflexivity.
  - rewrite app_length, skipn_length, Ht. reflexivity.
  - destruct (osmo_hr_check_sid cd data); reflexivity.
Qed.
Lemma hr_input_spec rtp : hr_input (bits_of_octets rtp) =
  if length rtp =? 14 then Some (bits_of_octets rtp)
  else if length rtp =? 15 then Some (bits_of_octets (skipn 1 rtp))
  else if length rtp =? 0 then Some [] else None.
Proof.
  unfold hr_input. rewrite boo_length.
  destruct (Nat.eqb_spec (length rtp) 14) as [->|N1]; [reflexivity|].
  destruct (Nat.eqb_spec (8 * length rtp) (8 * 14)); [lia|].
  destruct (Nat.eqb_spec (length rtp) 15) as [->|N2].
  - change (8 * 15 =? 8 * 15) with true. cbv beta iota. change 8 with (8 * 1). now rewrite boo_skipn.
  - destruct (Nat.eqb_spec (8 * length rtp) (8 * 15)); [lia|].
    destruct (Nat.eqb_spec (length rtp) 0) as [E|E].
    + destruct rtp; [reflexivity|discriminate].
    + destruct (Nat.eqb_spec (8 * length rtp) 0); [lia|reflexivity].
Qed.
Lemma hr16_rtp_api cd fr rtp st data : tf_wf fr -> st_type st = T16_HR ->
  hr_input (bits_of_octets rtp) = Some data -> length data = 112 \/ length data = 0 ->
  osmo_rtp2trau cd fr rtp st = Some (0%Z, hr16_frame cd fr data).
Proof.
  intros W T E L. unfold osmo_rtp2trau, rtp2trau_hr16. rewrite T, E, hr16_rtp by assumption. reflexivity.
Qed.
Lemma hr8_rtp_api cd fr rtp st data : tf_wf fr -> st_type st = T8_SPEECH -> tf_dir fr = DL ->
  hr_input (bits_of_octets rtp) = Some data -> length data = 112 \/ length data = 0 ->
  osmo_rtp2trau cd fr rtp st = Some (0%Z, hr8_frame cd fr data).
Proof.
  intros W T D E L. unfold osmo_rtp2trau, rtp2trau_hr8. rewrite T, E, D, hr8_rtp by assumption. reflexivity.
Qed.
Lemma hr_input_pre pre rtp : length pre <= 1 -> length rtp = 14 ->
  hr_input (bits_of_octets (pre ++ rtp)) = Some (bits_of_octets rtp).
Proof.
  intros H L. rewrite hr_input_spec. destruct pre as [|x [|]]; cbn [app length] in *; [|  |lia].
  - rewrite L. reflexivity.
  - rewrite L. reflexivity.
Qed.
(** C25, 16k: [pre] is the optional RFC 5993 header octet of the input, which
    the code ignores; [t] the table-of-contents octet of the output *)
Theorem C25_hr16_rtp_roundtrip : forall cd fr st pre rtp out out_len,
  hr_codec_law cd -> tf_wf fr -> tf_dir fr = UL -> st_type st = T16_HR ->
  length pre <= 1 -> Forall is_octet rtp -> length rtp = 14 -> buffer out out_len 15 ->
  exists fr' t, osmo_rtp2trau cd fr (pre ++ rtp) st = Some (0%Z, fr') /\ tf_wf fr' /\ tf_type fr' = T16_HR /\
    osmo_trau2rtp cd out out_len fr' st = Some (15%Z, t :: rtp ++ skipn 15 out) /\
    (t / 16 = if osmo_hr_check_sid cd (bits_of_octets rtp) then 2 else 0)%Z /\
    (t mod 16 = if st_twts002 st && nth 14 (tf_c fr) false then 1 else 0)%Z.
Proof.
  intros cd fr st pre rtp out out_len (C1 & C2) W D T Hp F L B.
  set (data := bits_of_octets rtp).
  assert (LD : length data = 112) by (unfold data; rewrite boo_length, L; reflexivity).
  set (fr' := hr16_frame cd fr data).
  assert (W' : tf_wf fr') by (apply hr16_frame_wf; auto).
  set (ft := if osmo_hr_check_sid cd data then FT_GOOD_SID else FT_GOOD_SPEECH).
  set (hdr := hr16_hdr ft (st_twts002 st) fr').
  assert (R : hr16_result cd (st_twts002 st) fr' = HR_full ft data).
  { unfold hr16_result. assert (K : hr_crc_ok fr' = true).
    { unfold hr_crc_ok, fr', hr16_frame. cbn [tf_d tf_crc]. unfold hr_payload. rewrite LD. cbn [Nat.eqb].
      rewrite firstn44_app by assumption. apply crc3_check_refl. }
    rewrite K. unfold c_, fr', hr16_frame. cbn [tf_c tf_d]. unfold hr16_c, hr_payload. rewrite D, LD. cbn [Nat.eqb app nth repeat negb orb andb].
    rewrite firstn_app_exact by assumption. unfold ft.
    destruct (osmo_hr_check_sid cd data) eqn:S, (st_twts002 st); cbn [andb orb]; try reflexivity. now rewrite C2. }
  exists fr', (octet_of_bits hdr).
  split; [apply hr16_rtp_api; auto; now apply hr_input_pre|]. split; [exact W'|]. split; [reflexivity|].
  split; [|unfold hdr, hr16_hdr, ft, fr', hr16_frame, hr16_c; cbn [tf_c tf_ufi]; rewrite D; cbn [nth app repeat];
    fold data; destruct (osmo_hr_check_sid cd data), (st_twts002 st), (nth 14 (tf_c fr) false); split; reflexivity].
  rewrite hr16_api; [|exact W'|exact C1|reflexivity|exact B]. rewrite R. cbn [hr_api_of]. unfold hr_out_octets. fold hdr.
  rewrite (oob_app 1) by (unfold hdr, hr16_hdr, ft; destruct (osmo_hr_check_sid cd data), (st_twts002 st); reflexivity).
  unfold data. rewrite octets_of_bits_of by assumption. rewrite <- app_assoc.
  unfold hdr, hr16_hdr, ft. destruct (osmo_hr_check_sid cd data), (st_twts002 st); reflexivity.
Qed.

(** 8k: the code makes downlink frames only *)
Theorem C25_hr8_rtp_roundtrip : forall cd fr st pre rtp out out_len,
  hr_codec_law cd -> tf_wf fr -> tf_dir fr = DL -> st_type st = T8_SPEECH ->
  length pre <= 1 -> Forall is_octet rtp -> length rtp = 14 -> buffer out out_len 15 ->
  exists fr' t, osmo_rtp2trau cd fr (pre ++ rtp) st = Some (0%Z, fr') /\ tf_wf fr' /\ tf_type fr' = T8_SPEECH /\
    osmo_trau2rtp cd out out_len fr' st = Some (15%Z, t :: rtp ++ skipn 15 out) /\
    (t / 16 = if osmo_hr_check_sid cd (bits_of_octets rtp) then 2 else 0)%Z /\
    (t mod 16 = if st_twts002 st then 8 else 0)%Z.
Proof.
  intros cd fr st pre rtp out out_len (C1 & C2) W D T Hp F L B.
  set (data := bits_of_octets rtp).
  assert (LD : length data = 112) by (unfold data; rewrite boo_length, L; reflexivity).
  set (fr' := hr8_frame cd fr data).
  assert (W' : tf_wf fr') by (apply hr8_frame_wf; auto).
  set (ft := if osmo_hr_check_sid cd data then FT_GOOD_SID else FT_GOOD_SPEECH).
  set (hdr := hr8_hdr ft false (st_twts002 st) fr').
  assert (R : hr8_result cd (st_twts002 st) fr' = (HR_full ft data, false)).
  { unfold hr8_result. assert (K : hr_crc_ok fr' = true).
    { unfold hr_crc_ok, fr', hr8_frame. cbn [tf_d tf_crc]. unfold hr_payload. rewrite LD. cbn [Nat.eqb].
      rewrite firstn44_app by assumption. apply crc3_check_refl. }
    rewrite K. unfold hr8_par_ok, x_, fr', hr8_frame. cbn [tf_xc tf_d]. unfold hr_payload. rewrite LD. cbn [Nat.eqb].
    rewrite firstn_app_exact by assumption. unfold ft.
    destruct (osmo_hr_check_sid cd data) eqn:S, (st_twts002 st); cbn [nth fold_left xorb negb orb]; try reflexivity. now rewrite C2. }
  exists fr', (octet_of_bits hdr).
  split; [apply hr8_rtp_api; auto; now apply hr_input_pre|]. split; [exact W'|]. split; [reflexivity|].
  split; [|unfold hdr, hr8_hdr, ft, fr', hr8_frame; cbn [tf_c tf_xc]; cbn [nth app repeat];
    fold data; destruct (osmo_hr_check_sid cd data), (st_twts002 st); split; reflexivity].
  rewrite hr8_api; [|exact W'|exact C1|reflexivity|exact B]. rewrite R. cbn [hr_api_of fst snd]. unfold hr_out_octets. fold hdr.
  rewrite (oob_app 1) by (unfold hdr, hr8_hdr, ft; destruct (osmo_hr_check_sid cd data), (st_twts002 st); reflexivity).
  unfold data. rewrite octets_of_bits_of by assumption. rewrite <- app_assoc.
  unfold hdr, hr8_hdr, ft. destruct (osmo_hr_check_sid cd data), (st_twts002 st); reflexivity.
Qed.
Theorem C25_hr8_uplink_refused : forall cd fr st pre rtp,
  tf_dir fr = UL -> st_type st = T8_SPEECH -> length pre <= 1 -> length rtp = 14 ->
  osmo_rtp2trau cd fr (pre ++ rtp) st = Some (ENOTSUP, fr).
Proof.
  intros cd fr st pre rtp D T Hp L. unfold osmo_rtp2trau, rtp2trau_hr8. rewrite T, hr_input_pre by assumption.
  now rewrite D.
Qed.

(** an empty payload (no frame received) is a bad frame on TRAU, and comes
    back as an empty payload *)
Theorem C25_hr16_empty : forall cd fr st out out_len,
  codec_ok cd -> tf_wf fr -> tf_dir fr = UL -> st_type st = T16_HR -> st_twts002 st = false -> buffer out out_len 15 ->
  exists fr', osmo_rtp2trau cd fr [] st = Some (0%Z, fr') /\ nth 11 (tf_c fr') false = true /\
    osmo_trau2rtp cd out out_len fr' st = Some (0%Z, out).
Proof.
  intros cd fr st out out_len C W D T S B. exists (hr16_frame cd fr []).
  split; [apply hr16_rtp_api; auto|].
  assert (K : nth 11 (tf_c (hr16_frame cd fr [])) false = true) by (unfold hr16_frame, hr16_c; cbn [tf_c]; rewrite D; reflexivity).
  split; [exact K|]. rewrite hr16_api; [|apply hr16_frame_wf; auto|exact C|reflexivity|exact B].
  unfold hr16_result. rewrite S. unfold c_. rewrite K. cbn [orb]. destruct (negb _ || _); reflexivity.
Qed.

(** TRAU -> RTP -> TRAU: a good speech frame (CRC right, BFI and SID bits 0) *)
Theorem C25_hr16_trau_roundtrip : forall cd fr st out out_len fr0,
  codec_ok cd -> tf_wf fr -> tf_type fr = T16_HR -> tf_crc fr = crc3_bits (firstn 44 (tf_d fr)) ->
  nth 11 (tf_c fr) false = false -> nth 12 (tf_c fr) false = false -> nth 13 (tf_c fr) false = false ->
  st_type st = T16_HR -> buffer out out_len 15 -> tf_wf fr0 -> tf_dir fr0 = UL ->
  exists t rtp fr', osmo_trau2rtp cd out out_len fr st = Some (15%Z, t :: rtp ++ skipn 15 out) /\
    length rtp = 14 /\ bits_of_octets rtp = firstn 112 (tf_d fr) /\ (t / 16 = 0)%Z /\
    osmo_rtp2trau cd fr0 (t :: rtp) st = Some (0%Z, fr') /\ tf_type fr' = T16_HR /\
    firstn 112 (tf_d fr') = firstn 112 (tf_d fr) /\ tf_crc fr' = tf_crc fr /\ nth 11 (tf_c fr') false = false.
Proof.
  intros cd fr st out out_len fr0 C W T CR C11 C12 C13 T' B W0 D0. pose proof W as (_ & Hd & _).
  set (pl := firstn 112 (tf_d fr)). assert (LP : length pl = 112) by (unfold pl; rewrite firstn_length; lia).
  set (hdr := hr16_hdr FT_GOOD_SPEECH (st_twts002 st) fr).
  assert (EB : bits_of_octets (octets_of_bits pl) = pl) by (apply (bits_of_octets_of 14); exact LP).
  exists (octet_of_bits hdr), (octets_of_bits pl), (hr16_frame cd fr0 pl).
  split.
  { rewrite hr16_api by assumption. assert (R : hr16_result cd (st_twts002 st) fr = HR_full FT_GOOD_SPEECH pl).
    { unfold hr16_result, hr_crc_ok, c_. rewrite CR, crc3_check_refl, C11, C12, C13. cbn [negb andb orb]. now destruct (st_twts002 st). }
    rewrite R. cbn [hr_api_of]. unfold hr_out_octets. fold hdr. rewrite (oob_app 1) by (unfold hdr, hr16_hdr; destruct (st_twts002 st); reflexivity).
    rewrite <- app_assoc. unfold hdr, hr16_hdr. destruct (st_twts002 st); reflexivity. }
  split; [now apply oob_length|]. split; [exact EB|].
  split; [unfold hdr, hr16_hdr; destruct (st_twts002 st), (nth 16 (tf_c fr) false), (tf_ufi fr), (nth 14 (tf_c fr) false); reflexivity|].
  split.
  { apply hr16_rtp_api; auto. change (octet_of_bits hdr :: octets_of_bits pl) with ([octet_of_bits hdr] ++ octets_of_bits pl).
    rewrite hr_input_pre; [now rewrite EB|cbn; lia|now apply oob_length]. }
  split; [reflexivity|]. unfold hr16_frame, hr_payload, hr16_c. cbn [tf_d tf_crc tf_c]. rewrite LP, D0. cbn [Nat.eqb].
  split; [now apply firstn_app_exact|]. split; [|reflexivity].
  rewrite CR. unfold pl. rewrite firstn_firstn. reflexivity.
Qed.

(** single bit errors in the 44 protected D bits or in the CRC of a good frame
    are detected: no payload is delivered *)
Theorem C25_single_error_detected : forall cd fr st out out_len p,
  codec_ok cd -> tf_wf fr -> tf_crc fr = crc3_bits (firstn 44 (tf_d fr)) -> p < 44 ->
  tf_type fr = T16_HR \/ tf_type fr = T8_SPEECH -> buffer out out_len 15 ->
  let bad := set_d fr (flip (tf_d fr) p) in
  if st_twts002 st
  then exists t, osmo_trau2rtp cd out out_len bad st = Some (1%Z, t :: skipn 1 out) /\ (t / 16 = 7)%Z
  else osmo_trau2rtp cd out out_len bad st = Some (0%Z, out).
Proof.
  intros cd fr st out out_len p C W CR Hp T B bad. pose proof W as (_ & Hd & _ & _ & _ & Hcr & _).
  assert (Wb : tf_wf bad) by (apply set_d_wf; [exact W|rewrite flip_length; lia]).
  assert (K : hr_crc_ok bad = false).
  { destruct (hr_crc_ok bad) eqn:K; [|reflexivity]. exfalso. unfold hr_crc_ok, bad in K. cbn [set_d tf_d tf_crc] in K.
    apply crc3_check_eq in K; [|exact Hcr]. rewrite CR in K. apply crc3_bits_inj in K. revert K.
    assert (N : nth_error (tf_d fr) p = Some (nth p (tf_d fr) false)) by (apply nth_error_nth'; lia).
    destruct (nth_error_split _ _ N) as (a & b & E & La).
    replace (flip (tf_d fr) p) with (a ++ negb (nth p (tf_d fr) false) :: b).
    - rewrite E at 1. rewrite !firstn_app, La. rewrite !firstn_all2 by lia.
      destruct (44 - p) eqn:Q; [lia|]. cbn [firstn]. apply crc3_flip.
    - unfold flip, splice. cbn [length]. set (x := negb _). clearbody x. rewrite E. rewrite <- La.
      rewrite firstn_app_exact by reflexivity. f_equal. cbn [app]. f_equal.
      rewrite skipn_app, skipn_all2 by lia. replace (length a + 1 - length a) with 1 by lia. reflexivity. }
  destruct T as [T|T].
  - rewrite hr16_api; [|exact Wb|exact C|exact T|exact B]. unfold hr16_result. rewrite K. cbn [negb orb].
    destruct (st_twts002 st); [|reflexivity]. eexists. split; [reflexivity|].
    unfold hr16_hdr. destruct (nth 16 (tf_c bad) false), (tf_ufi bad), (nth 14 (tf_c bad) false); reflexivity.
  - rewrite hr8_api; [|exact Wb|exact C|exact T|exact B]. unfold hr8_result. rewrite K. cbn [negb]. rewrite orb_true_r.
    destruct (st_twts002 st); [|reflexivity]. eexists. split; [reflexivity|].
    unfold hr8_hdr. cbn [snd]. destruct (nth 8 (tf_c bad) false), (nth 4 (tf_xc bad) false); reflexivity.
Qed.

Definition ex_codec : codec :=
  mkCodec (fun _ => false) (fun _ => SID_SPEECH) (fun _ => false) (fun _ => false) (fun _ => SID_SPEECH) (fun _ => false)
    (fun p => (length p =? 112) && forallb (fun b => b) (skipn 33 p)) (fun p => firstn 33 p ++ repeat true 79).
Example C25_example : hr_codec_law ex_codec /\ codec_ok ex_codec /\ tf_wf (ex_tf T16_HR UL) /\ buffer (repeat 0%Z 20) 15 15 /\
  Forall is_octet (repeat 0xA5%Z 14) /\ osmo_hr_check_sid ex_codec (bits_of_octets (repeat 0xA5%Z 14)) = false /\
  osmo_hr_check_sid ex_codec (bits_of_octets (repeat 0xff%Z 14)) = true.
Proof.
  assert (K : forall p, length p = 112 -> length (firstn 33 p ++ repeat true 79) = 112)
    by (intros p L; rewrite app_length, firstn_length, repeat_length; lia).
  split; [split; [exact K|]|].
  - intros p H. cbn [ex_codec osmo_hr_check_sid osmo_hr_sid_reset] in *. rewrite andb_true_iff in H. destruct H as [L H].
    apply Nat.eqb_eq in L. rewrite <- (firstn_skipn 33 p) at 2. f_equal.
    assert (LS : length (skipn 33 p) = 79) by (rewrite skipn_length; lia).
    rewrite forallb_forall in H. rewrite <- LS. clear -H. induction (skipn 33 p) as [|b l IH]; [reflexivity|].
    cbn [length repeat]. rewrite (H b) by now left. f_equal. apply IH. intros x Hx. apply H. now right.
  - split; [exact K|]. split; [repeat split|]. split; [split; [octs|cbn; lia]|]. split; [octs|]. split; reflexivity.
Qed.
Print Assumptions C25_hr16_rtp_roundtrip.
Print Assumptions C25_hr8_rtp_roundtrip.
Print Assumptions C25_hr16_trau_roundtrip.
Print Assumptions C25_single_error_detected.
