(** Property C27 (buffer sizes and payload lengths of the RTP conversions). *)
From Coq Require Import List Arith Lia Bool ZArith.
From Verif Require Import Base RtpSpec RaaModel RaaProofs RaaProps TrauModel TrauProofs RtpModel RtpProofs RtpProps RtpHrProps RtpCsdProps.
Import ListNotations.

(** ** Specification *)
(** octets needed for the payload of a frame type, and the lengths that may be
    returned (0: no payload because the frame is bad; 1: header octet only) *)
Definition payload_room (t : ftype) (st : rtp_state) : option (nat * list Z) :=
  match t with
  | T16_FR => Some (if st_twts001 st then (34, [34%Z]) else (33, [33%Z; 0%Z]))
  | T16_EFR => Some (if st_twts001 st then (32, [32%Z; 1%Z]) else (31, [31%Z; 0%Z]))
  | T16_HR | T8_SPEECH => Some (15, if st_twts002 st then [15%Z; 1%Z] else [15%Z; 0%Z])
  | T16_DATA | T16_DATA_HR | T8_DATA | T16_EDATA => Some (160, [160%Z])
  | _ => None
  end.
(** payloads accepted for a type; for data everything is (idle fill) *)
Definition accepted (st : rtp_state) (dir : fdir) (rtp : list Z) : bool :=
  match st_type st with
  | T16_FR => accept_speech 13 33 rtp
  | T16_EFR => accept_speech 12 31 rtp
  | T16_HR => existsb (Nat.eqb (length rtp)) [0; 14; 15]
  | T8_SPEECH => existsb (Nat.eqb (length rtp)) [0; 14; 15] && match dir with DL => true | UL => false end
  | T16_DATA | T16_DATA_HR | T8_DATA | T16_EDATA => true
  | _ => false
  end.

Lemma hr_api_facts r hdr out : Forall is_octet out -> 15 <= length out -> hr_widths_ok r ->
  (forall ft, length ft = 4 -> length (hdr ft) = 8) -> exists rc out', hr_api_of r hdr out = Some (rc, out') /\
  length out' = length out /\ skipn 15 out' = skipn 15 out /\
  rc = match r with HR_none => 0%Z | HR_hdr _ => 1%Z | HR_full _ _ => 15%Z end.
Proof.
  intros F L R H. destruct r as [|ft|ft pl]; cbn [hr_api_of hr_widths_ok] in *.
  - now exists 0%Z, out.
  - exists 1%Z, (octets_of_bits (hdr ft) ++ skipn 1 out). split; [reflexivity|].
    assert (L1 : length (octets_of_bits (hdr ft)) = 1) by (apply oob_length; rewrite H by exact R; reflexivity).
    split; [rewrite app_length, skipn_length, L1; lia|]. split; [|reflexivity].
    destruct (octets_of_bits (hdr ft)) as [|x [|]]; try discriminate L1. cbn [app]. destruct out; reflexivity.
  - destruct R as [R1 R2]. unfold hr_out_octets. eexists _, _. split; [reflexivity|].
    assert (L1 : length (octets_of_bits (hdr ft ++ pl)) = 15) by (apply oob_length; rewrite app_length, H, R2 by exact R1; reflexivity).
    split; [rewrite app_length, skipn_length, L1; lia|]. split; [now apply skipn_app_exact|reflexivity].
Qed.

Lemma out_facts (p : list Z) out n : length p = n -> n <= length out ->
  length (p ++ skipn n out) = length out /\ skipn n (p ++ skipn n out) = skipn n out.
Proof. intros L H. split; [rewrite app_length, skipn_length; lia|now apply skipn_app_exact]. Qed.

(** enough room *)
Lemma trau2rtp_room cd out out_len fr st n rcs : codec_ok cd -> tf_wf fr -> payload_room (tf_type fr) st = Some (n, rcs) ->
  buffer out out_len n -> exists rc out', osmo_trau2rtp cd out out_len fr st = Some (rc, out') /\
  length out' = length out /\ skipn n out' = skipn n out /\ In rc rcs.
Proof.
  intros C W R B. pose proof B as (F & H1 & H2).
  assert (CSD : csd_type (tf_type fr) -> n = 160 -> In 160%Z rcs -> exists rc out', osmo_trau2rtp cd out out_len fr st = Some (rc, out') /\
    length out' = length out /\ skipn n out' = skipn n out /\ In rc rcs).
  { intros CT -> I.
    assert (exists rtp, osmo_trau2rtp cd out out_len fr st = Some (160%Z, rtp ++ skipn 160 out) /\ length rtp = 160) as (rtp & E & L).
    { destruct (edata_dec (tf_type fr)) as [DE|DE].
      - destruct (edata_payload fr W) as (o & Lo & Fo & Eo & _). exists o. split; [now apply edata_out|exact Lo].
      - destruct (csd_octets_length fr W DE) as [LO _]. exists (csd_octets (rate16 fr) (csd_data fr)). split; [now apply csd_out|exact LO]. }
    exists 160%Z, (rtp ++ skipn 160 out). destruct (out_facts rtp out 160 L ltac:(lia)) as [A1 A2]. auto. }
  unfold payload_room in R. destruct (tf_type fr) eqn:T; try discriminate R.
  - (* FR *) destruct (st_twts001 st) eqn:S; injection R as <- <-.
    + eexists _, _. split; [now apply fr_api_ext|].
      assert (L : length (octets_of_bits (fr_hdr fr ++ fr_out cd fr)) = 34) by (apply oob_length; rewrite app_length, fr_out_length by assumption; reflexivity).
      destruct (out_facts _ out 34 L ltac:(lia)) as [A1 A2]. split; [exact A1|]. split; [exact A2|now left].
    + rewrite fr_api_plain by assumption. destruct (nth 11 (tf_c fr) false).
      * exists 0%Z, out. repeat split. right; now left.
      * eexists _, _. split; [reflexivity|]. pose proof W as (_ & Hd & _).
        assert (L : length (octets_of_bits (fr_rtp_bits (tf_d fr))) = 33) by (apply oob_length; rewrite fr_rtp_length by assumption; reflexivity).
        destruct (out_facts _ out 33 L ltac:(lia)) as [A1 A2]. split; [exact A1|]. split; [exact A2|now left].
  - (* HR *) injection R as <- <-. rewrite hr16_api by assumption.
    destruct (hr_api_facts (hr16_result cd (st_twts002 st) fr) (fun ft => hr16_hdr ft (st_twts002 st) fr) out F ltac:(lia)) as (rc & out' & E & A1 & A2 & Rc);
      [now apply hr16_result_ok|intros ft Hf; unfold hr16_hdr; rewrite app_length, Hf; destruct (st_twts002 st); reflexivity|].
    exists rc, out'. repeat (split; [assumption|]). rewrite Rc. unfold hr16_result.
    destruct (st_twts002 st), (negb _ || _), (c_ fr 11), (c_ fr 12), (c_ fr 13); cbn; tauto.
  - (* EFR *) destruct (st_twts001 st) eqn:S; injection R as <- <-.
    + pose proof (efr_api_ext cd out out_len fr st W T S B) as E. destruct (efr_ok (tf_d fr)).
      * eexists _, _. split; [exact E|].
        assert (L : length (octets_of_bits (fr_hdr fr ++ efr_out cd fr)) = 32) by (apply oob_length; rewrite app_length, efr_out_length by assumption; reflexivity).
        destruct (out_facts _ out 32 L ltac:(lia)) as [A1 A2]. split; [exact A1|]. split; [exact A2|now left].
      * destruct E as (p & Lp & _ & E). eexists _, _. split; [exact E|]. rewrite app_assoc.
        assert (L : length (octets_of_bits (bad_hdr fr) ++ p) = 32) by (rewrite app_length, Lp, (oob_length 1) by reflexivity; reflexivity).
        destruct (out_facts _ out 32 L ltac:(lia)) as [A1 A2]. split; [exact A1|]. split; [exact A2|right; now left].
    + destruct (efr_api_plain cd out out_len fr st W T S B) as (rc & p & E & Lp & _ & Rc). exists rc, (p ++ skipn 31 out).
      destruct (out_facts p out 31 Lp ltac:(lia)) as [A1 A2]. split; [exact E|]. split; [exact A1|]. split; [exact A2|].
      destruct (_ || _); [rewrite Rc; right; now left|destruct Rc as [-> _]; now left].
  - injection R as <- <-. apply CSD; [now left|reflexivity|now left].
  - injection R as <- <-. apply CSD; [do 3 right; reflexivity|reflexivity|now left].
  - injection R as <- <-. apply CSD; [right; now left|reflexivity|now left].
  - (* HR8 *) injection R as <- <-. rewrite hr8_api by assumption.
    destruct (hr_api_facts (fst (hr8_result cd (st_twts002 st) fr)) (fun ft => hr8_hdr ft (snd (hr8_result cd (st_twts002 st) fr)) (st_twts002 st) fr) out F ltac:(lia)) as (rc & out' & E & A1 & A2 & Rc);
      [now apply hr8_result_ok|intros ft Hf; unfold hr8_hdr; rewrite app_length, Hf; destruct (st_twts002 st); reflexivity|].
    exists rc, out'. repeat (split; [assumption|]). rewrite Rc. unfold hr8_result.
    destruct (st_twts002 st), (negb _ || _), (x_ fr 0), (x_ fr 1), (x_ fr 2), (x_ fr 3); cbn; tauto.
  - injection R as <- <-. apply CSD; [do 2 right; now left|reflexivity|now left].
Qed.

(** C27 (output).  [None] would be an access outside the caller's memory. *)
Theorem C27_trau2rtp_buffer : forall cd out out_len fr st,
  codec_ok cd -> tf_wf fr -> Forall is_octet out -> out_len <= length out ->
  exists rc out', osmo_trau2rtp cd out out_len fr st = Some (rc, out') /\
    length out' = length out /\ skipn out_len out' = skipn out_len out /\
    match payload_room (tf_type fr) st with
    | None => rc = EINVAL /\ out' = out
    | Some (n, rcs) =>
        if out_len <? n then rc = ENOSPC /\ out' = out
        else In rc rcs /\ skipn n out' = skipn n out
    end.
Proof.
  intros cd out out_len fr st C W F H.
  destruct (payload_room (tf_type fr) st) as [[n rcs]|] eqn:R.
  - destruct (Nat.ltb_spec out_len n) as [L|L].
    + exists ENOSPC, out. split; [|auto]. unfold osmo_trau2rtp, trau2rtp_bits, payload_room in *.
      assert (K : forall m, n = m -> (out_len <? m) = true) by (intros m <-; now apply Nat.ltb_lt).
      destruct (tf_type fr) eqn:T; try discriminate R;
      unfold trau2rtp_fr, trau2rtp_hr16, trau2rtp_efr, trau2rtp_data_fr, trau2rtp_edata, trau2rtp_data_hr16, trau2rtp_hr8, trau2rtp_data_hr8; rewrite T;
      try (destruct (st_twts001 st)); injection R as R1 R2; rewrite K by congruence; now rewrite octets_of_bits_of.
    + destruct (trau2rtp_room cd out out_len fr st n rcs C W R) as (rc & out' & E & A1 & A2 & A3); [repeat split; assumption|].
      exists rc, out'. split; [exact E|]. split; [exact A1|]. split; [|auto].
      replace out_len with (n + (out_len - n)) by lia. now rewrite <- !skipn_skipn', A2.
  - exists EINVAL, out. split; [|auto]. unfold osmo_trau2rtp, trau2rtp_bits, payload_room in *.
    destruct (tf_type fr); try discriminate R; try (destruct (st_twts001 st); discriminate R); now rewrite octets_of_bits_of.
Qed.

(** input *)
Lemma fr_body_total cd fr bfi taf dtxd data : tf_wf fr -> length data = 264 \/ length data = 0 ->
  exists fr', rtp2trau_fr_body cd fr bfi taf dtxd data = Some fr' /\ tf_wf fr' /\ tf_type fr' = T16_FR /\ tf_dir fr' = tf_dir fr.
Proof.
  intros W L. pose proof W as (Hc & Hd & Ht & Hs & Hm & Hcr & Hx). unfold rtp2trau_fr_body.
  assert (W1 : tf_wf (set_type fr T16_FR)) by (repeat split; assumption).
  destruct (speech_c_some [false;false;false;true;false] [true;true;true;false;false] (osmo_fr_sid_classify cd) (osmo_fr_check_sid cd) bfi taf dtxd data _ W1 eq_refl eq_refl) as (c & Lc & ->).
  cbn [set_t set_c set_type tf_d].
  assert (exists d, (if length data =? 0 then memset (tf_d fr) 0 true 260 else fr_set_d (tf_d fr) data) = Some d /\ length d = 288) as (d & -> & Ld).
  { destruct L as [L|L]; rewrite L; cbn [Nat.eqb].
    - rewrite fr_set_d_ok by assumption. eexists. split; [reflexivity|]. rewrite app_length, fr_d_of_length, skipn_length by assumption. lia.
    - unfold memset. rewrite blit_splice by (rewrite repeat_length; lia). eexists. split; [reflexivity|]. rewrite splice_length by (rewrite repeat_length; lia). exact Hd. }
  eexists. split; [reflexivity|]. repeat split; assumption.
Qed.
Lemma efr_body_total cd fr bfi taf dtxd data : tf_wf fr -> length data = 248 \/ length data = 0 ->
  exists fr', rtp2trau_efr_body cd fr bfi taf dtxd data = Some fr' /\ tf_wf fr' /\ tf_type fr' = T16_EFR /\ tf_dir fr' = tf_dir fr.
Proof.
  intros W L. pose proof W as (Hc & Hd & Ht & Hs & Hm & Hcr & Hx). unfold rtp2trau_efr_body.
  assert (W1 : tf_wf (set_type fr T16_EFR)) by (repeat split; assumption).
  destruct (speech_c_some [true;true;false;true;false] [true;true;false;true;false] (osmo_efr_sid_classify cd) (osmo_efr_check_sid cd) bfi taf dtxd data _ W1 eq_refl eq_refl) as (c & Lc & ->).
  cbn [set_t set_c set_type tf_d].
  assert (exists d, (if length data =? 0 then memset (tf_d fr) 0 true 260 else efr_set_d (tf_d fr) data) = Some d /\ length d = 288) as (d & -> & Ld).
  { destruct L as [L|L]; rewrite L; cbn [Nat.eqb].
    - rewrite efr_set_d_ok by assumption. eexists. split; [reflexivity|]. rewrite app_length, efr_d_of_length, skipn_length by assumption. lia.
    - unfold memset. rewrite blit_splice by (rewrite repeat_length; lia). eexists. split; [reflexivity|]. rewrite splice_length by (rewrite repeat_length; lia). exact Hd. }
  eexists. split; [reflexivity|]. repeat split; assumption.
Qed.
Lemma accept_length s n rtp : accept_speech s n rtp = true ->
  length (bits_of_octets (strip_header rtp)) = 8 * n \/ length (bits_of_octets (strip_header rtp)) = 0.
Proof.
  unfold accept_speech. rewrite boo_length. destruct (strip_header rtp) as [|h r]; [now right|].
  rewrite andb_true_iff, Nat.eqb_eq. intros [-> _]. now left.
Qed.

Theorem C27_rtp2trau_accepts : forall cd fr st rtp, tf_wf fr -> Forall is_octet rtp ->
  exists rc fr', osmo_rtp2trau cd fr rtp st = Some (rc, fr') /\ tf_wf fr' /\
    if accepted st (tf_dir fr) rtp
    then rc = 0%Z /\ tf_type fr' = st_type st /\ tf_dir fr' = tf_dir fr
    else (rc = EINVAL \/ rc = ENOTSUP) /\ fr' = fr.
Proof.
  intros cd fr st rtp W F. unfold accepted.
  assert (CSD : csd_type (st_type st) -> exists rc fr', osmo_rtp2trau cd fr rtp st = Some (rc, fr') /\ tf_wf fr' /\
     (rc = 0%Z /\ tf_type fr' = st_type st /\ tf_dir fr' = tf_dir fr)).
  { intros CT. destruct (C26_total cd fr st rtp W CT) as (fr' & E & W' & T' & D'). exists 0%Z, fr'. auto. }
  assert (ERR : osmo_rtp2trau cd fr rtp st = Some (EINVAL, fr) -> exists rc fr', osmo_rtp2trau cd fr rtp st = Some (rc, fr') /\ tf_wf fr' /\
     ((rc = EINVAL \/ rc = ENOTSUP) /\ fr' = fr)).
  { intros E. exists EINVAL, fr. rewrite E. auto. }
  assert (HR : existsb (Nat.eqb (length rtp)) [0; 14; 15] = true -> exists data, hr_input (bits_of_octets rtp) = Some data /\ (length data = 112 \/ length data = 0)).
  { rewrite hr_input_spec. cbn [existsb]. destruct (Nat.eqb_spec (length rtp) 14) as [L|_]; [eexists; split; [reflexivity|left; rewrite boo_length, L; reflexivity]|].
    destruct (Nat.eqb_spec (length rtp) 15) as [L|_]; [eexists; split; [reflexivity|left; rewrite boo_length, skipn_length, L; reflexivity]|].
    destruct (Nat.eqb_spec (length rtp) 0); [eexists; split; [reflexivity|now right]|discriminate]. }
  assert (HRN : existsb (Nat.eqb (length rtp)) [0; 14; 15] = false -> hr_input (bits_of_octets rtp) = None).
  { rewrite hr_input_spec. cbn [existsb]. destruct (length rtp =? 14), (length rtp =? 15), (length rtp =? 0); (discriminate || reflexivity). }
  destruct (st_type st) eqn:T; try (apply ERR; unfold osmo_rtp2trau; now rewrite T).
  - (* FR *) destruct (accept_speech 13 33 rtp) eqn:A.
    + unfold osmo_rtp2trau, rtp2trau_fr. rewrite T, speech_input_spec by (try assumption; lia).
      change (octet_of_bits [true; true; false; true]) with 13%Z. rewrite A.
      destruct (fr_body_total cd fr (match strip_header rtp with [] => true | _ => hbit rtp 1 end) (hbit rtp 0) (hbit rtp 3) _ W (accept_length _ _ _ A)) as (fr' & -> & W' & T' & D').
      exists 0%Z, fr'. auto.
    + apply ERR. unfold osmo_rtp2trau, rtp2trau_fr. rewrite T, speech_input_spec by (try assumption; lia).
      change (octet_of_bits [true; true; false; true]) with 13%Z. now rewrite A.
  - (* HR16 *) destruct (existsb _ _) eqn:A.
    + destruct (HR eq_refl) as (data & E & L). exists 0%Z, (hr16_frame cd fr data).
      split; [now apply hr16_rtp_api|]. split; [now apply hr16_frame_wf|]. auto.
    + apply ERR. unfold osmo_rtp2trau, rtp2trau_hr16. now rewrite T, HRN.
  - (* EFR *) destruct (accept_speech 12 31 rtp) eqn:A.
    + unfold osmo_rtp2trau, rtp2trau_efr. rewrite T, speech_input_spec by (try assumption; lia).
      change (octet_of_bits [true; true; false; false]) with 12%Z. rewrite A.
      destruct (efr_body_total cd fr (match strip_header rtp with [] => true | _ => hbit rtp 1 end) (hbit rtp 0) (hbit rtp 3) _ W (accept_length _ _ _ A)) as (fr' & -> & W' & T' & D').
      exists 0%Z, fr'. auto.
    + apply ERR. unfold osmo_rtp2trau, rtp2trau_efr. rewrite T, speech_input_spec by (try assumption; lia).
      change (octet_of_bits [true; true; false; false]) with 12%Z. now rewrite A.
  - apply CSD. now left.
  - apply CSD. do 3 right. reflexivity.
  - apply CSD. right. now left.
  - (* HR8 *) destruct (existsb _ _) eqn:A; cbn [andb].
    + destruct (HR eq_refl) as (data & E & L). destruct (tf_dir fr) eqn:D.
      * exists ENOTSUP, fr. split; [|auto]. unfold osmo_rtp2trau, rtp2trau_hr8. now rewrite T, E, D.
      * exists 0%Z, (hr8_frame cd fr data). split; [now apply hr8_rtp_api|]. split; [now apply hr8_frame_wf|]. auto.
    + apply ERR. unfold osmo_rtp2trau, rtp2trau_hr8. now rewrite T, HRN.
  - apply CSD. do 2 right. now left.
Qed.
(** accepted payloads have the lengths of the codec, or are empty *)
Theorem C27_accepted_lengths : forall st dir rtp, accepted st dir rtp = true ->
  match st_type st with
  | T16_FR => In (length rtp) [0; 1; 33; 34]
  | T16_EFR => In (length rtp) [0; 1; 31; 32]
  | T16_HR | T8_SPEECH => In (length rtp) [0; 14; 15]
  | _ => True
  end.
Proof.
  intros st dir rtp. unfold accepted, accept_speech, strip_header.
  assert (HR : existsb (Nat.eqb (length rtp)) [0; 14; 15] = true -> In (length rtp) [0; 14; 15]).
  { intros H. apply existsb_exists in H. destruct H as (x & I & E). apply Nat.eqb_eq in E. now rewrite E. }
  destruct (st_type st); try exact (fun _ => I).
  - destruct rtp as [|h r]; [now left|]. destruct (h / 16 =? 14)%Z.
    + destruct r as [|h1 r]; [right; now left|]. rewrite andb_true_iff, Nat.eqb_eq. intros [E _]. cbn [length] in *. rewrite E. cbn. tauto.
    + rewrite andb_true_iff, Nat.eqb_eq. intros [-> _]. cbn. tauto.
  - exact HR.
  - destruct rtp as [|h r]; [now left|]. destruct (h / 16 =? 14)%Z.
    + destruct r as [|h1 r]; [right; now left|]. rewrite andb_true_iff, Nat.eqb_eq. intros [E _]. cbn [length] in *. rewrite E. cbn. tauto.
    + rewrite andb_true_iff, Nat.eqb_eq. intros [-> _]. cbn. tauto.
  - rewrite andb_true_iff. intros [H _]. auto.
Qed.
Example C27_example : codec_ok ex_codec /\ tf_wf (ex_tf T16_EFR UL) /\
  accepted (mkRtpState T16_EFR false false false) UL (0xCA%Z :: repeat 1%Z 30) = true /\
  accepted (mkRtpState T16_EFR false false false) UL (0xCA%Z :: repeat 1%Z 31) = false /\
  (exists rc o, osmo_trau2rtp ex_codec (repeat 0%Z 160) 160 (ex_tf T16_DATA UL) (mkRtpState T16_DATA false false false) = Some (rc, o) /\ rc = 160%Z) /\
  osmo_trau2rtp ex_codec (repeat 0%Z 160) 159 (ex_tf T16_DATA UL) (mkRtpState T16_DATA false false false) = Some (ENOSPC, repeat 0%Z 160).
Proof.
  split; [apply C25_example|]. split; [repeat split|]. split; [reflexivity|]. split; [reflexivity|].
  split; [|vmr].
  destruct (C27_trau2rtp_buffer ex_codec (repeat 0%Z 160) 160 (ex_tf T16_DATA UL) (mkRtpState T16_DATA false false false)) as (rc & o & E & _ & _ & H & _);
    [apply C25_example|repeat split|octs|cbn; lia|].
  exists rc, o. split; [exact E|]. destruct H as [H|[]]. now symmetry.
Qed.
Print Assumptions C27_trau2rtp_buffer.
Print Assumptions C27_rtp2trau_accepts.
Print Assumptions C27_accepted_lengths.
