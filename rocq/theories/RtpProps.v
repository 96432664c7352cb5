(** Properties C23-C27 (TRAU frame <-> RTP payload, src/trau/trau_rtp_conv.c).
    Payloads are lists of octets; [cd] are the libosmocodec functions, about
    which nothing is assumed unless stated. *)
From Coq Require Import List Arith Lia Bool ZArith.
From Verif Require Import Base RtpSpec RaaModel RaaProofs RaaProps TrauModel RtpModel RtpProofs.
Import ListNotations.

(** the caller's memory for a payload: [out], of which [out_len] octets are offered *)
Definition buffer (out : list Z) (out_len need : nat) : Prop :=
  Forall is_octet out /\ need <= out_len /\ out_len <= length out.
Definition hi (l : list Z) : Z := (hd 0 l / 16)%Z.

Lemma set_d_wf fr d : tf_wf fr -> length d = 288 -> tf_wf (set_d fr d).
Proof. intros (Hc & Hd & Ht & Hs & Hm & Hcr & Hx) L. repeat split; assumption. Qed.

Lemma app_exact {A} (a b : list A) n : length a = n -> firstn n (a ++ b) = a /\ skipn n (a ++ b) = b.
Proof. intros H. split; [now apply firstn_app_exact|now apply skipn_app_exact]. Qed.

Lemma octets_eq rtp n p : Forall is_octet rtp -> length rtp = n -> p = bits_of_octets rtp -> octets_of_bits p = rtp.
Proof. intros F L ->. now apply octets_of_bits_of. Qed.

(** * FR at the API *)
Lemma fr_api_plain cd out out_len fr st : tf_wf fr -> tf_type fr = T16_FR -> st_twts001 st = false ->
  buffer out out_len 33 ->
  osmo_trau2rtp cd out out_len fr st =
  Some (if nth 11 (tf_c fr) false then (0%Z, out) else (33%Z, octets_of_bits (fr_rtp_bits (tf_d fr)) ++ skipn 33 out)).
Proof.
  intros W T S (F & H1 & H2). unfold osmo_trau2rtp, trau2rtp_bits, trau2rtp_fr. rewrite T, S.
  destruct (Nat.ltb_spec out_len 33); [lia|]. rewrite fr_body_plain by (try assumption; rewrite boo_length; lia).
  destruct (nth 11 (tf_c fr) false); [now rewrite octets_of_bits_of|].
  change 264 with (8 * 33). rewrite oob_out; [reflexivity| |exact F]. apply fr_rtp_length, W.
Qed.
Lemma fr_out_length cd fr : tf_wf fr -> length (fr_out cd fr) = 264.
Proof.
  intros W. unfold fr_out. destruct (_ && _ && _ && _); [|apply fr_rtp_length, W].
  unfold set_positions. rewrite map_length, combine_length, seq_length, fr_rtp_length by apply W. reflexivity.
Qed.
Lemma fr_api_ext cd out out_len fr st : tf_wf fr -> tf_type fr = T16_FR -> st_twts001 st = true ->
  buffer out out_len 34 ->
  osmo_trau2rtp cd out out_len fr st =
  Some (34%Z, octets_of_bits (fr_hdr fr ++ fr_out cd fr) ++ skipn 34 out).
Proof.
  intros W T S (F & H1 & H2). unfold osmo_trau2rtp, trau2rtp_bits, trau2rtp_fr. rewrite T, S.
  destruct (Nat.ltb_spec out_len 34); [lia|]. rewrite fr_body_ext by (try assumption; rewrite boo_length; lia).
  change 272 with (8 * 34). rewrite app_assoc, oob_out; [reflexivity| |exact F].
  rewrite app_length, fr_out_length by assumption. reflexivity.
Qed.
Lemma strip_plain rtp s : hi rtp = s -> s <> 14%Z -> strip_header rtp = rtp.
Proof. intros H N. destruct rtp as [|h r]; [reflexivity|]. unfold strip_header, hi in *. cbn [hd] in H. destruct (Z.eqb_spec (h / 16) 14); congruence. Qed.
Lemma hbit_plain rtp s i : hi rtp = s -> s <> 14%Z -> hbit rtp i = false.
Proof. intros H N. destruct rtp as [|h r]; [reflexivity|]. unfold hbit, hi in *. cbn [hd] in H. destruct (Z.eqb_spec (h / 16) 14); [congruence|reflexivity]. Qed.
Lemma accept_plain rtp s n : hi rtp = s -> s <> 14%Z -> length rtp = n -> accept_speech s n rtp = true.
Proof.
  intros H N L. unfold accept_speech. rewrite (strip_plain rtp s) by assumption. destruct rtp as [|h r]; [reflexivity|].
  unfold hi in H. cbn [hd] in H. rewrite L, H, Nat.eqb_refl, Z.eqb_refl. reflexivity.
Qed.

Definition fr_rtp_frame (cd : codec) (fr : tframe) (bfi taf dtxd : bool) (data : bits) : tframe :=
  let s := osmo_fr_sid_classify cd data in
  mkTf T16_FR UL (tf_ta fr)
    ([false;false;false;true;false] ++ repeat false 6 ++ [bfi; sid_msb s; sid_lsb s; taf; true; dtxd] ++ repeat true 4 ++ skipn 21 (tf_c fr))
    (fr_d_of data ++ skipn 260 (tf_d fr)) (repeat true 4) (tf_s fr) (tf_m fr) (tf_ufi fr) (tf_crc fr) (tf_xc fr).

Lemma fr_rtp_body_ul cd fr bfi taf dtxd data : tf_wf fr -> tf_dir fr = UL -> length data = 264 ->
  rtp2trau_fr_body cd fr bfi taf dtxd data = Some (fr_rtp_frame cd fr bfi taf dtxd data).
Proof.
  intros W D L. pose proof W as (Hc & Hd & _). unfold rtp2trau_fr_body. rewrite speech_c_ul; [|exact W|exact D|reflexivity].
  rewrite L. cbn [Nat.eqb]. cbv zeta. cbn [set_t set_c set_type tf_d]. rewrite fr_set_d_ok by assumption.
  unfold fr_rtp_frame, set_d, set_t, set_c, set_type; cbn [tf_type tf_dir tf_ta tf_c tf_d tf_t tf_s tf_m tf_ufi tf_crc tf_xc].
  rewrite D. reflexivity.
Qed.
Lemma fr_rtp_frame_wf cd fr bfi taf dtxd data : tf_wf fr -> length data = 264 -> tf_wf (fr_rtp_frame cd fr bfi taf dtxd data).
Proof.
  intros (Hc & Hd & Ht & Hs & Hm & Hcr & Hx) L. repeat split; cbn [fr_rtp_frame tf_c tf_d tf_t tf_s tf_m tf_crc tf_xc]; try assumption; try reflexivity.
  - rewrite !app_length, skipn_length, Hc. reflexivity.
  - rewrite app_length, fr_d_of_length, skipn_length by assumption. lia.
Qed.

Lemma first_nibble rtp s3 s2 s1 s0 n : Forall is_octet rtp -> length rtp = S n -> hi rtp = octet_of_bits [s3;s2;s1;s0] ->
  [s3;s2;s1;s0] ++ skipn 4 (bits_of_octets rtp) = bits_of_octets rtp.
Proof.
  intros F L H. destruct rtp as [|h r]; [discriminate|]. inversion F as [|? ? Hh Fr E]; subst.
  destruct (octet_cases h Hh) as (b7 & b6 & b5 & b4 & b3 & b2 & b1 & b0 & EB & Eh).
  unfold hi in H. cbn [hd] in H. rewrite Eh, hi_nibble in H. rewrite boo_cons, EB. cbn [app skipn].
  assert (b7 = s3 /\ b6 = s2 /\ b5 = s1 /\ b4 = s0) as (-> & -> & -> & ->)
    by (destruct b7, b6, b5, b4, s3, s2, s1, s0; try (cbv in H; discriminate H); auto).
  reflexivity.
Qed.

(** C23. RTP -> TRAU (uplink) -> RTP: any 33 octets with the FR signature 0xD. *)
Theorem C23_fr_rtp_roundtrip : forall cd fr st rtp out out_len,
  tf_wf fr -> tf_dir fr = UL -> st_type st = T16_FR -> st_twts001 st = false ->
  Forall is_octet rtp -> length rtp = 33 -> hi rtp = 13%Z -> buffer out out_len 33 ->
  exists fr' out', osmo_rtp2trau cd fr rtp st = Some (0%Z, fr') /\ tf_wf fr' /\ tf_type fr' = T16_FR /\
    osmo_trau2rtp cd out out_len fr' st = Some (33%Z, out') /\
    firstn 33 out' = rtp /\ skipn 33 out' = skipn 33 out.
Proof.
  intros cd fr st rtp out out_len W D T S F L H B.
  assert (LB : length (bits_of_octets rtp) = 264) by (rewrite boo_length, L; reflexivity).
  exists (fr_rtp_frame cd fr false false false (bits_of_octets rtp)), (rtp ++ skipn 33 out).
  split; [|split; [now apply fr_rtp_frame_wf|split; [reflexivity|split; [|now apply app_exact]]]].
  - unfold osmo_rtp2trau, rtp2trau_fr. rewrite T, speech_input_spec by (try assumption; lia).
    change (octet_of_bits [true; true; false; true]) with 13%Z.
    rewrite (accept_plain rtp 13 33) by (try assumption; discriminate).
    rewrite (strip_plain rtp 13), !(hbit_plain rtp 13) by (try assumption; discriminate).
    destruct rtp as [|h r]; [discriminate L|]. rewrite fr_rtp_body_ul by assumption. reflexivity.
  - rewrite fr_api_plain; [|now apply fr_rtp_frame_wf|reflexivity|exact S|exact B].
    change (nth 11 (tf_c (fr_rtp_frame cd fr false false false (bits_of_octets rtp))) false) with false.
    cbn [fr_rtp_frame tf_d]. rewrite fr_d_rtp by assumption.
    rewrite (first_nibble rtp true true false true 32) by assumption. now rewrite octets_of_bits_of.
Qed.

(** with the TW-TS-001 header octet (flags DTXd, BFI, TAF; the No_Data flag is
    not set as there is data); the SID classifiers of libosmocodec have to
    agree with each other *)
Theorem C23_fr_twts001_roundtrip : forall cd fr st h rtp out out_len,
  (forall p, osmo_fr_is_any_sid cd p = true -> osmo_fr_sid_classify cd p <> SID_SPEECH) ->
  tf_wf fr -> tf_dir fr = UL -> st_type st = T16_FR -> st_twts001 st = true ->
  is_octet h -> (h / 16 = 14)%Z -> Z.testbit h 2 = false ->
  Forall is_octet rtp -> length rtp = 33 -> hi rtp = 13%Z -> buffer out out_len 34 ->
  exists fr' out', osmo_rtp2trau cd fr (h :: rtp) st = Some (0%Z, fr') /\ tf_wf fr' /\
    osmo_trau2rtp cd out out_len fr' st = Some (34%Z, out') /\
    firstn 34 out' = h :: rtp /\ skipn 34 out' = skipn 34 out.
Proof.
  intros cd fr st h rtp out out_len CC W D T S Oh Hh Nd F L H B.
  assert (LB : length (bits_of_octets rtp) = 264) by (rewrite boo_length, L; reflexivity).
  exists (fr_rtp_frame cd fr (Z.testbit h 1) (Z.testbit h 0) (Z.testbit h 3) (bits_of_octets rtp)), ((h :: rtp) ++ skipn 34 out).
  split; [|split; [now apply fr_rtp_frame_wf|split; [|apply app_exact; cbn; lia]]].
  - unfold osmo_rtp2trau, rtp2trau_fr. rewrite T, speech_input_spec by (try (constructor; assumption); lia).
    change (octet_of_bits [true; true; false; true]) with 13%Z.
    unfold accept_speech, strip_header, hbit. rewrite Hh, Z.eqb_refl. cbn [andb].
    destruct rtp as [|h1 r]; [discriminate L|]. unfold hi in H; cbn [hd] in H. rewrite L, H. cbn [Nat.eqb Z.eqb Pos.eqb andb].
    rewrite fr_rtp_body_ul by assumption. reflexivity.
  - rewrite fr_api_ext; [|now apply fr_rtp_frame_wf|reflexivity|exact S|exact B].
    f_equal. f_equal. f_equal. apply (octets_eq (h :: rtp) 34); [now constructor|cbn; lia|].
    rewrite boo_cons. f_equal.
    + destruct (octet_cases h Oh) as (b7 & b6 & b5 & b4 & b3 & b2 & b1 & b0 & EB & Eh). rewrite EB.
      rewrite Eh, hi_nibble in Hh. unfold fr_hdr, fr_rtp_frame. cbn [tf_c nth app repeat].
      assert (E0 : Z.testbit h 0 = b0) by (unfold bits_of_octet in EB; cbn [map] in EB; congruence).
      assert (E1 : Z.testbit h 1 = b1) by (unfold bits_of_octet in EB; cbn [map] in EB; congruence).
      assert (E2 : Z.testbit h 2 = b2) by (unfold bits_of_octet in EB; cbn [map] in EB; congruence).
      assert (E3 : Z.testbit h 3 = b3) by (unfold bits_of_octet in EB; cbn [map] in EB; congruence).
      rewrite E0, E1, E3, <- E2, Nd.
      destruct b7, b6, b5, b4; try (cbv in Hh; discriminate Hh); reflexivity.
    + unfold fr_out. cbn [fr_rtp_frame tf_d]. rewrite fr_d_rtp by assumption.
      rewrite (first_nibble rtp true true false true 32) by assumption.
      destruct (_ && _ && _ && _) eqn:K; [|reflexivity]. exfalso.
      rewrite !andb_true_iff in K. destruct K as (((_ & K1) & K2) & K3). apply CC in K3.
      cbn [fr_rtp_frame tf_c nth app repeat] in K1, K2.
      destruct (osmo_fr_sid_classify cd (bits_of_octets rtp)); [congruence|discriminate K2|discriminate K1].
Qed.

(** TRAU -> RTP -> TRAU: all D bits of a good frame come back, and the
    payload has the RFC 3551 layout *)
Theorem C23_fr_trau_roundtrip : forall cd fr st out out_len fr0,
  tf_wf fr -> tf_type fr = T16_FR -> nth 11 (tf_c fr) false = false ->
  st_type st = T16_FR -> st_twts001 st = false -> buffer out out_len 33 ->
  tf_wf fr0 -> tf_dir fr0 = UL ->
  exists rtp fr', osmo_trau2rtp cd out out_len fr st = Some (33%Z, rtp ++ skipn 33 out) /\
    length rtp = 33 /\ bits_of_octets rtp = fr_rtp_bits (tf_d fr) /\
    osmo_rtp2trau cd fr0 rtp st = Some (0%Z, fr') /\ tf_type fr' = T16_FR /\
    firstn 260 (tf_d fr') = firstn 260 (tf_d fr).
Proof.
  intros cd fr st out out_len fr0 W T C T' S B W0 D0. pose proof W as (_ & Hd & _).
  pose proof (fr_rtp_length _ Hd) as LF. set (rtp := octets_of_bits (fr_rtp_bits (tf_d fr))).
  assert (EB : bits_of_octets rtp = fr_rtp_bits (tf_d fr)) by (apply (bits_of_octets_of 33); exact LF).
  assert (LR : length rtp = 33) by (apply oob_length; exact LF).
  assert (FR : Forall is_octet rtp) by (apply (oob_octets 33); exact LF).
  exists rtp, (fr_rtp_frame cd fr0 false false false (bits_of_octets rtp)).
  split; [rewrite fr_api_plain by assumption; rewrite C; reflexivity|]. split; [exact LR|]. split; [exact EB|].
  split; [|split; [reflexivity|]].
  - assert (H : hi rtp = 13%Z).
    { destruct rtp as [|h r]; [discriminate LR|]. inversion FR as [|? ? Hh FR' E]; subst. unfold hi. cbn [hd].
      destruct (octet_cases h Hh) as (b7 & b6 & b5 & b4 & b3 & b2 & b1 & b0 & EB' & ->).
      rewrite boo_cons, EB' in EB. unfold fr_rtp_bits in EB. cbn [app] in EB. injection EB as -> -> -> -> _.
      rewrite hi_nibble. reflexivity. }
    unfold osmo_rtp2trau, rtp2trau_fr. rewrite T', speech_input_spec by (try assumption; lia).
    change (octet_of_bits [true; true; false; true]) with 13%Z.
    rewrite (accept_plain rtp 13 33) by (try assumption; discriminate).
    rewrite (strip_plain rtp 13), !(hbit_plain rtp 13) by (try assumption; discriminate).
    assert (LB : length (bits_of_octets rtp) = 264) by (rewrite EB; exact LF).
    clearbody rtp. destruct rtp as [|h r]; [discriminate LR|]. rewrite fr_rtp_body_ul by assumption. reflexivity.
  - cbn [fr_rtp_frame tf_d]. rewrite EB, fr_rtp_d by assumption.
    apply firstn_app_exact. rewrite firstn_length. lia.
Qed.

(** the C bits of a downlink frame are not those trau2rtp expects (spare C12
    is 1, read as BFI): the uplink hypothesis is needed *)
Theorem C23_fr_downlink_refuted : exists fr st rtp fr', forall cd,
  osmo_fr_check_sid cd (bits_of_octets rtp) = false ->
  tf_wf fr /\ tf_dir fr = DL /\ Forall is_octet rtp /\ length rtp = 33 /\ hi rtp = 13%Z /\
  osmo_rtp2trau cd fr rtp st = Some (0%Z, fr') /\
  osmo_trau2rtp cd (repeat 0%Z 33) 33 fr' st = Some (0%Z, repeat 0%Z 33).
Proof.
  pose (fr := mkTf FT_NONE DL 0 (repeat false 25) (repeat false 288) (repeat false 4) (repeat false 6) (repeat false 2) false (repeat false 3) (repeat false 6)).
  pose (rtp := 208%Z :: repeat 0%Z 32).
  pose (cd0 := mkCodec (fun _ => false) (fun _ => SID_SPEECH) (fun _ => false) (fun _ => false) (fun _ => SID_SPEECH) (fun _ => false) (fun _ => false) (fun x => x)).
  pose (st := mkRtpState T16_FR false false false).
  pose (fr' := match osmo_rtp2trau cd0 fr rtp st with Some (_, f) => f | None => fr end).
  exists fr, st, rtp, fr'. intros [ ? ? ck ? ? ? ? ?]. cbn [osmo_fr_check_sid]. intros Hck.
  split; [repeat split|]. split; [reflexivity|]. split; [repeat constructor; discriminate|]. split; [reflexivity|]. split; [reflexivity|].
  split; [|vmr]. vm_compute in Hck. vm_compute. rewrite Hck. reflexivity.
Qed.

Ltac octs := repeat constructor; discriminate.
Definition ex_tf ty dir := mkTf ty dir 0 (repeat false 25) (repeat true 288) (repeat true 4) (repeat false 6)
  (repeat true 2) false (repeat true 3) (repeat false 6).
Example C23_example : tf_wf (ex_tf T16_FR UL) /\ buffer (repeat 0%Z 40) 34 34 /\
  Forall is_octet (repeat 0xDA%Z 33) /\ hi (repeat 0xDA%Z 33) = 13%Z /\ is_octet 0xEB%Z /\ (0xEB / 16 = 14)%Z /\ Z.testbit 0xEB%Z 2 = false.
Proof.
  split; [repeat split|]. split; [split; [octs|cbn; lia]|]. split; [octs|]. split; [reflexivity|].
  split; [split; discriminate|]. split; reflexivity.
Qed.
Print Assumptions C23_fr_rtp_roundtrip.
Print Assumptions C23_fr_twts001_roundtrip.
Print Assumptions C23_fr_trau_roundtrip.

(** * EFR *)
Lemma efr_api_plain cd out out_len fr st : tf_wf fr -> tf_type fr = T16_EFR -> st_twts001 st = false ->
  buffer out out_len 31 -> exists rc p,
  osmo_trau2rtp cd out out_len fr st = Some (rc, p ++ skipn 31 out) /\ length p = 31 /\ Forall is_octet p /\
  if nth 11 (tf_c fr) false || negb (efr_ok (tf_d fr)) then rc = 0%Z
  else rc = 31%Z /\ p = octets_of_bits (efr_rtp_bits (tf_d fr)).
Proof.
  intros W T S (F & H1 & H2). unfold osmo_trau2rtp, trau2rtp_bits, trau2rtp_efr. rewrite T, S.
  destruct (Nat.ltb_spec out_len 31); [lia|].
  destruct (efr_body_plain cd fr (bits_of_octets out) W) as (rc & p & E & L & R); [rewrite boo_length; lia|].
  rewrite E. exists rc, (octets_of_bits p). change 248 with (8 * 31). rewrite oob_out by assumption.
  split; [reflexivity|]. split; [now apply oob_length|]. split; [now apply (oob_octets 31)|].
  destruct (_ || _); [exact R|]. destruct R as [-> ->]. auto.
Qed.
Lemma efr_out_length cd fr : tf_wf fr -> length (efr_out cd fr) = 248.
Proof.
  intros W. unfold efr_out. destruct (_ && _ && _ && _); [|apply efr_rtp_length, W].
  unfold set_positions. rewrite map_length, combine_length, seq_length, efr_rtp_length by apply W. reflexivity.
Qed.
Lemma efr_api_ext cd out out_len fr st : tf_wf fr -> tf_type fr = T16_EFR -> st_twts001 st = true ->
  buffer out out_len 32 ->
  if efr_ok (tf_d fr) then
    osmo_trau2rtp cd out out_len fr st = Some (32%Z, octets_of_bits (fr_hdr fr ++ efr_out cd fr) ++ skipn 32 out)
  else exists p, length p = 31 /\ Forall is_octet p /\
    osmo_trau2rtp cd out out_len fr st = Some (1%Z, octets_of_bits (bad_hdr fr) ++ p ++ skipn 32 out).
Proof.
  intros W T S (F & H1 & H2). unfold osmo_trau2rtp, trau2rtp_bits, trau2rtp_efr. rewrite T, S.
  destruct (Nat.ltb_spec out_len 32); [lia|].
  pose proof (efr_body_ext cd fr (bits_of_octets out) W) as R. destruct (efr_ok (tf_d fr)).
  - rewrite R by (rewrite boo_length; lia). change 256 with (8 * 32). rewrite app_assoc, oob_out; [reflexivity| |exact F].
    rewrite app_length, efr_out_length by assumption. reflexivity.
  - destruct R as (p & -> & Lp); [rewrite boo_length; lia|]. exists (octets_of_bits p).
    split; [now apply oob_length|]. split; [now apply (oob_octets 31)|].
    change 256 with (8 * 32). rewrite app_assoc, oob_out; [| |exact F].
    + rewrite (oob_app 1) by reflexivity. now rewrite <- app_assoc.
    + rewrite app_length, Lp. reflexivity.
Qed.

Definition efr_rtp_frame (cd : codec) (fr : tframe) (bfi taf dtxd : bool) (data : bits) : tframe :=
  let s := osmo_efr_sid_classify cd data in
  mkTf T16_EFR UL (tf_ta fr)
    ([true;true;false;true;false] ++ repeat false 6 ++ [bfi; sid_msb s; sid_lsb s; taf; true; dtxd] ++ repeat true 4 ++ skipn 21 (tf_c fr))
    (efr_d_of data ++ skipn 260 (tf_d fr)) (repeat true 4) (tf_s fr) (tf_m fr) (tf_ufi fr) (tf_crc fr) (tf_xc fr).
Lemma efr_rtp_body_ul cd fr bfi taf dtxd data : tf_wf fr -> tf_dir fr = UL -> length data = 248 ->
  rtp2trau_efr_body cd fr bfi taf dtxd data = Some (efr_rtp_frame cd fr bfi taf dtxd data).
Proof.
  intros W D L. pose proof W as (Hc & Hd & _). unfold rtp2trau_efr_body. rewrite speech_c_ul; [|exact W|exact D|reflexivity].
  rewrite L. cbn [Nat.eqb]. cbv zeta. cbn [set_t set_c set_type tf_d]. rewrite efr_set_d_ok by assumption.
  unfold efr_rtp_frame, set_d, set_t, set_c, set_type; cbn [tf_type tf_dir tf_ta tf_c tf_d tf_t tf_s tf_m tf_ufi tf_crc tf_xc].
  rewrite D. reflexivity.
Qed.
Lemma efr_rtp_frame_wf cd fr bfi taf dtxd data : tf_wf fr -> length data = 248 -> tf_wf (efr_rtp_frame cd fr bfi taf dtxd data).
Proof.
  intros (Hc & Hd & Ht & Hs & Hm & Hcr & Hx) L. repeat split; cbn [efr_rtp_frame tf_c tf_d tf_t tf_s tf_m tf_crc tf_xc]; try assumption; try reflexivity.
  - rewrite !app_length, skipn_length, Hc. reflexivity.
  - rewrite app_length, efr_d_of_length, skipn_length by assumption. lia.
Qed.

Lemma rtp2trau_efr_data cd fr st rtp : tf_wf fr -> tf_dir fr = UL -> st_type st = T16_EFR ->
  Forall is_octet rtp -> length rtp = 31 -> hi rtp = 12%Z ->
  osmo_rtp2trau cd fr rtp st = Some (0%Z, efr_rtp_frame cd fr false false false (bits_of_octets rtp)).
Proof.
  intros W D T F L H.
  assert (LB : length (bits_of_octets rtp) = 248) by (rewrite boo_length, L; reflexivity).
  unfold osmo_rtp2trau, rtp2trau_efr. rewrite T, speech_input_spec by (try assumption; lia).
  change (octet_of_bits [true; true; false; false]) with 12%Z.
  rewrite (accept_plain rtp 12 31) by (try assumption; discriminate).
  rewrite (strip_plain rtp 12), !(hbit_plain rtp 12) by (try assumption; discriminate).
  destruct rtp as [|h r]; [discriminate L|]. rewrite efr_rtp_body_ul by assumption. reflexivity.
Qed.

(** C24. RTP -> TRAU (uplink) -> RTP: any 31 octets with signature 0xC. The
    five parities generated are accepted. *)
Theorem C24_efr_rtp_roundtrip : forall cd fr st rtp out out_len,
  tf_wf fr -> tf_dir fr = UL -> st_type st = T16_EFR -> st_twts001 st = false ->
  Forall is_octet rtp -> length rtp = 31 -> hi rtp = 12%Z -> buffer out out_len 31 ->
  exists fr' out', osmo_rtp2trau cd fr rtp st = Some (0%Z, fr') /\ tf_wf fr' /\ tf_type fr' = T16_EFR /\
    osmo_trau2rtp cd out out_len fr' st = Some (31%Z, out') /\
    firstn 31 out' = rtp /\ skipn 31 out' = skipn 31 out.
Proof.
  intros cd fr st rtp out out_len W D T S F L H B.
  assert (LB : length (bits_of_octets rtp) = 248) by (rewrite boo_length, L; reflexivity).
  set (fr' := efr_rtp_frame cd fr false false false (bits_of_octets rtp)).
  assert (W' : tf_wf fr') by now apply efr_rtp_frame_wf.
  destruct (efr_api_plain cd out out_len fr' st W' eq_refl S B) as (rc & p & E & Lp & _ & R).
  change (nth 11 (tf_c fr') false) with false in R. cbn [orb] in R.
  replace (efr_ok (tf_d fr')) with true in R by (symmetry; now apply efr_d_ok). cbn [negb] in R. destruct R as [-> R].
  exists fr', (p ++ skipn 31 out). split; [now apply rtp2trau_efr_data|]. split; [exact W'|]. split; [reflexivity|].
  split; [exact E|]. assert (p = rtp) as ->; [|now apply app_exact].
  rewrite R. unfold fr'. cbn [efr_rtp_frame tf_d]. rewrite efr_d_rtp by assumption.
  rewrite (first_nibble rtp true true false false 30) by assumption. now apply octets_of_bits_of.
Qed.

(** with the TW-TS-001 header octet *)
Theorem C24_efr_twts001_roundtrip : forall cd fr st h rtp out out_len,
  (forall p, osmo_efr_is_any_sid cd p = true -> osmo_efr_sid_classify cd p <> SID_SPEECH) ->
  tf_wf fr -> tf_dir fr = UL -> st_type st = T16_EFR -> st_twts001 st = true ->
  is_octet h -> (h / 16 = 14)%Z -> Z.testbit h 2 = false ->
  Forall is_octet rtp -> length rtp = 31 -> hi rtp = 12%Z -> buffer out out_len 32 ->
  exists fr' out', osmo_rtp2trau cd fr (h :: rtp) st = Some (0%Z, fr') /\ tf_wf fr' /\
    osmo_trau2rtp cd out out_len fr' st = Some (32%Z, out') /\
    firstn 32 out' = h :: rtp /\ skipn 32 out' = skipn 32 out.
Proof.
  intros cd fr st h rtp out out_len CC W D T S Oh Hh Nd F L H B.
  assert (LB : length (bits_of_octets rtp) = 248) by (rewrite boo_length, L; reflexivity).
  set (fr' := efr_rtp_frame cd fr (Z.testbit h 1) (Z.testbit h 0) (Z.testbit h 3) (bits_of_octets rtp)).
  assert (W' : tf_wf fr') by now apply efr_rtp_frame_wf.
  pose proof (efr_api_ext cd out out_len fr' st W' eq_refl S B) as E.
  replace (efr_ok (tf_d fr')) with true in E by (symmetry; now apply efr_d_ok).
  exists fr', ((h :: rtp) ++ skipn 32 out).
  split; [|split; [exact W'|split; [|apply app_exact; cbn; lia]]].
  - unfold osmo_rtp2trau, rtp2trau_efr. rewrite T, speech_input_spec by (try (constructor; assumption); lia).
    change (octet_of_bits [true; true; false; false]) with 12%Z.
    unfold accept_speech, strip_header, hbit. rewrite Hh, Z.eqb_refl. cbn [andb].
    destruct rtp as [|h1 r]; [discriminate L|]. unfold hi in H; cbn [hd] in H. rewrite L, H. cbn [Nat.eqb Z.eqb Pos.eqb andb].
    rewrite efr_rtp_body_ul by assumption. reflexivity.
  - rewrite E. clear E.
    f_equal. f_equal. f_equal. apply (octets_eq (h :: rtp) 32); [now constructor|cbn; lia|].
    rewrite boo_cons. f_equal.
    + destruct (octet_cases h Oh) as (b7 & b6 & b5 & b4 & b3 & b2 & b1 & b0 & EB & Eh). rewrite EB.
      rewrite Eh, hi_nibble in Hh. unfold fr_hdr, fr', efr_rtp_frame. cbn [tf_c nth app repeat].
      assert (E0 : Z.testbit h 0 = b0) by (unfold bits_of_octet in EB; cbn [map] in EB; congruence).
      assert (E1 : Z.testbit h 1 = b1) by (unfold bits_of_octet in EB; cbn [map] in EB; congruence).
      assert (E2 : Z.testbit h 2 = b2) by (unfold bits_of_octet in EB; cbn [map] in EB; congruence).
      assert (E3 : Z.testbit h 3 = b3) by (unfold bits_of_octet in EB; cbn [map] in EB; congruence).
      rewrite E0, E1, E3, <- E2, Nd.
      destruct b7, b6, b5, b4; try (cbv in Hh; discriminate Hh); reflexivity.
    + unfold efr_out, fr'. cbn [efr_rtp_frame tf_d]. rewrite efr_d_rtp by assumption.
      rewrite (first_nibble rtp true true false false 30) by assumption.
      destruct (_ && _ && _ && _) eqn:K; [|reflexivity]. exfalso.
      rewrite !andb_true_iff in K. destruct K as (((_ & K1) & K2) & K3). apply CC in K3.
      cbn [efr_rtp_frame tf_c nth app repeat] in K1, K2.
      destruct (osmo_efr_sid_classify cd (bits_of_octets rtp)); [congruence|discriminate K2|discriminate K1].
Qed.

(** "the frame's parity is accepted" is observable: without TW-TS-001 and BFI
    a payload is delivered, otherwise nothing *)
Definition efr_accepts (fr : tframe) : Prop := forall cd out out_len st,
  st_twts001 st = false -> buffer out out_len 31 -> exists out', osmo_trau2rtp cd out out_len fr st = Some (31%Z, out').
Definition efr_rejects (fr : tframe) : Prop := forall cd out out_len st,
  (st_twts001 st = false -> buffer out out_len 31 -> exists out', osmo_trau2rtp cd out out_len fr st = Some (0%Z, out')) /\
  (st_twts001 st = true -> buffer out out_len 32 -> exists h out',
     osmo_trau2rtp cd out out_len fr st = Some (1%Z, h :: out') /\ (h / 16 = 14)%Z /\
     Z.testbit h 1 = true /\ Z.testbit h 2 = true).

Lemma ok_accepts fr : tf_wf fr -> tf_type fr = T16_EFR -> nth 11 (tf_c fr) false = false ->
  (efr_accepts fr <-> efr_ok (tf_d fr) = true).
Proof.
  intros W T C. split.
  - intros H. pose (cd := mkCodec (fun _ => false) (fun _ => SID_SPEECH) (fun _ => false) (fun _ => false) (fun _ => SID_SPEECH) (fun _ => false) (fun _ => false) (fun x => x)).
    assert (B : buffer (repeat 0%Z 31) 31 31) by (split; [octs|cbn; lia]).
    destruct (H cd _ _ (mkRtpState T16_EFR false false false) eq_refl B) as [out' E].
    destruct (efr_api_plain cd _ _ fr (mkRtpState T16_EFR false false false) W T eq_refl B) as (rc & p & E' & _ & _ & R).
    rewrite E' in E. injection E as -> _. rewrite C in R. destruct (efr_ok (tf_d fr)); [reflexivity|discriminate R].
  - intros OK cd out out_len st S B. destruct (efr_api_plain cd out out_len fr st W T S B) as (rc & p & E' & _ & _ & R).
    rewrite C, OK in R. destruct R as [-> _]. eexists. exact E'.
Qed.
Lemma nok_rejects fr : tf_wf fr -> tf_type fr = T16_EFR -> efr_ok (tf_d fr) = false -> efr_rejects fr.
Proof.
  intros W T OK cd out out_len st. split; intros S B.
  - destruct (efr_api_plain cd out out_len fr st W T S B) as (rc & p & E' & _ & _ & R).
    rewrite OK, orb_true_r in R. subst rc. eexists. exact E'.
  - pose proof (efr_api_ext cd out out_len fr st W T S B) as E. rewrite OK in E. destruct E as (p & _ & _ & E).
    unfold bad_hdr in E. cbn [octets_of_bits app] in E. eexists. eexists. split; [exact E|].
    destruct (nth 16 (tf_c fr) false), (nth 14 (tf_c fr) false); repeat split; reflexivity.
Qed.

(** a single inverted bit at a protected or parity position of an accepted
    frame is detected; [efr_protected] lists these positions *)
Theorem C24_single_error_detected : forall fr p,
  tf_wf fr -> tf_type fr = T16_EFR -> nth 11 (tf_c fr) false = false -> efr_accepts fr ->
  (exists g, In g efr_protected /\ (In p (fst g) \/ snd g <= p < snd g + 3)) ->
  exists d', length d' = 288 /\ (forall i, i < 288 -> nth i d' false = if i =? p then negb (nth p (tf_d fr) false) else nth i (tf_d fr) false) /\
    efr_rejects (set_d fr d').
Proof.
  intros fr p W T C A (g & HI & HP). pose proof W as (_ & Hd & _).
  apply ok_accepts in A; try assumption.
  apply (In_nth _ _ ([], 0)) in HI. destruct HI as (i & Hi & <-). change (length efr_protected) with 5 in Hi.
  assert (Lp : p < 288).
  { destruct (efr_group_facts i Hi) as (_ & B & Q & _). destruct HP as [HP|HP]; [specialize (B p HP); lia|lia]. }
  exists (flip (tf_d fr) p). split; [rewrite flip_length; lia|]. split; [intros; apply nth_flip; lia|].
  apply nok_rejects; [apply set_d_wf; [exact W|rewrite flip_length; lia]|exact T|]. cbn [set_d tf_d].
  assert (A1 : efr_prot1 (tf_d fr) i = true).
  { rewrite efr_ok_split, !andb_true_iff in A. destruct i as [|[|[|[|[|]]]]]; try tauto. lia. }
  pose proof (efr_flip_detected (tf_d fr) i p Hd Hi A1 HP) as N.
  rewrite efr_ok_split. destruct i as [|[|[|[|[|]]]]]; try lia; rewrite N; rewrite ?andb_false_r; reflexivity.
Qed.

(** TRAU -> RTP -> TRAU: a good frame with D1 = 1 (as every sender sets it)
    comes back completely, parity bits included *)
Lemma efr_d_of_ok d : length d = 288 -> nth 0 d false = true -> efr_ok d = true ->
  efr_d_of (efr_rtp_bits d) = firstn 260 d.
Proof.
  intros L N OK.
  assert (K : forall i, i < 5 -> let g := nth i efr_protected ([], 0) in
     at_ (efr_pieces (efr_rtp_bits d)) (fst g) = at_ d (fst g)).
  { clear OK. rewrite (vec_of_list d _ L) in N |- *. generalize dependent (fun i => nth i d false). intros f N.
    cbn [vec map seq nth] in N. intros i Hi.
    do 5 (destruct i as [|i]; [vm_compute; rewrite ?N; reflexivity|]). lia. }
  assert (P : forall i, i < 5 -> efr_crc (efr_rtp_bits d) i = firstn 3 (skipn (snd (nth i efr_protected ([], 0))) d)).
  { intros i Hi. unfold efr_crc. rewrite K by exact Hi.
    assert (A1 : efr_prot1 d i = true) by (rewrite efr_ok_split, !andb_true_iff in OK; destruct i as [|[|[|[|[|]]]]]; try tauto; lia).
    unfold efr_prot1 in A1. cbv zeta in A1. apply crc3_check_eq in A1; [now symmetry|].
    destruct (efr_group_facts i Hi) as (_ & _ & Q & _). rewrite firstn_length, skipn_length. lia. }
  unfold efr_d_of. rewrite !P by lia. clear K P OK.
  rewrite (vec_of_list d _ L) in N |- *. generalize dependent (fun i => nth i d false). intros f N.
  cbn [vec map seq nth] in N. vm_compute. rewrite N. reflexivity.
Qed.

Lemma hi_of_bits rtp s3 s2 s1 s0 x : Forall is_octet rtp -> bits_of_octets rtp = [s3;s2;s1;s0] ++ x -> hi rtp = octet_of_bits [s3;s2;s1;s0].
Proof.
  intros F E. destruct rtp as [|h r]; [discriminate E|]. inversion F as [|? ? Hh FR' E']; subst. unfold hi. cbn [hd].
  destruct (octet_cases h Hh) as (b7 & b6 & b5 & b4 & b3 & b2 & b1 & b0 & EB' & ->).
  rewrite boo_cons, EB' in E. cbn [app] in E. injection E as -> -> -> -> _. apply hi_nibble.
Qed.

Theorem C24_efr_trau_roundtrip : forall cd fr st out out_len fr0,
  tf_wf fr -> tf_type fr = T16_EFR -> nth 11 (tf_c fr) false = false -> nth 0 (tf_d fr) false = true -> efr_accepts fr ->
  st_type st = T16_EFR -> st_twts001 st = false -> buffer out out_len 31 ->
  tf_wf fr0 -> tf_dir fr0 = UL ->
  exists rtp fr', osmo_trau2rtp cd out out_len fr st = Some (31%Z, rtp ++ skipn 31 out) /\
    length rtp = 31 /\ bits_of_octets rtp = efr_rtp_bits (tf_d fr) /\
    osmo_rtp2trau cd fr0 rtp st = Some (0%Z, fr') /\ tf_type fr' = T16_EFR /\
    firstn 260 (tf_d fr') = firstn 260 (tf_d fr).
Proof.
  intros cd fr st out out_len fr0 W T C D1 A T' S B W0 D0. pose proof W as (_ & Hd & _).
  apply ok_accepts in A; try assumption.
  destruct (efr_api_plain cd out out_len fr st W T S B) as (rc & p & E & Lp & FR & R). rewrite C, A in R. destruct R as [-> R].
  pose proof (efr_rtp_length _ Hd) as LF.
  assert (EB : bits_of_octets p = efr_rtp_bits (tf_d fr)) by (rewrite R; apply (bits_of_octets_of 31); exact LF).
  assert (H : hi p = 12%Z) by (apply (hi_of_bits p true true false false (efr_speech (tf_d fr)) FR); exact EB).
  exists p, (efr_rtp_frame cd fr0 false false false (bits_of_octets p)).
  split; [exact E|]. split; [exact Lp|]. split; [exact EB|]. split; [now apply rtp2trau_efr_data|]. split; [reflexivity|].
  cbn [efr_rtp_frame tf_d]. rewrite EB, efr_d_of_ok by assumption. apply firstn_app_exact. rewrite firstn_length. lia.
Qed.

(** the spare bit D1 is protected but not transported: a good frame with D1 = 0
    comes back with D1 = 1 and another first parity *)
Theorem C24_spare_bit_refuted : exists fr, tf_wf fr /\ tf_type fr = T16_EFR /\ nth 11 (tf_c fr) false = false /\
  efr_accepts fr /\ nth 0 (tf_d fr) false = false.
Proof.
  exists (mkTf T16_EFR UL 0 (repeat false 25)
    (repeat false 39 ++ repeat true 3 ++ repeat false 53 ++ repeat true 3 ++ repeat false 50 ++ repeat true 3 ++
     repeat false 53 ++ repeat true 3 ++ repeat false 50 ++ repeat true 3 ++ repeat false 28)
    (repeat true 4) (repeat false 6) (repeat true 2) false (repeat true 3) (repeat false 6)).
  split; [repeat split|]. split; [reflexivity|]. split; [reflexivity|]. split; [|reflexivity].
  apply ok_accepts; [repeat split|reflexivity|reflexivity|]. vm_compute. reflexivity.
Qed.
Example C24_example : exists fr, tf_wf fr /\ tf_type fr = T16_EFR /\ nth 11 (tf_c fr) false = false /\ efr_accepts fr /\
  nth 0 (tf_d fr) false = true /\ Forall is_octet (repeat 0xC5%Z 31) /\ hi (repeat 0xC5%Z 31) = 12%Z /\
  exists g, In g efr_protected /\ In 143 (fst g).
Proof.
  exists (efr_rtp_frame (mkCodec (fun _ => false) (fun _ => SID_SPEECH) (fun _ => false) (fun _ => false) (fun _ => SID_SPEECH) (fun _ => false) (fun _ => false) (fun x => x))
     (ex_tf T16_EFR UL) false false false (bits_of_octets (repeat 0xC5%Z 31))).
  assert (W : tf_wf (ex_tf T16_EFR UL)) by repeat split.
  split; [now apply efr_rtp_frame_wf|]. split; [reflexivity|]. split; [reflexivity|].
  split; [apply ok_accepts; [now apply efr_rtp_frame_wf|reflexivity|reflexivity|now apply efr_d_ok]|].
  split; [reflexivity|]. split; [octs|]. split; [reflexivity|].
  eexists. split; [do 2 right; left; reflexivity|]. vm_compute. tauto.
Qed.
Print Assumptions C24_efr_rtp_roundtrip.
Print Assumptions C24_efr_twts001_roundtrip.
Print Assumptions C24_single_error_detected.
Print Assumptions C24_efr_trau_roundtrip.
