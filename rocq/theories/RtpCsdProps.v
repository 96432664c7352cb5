(** Property C26 (circuit-switched data, TRAU frame <-> RTP payload). *)
From Coq Require Import List Arith Lia Bool ZArith.
From Verif Require Import Base RtpSpec RaaModel RaaProofs RaaProps TrauModel TrauProofs RtpModel RtpProofs RtpProps.
Import ListNotations.

(** ** Specification *)
(** RA2 (ITU-T V.110): one octet per bit / per two bits, the rest filled with ones *)
Definition ra2_8k_octets (b : bits) : list Z := map (fun x : bool => if x then 255 else 127)%Z b.
Fixpoint ra2_16k_octets (b : bits) : list Z :=
  match b with
  | x :: y :: r => (63 + (if x : bool then 128 else 0) + (if y : bool then 64 else 0))%Z :: ra2_16k_octets r
  | _ => []
  end.
(** the D bits of data frame [k] of a TRAU frame *)
Definition d63 (fr : tframe) (k : nat) : bits := firstn 63 (skipn (63 * k) (tf_d fr)).
(** which 63-bit groups carry data: the intermediate rate bit (C6) of a DATA
    frame selects four groups at 16k, or groups 0 and 2 at 8k *)
Definition ir16 (fr : tframe) : bool := nth 5 (tf_c fr) false.
Definition groups (fr : tframe) : list nat :=
  match tf_type fr with
  | T16_DATA => if ir16 fr then [0; 1; 2; 3] else [0; 2]
  | _ => [0; 1]
  end.
(** the user data of a frame *)
Definition csd_data (fr : tframe) : list bits :=
  match tf_type fr with
  | T16_EDATA => [tf_m fr; tf_d fr]
  | _ => map (d63 fr) (groups fr)
  end.
Definition csd_type (t : ftype) : Prop := t = T16_DATA \/ t = T16_DATA_HR \/ t = T8_DATA \/ t = T16_EDATA.
(** the RTP payload of V.110 data: each group as a V.110 frame, then RA2 *)
Definition csd_octets (ir : bool) (data : list bits) : list Z :=
  (if ir then ra2_16k_octets else ra2_8k_octets) (concat (map v110_frame data)).
Definition rate16 (fr : tframe) : bool := match tf_type fr with T16_DATA => ir16 fr | _ => false end.

(** ** Proofs *)
Lemma pack8_spec b : ra2_8k_pack b = ra2_8k_octets b.
Proof. unfold ra2_8k_pack, ra2_8k_octets. apply map_ext. now intros []. Qed.
Lemma pack16_spec n : forall b, length b = 2 * n -> ra2_16k_pack n b = Some (ra2_16k_octets b).
Proof.
  induction n as [|n IH]; intros b L.
  - destruct b; [reflexivity|discriminate].
  - destruct b as [|x [|y r]]; try (cbn in L; lia). cbn [ra2_16k_pack ra2_16k_octets]. rewrite IH by (cbn in L; lia).
    now destruct x, y.
Qed.
Lemma oct16_app n : forall a b, length a = 2 * n -> ra2_16k_octets (a ++ b) = ra2_16k_octets a ++ ra2_16k_octets b.
Proof.
  induction n as [|n IH]; intros a b L.
  - destruct a; [reflexivity|discriminate].
  - destruct a as [|x [|y r]]; try (cbn in L; lia). cbn [app ra2_16k_octets]. f_equal. apply IH. cbn in L. lia.
Qed.
Lemma oct16_length n : forall a, length a = 2 * n -> length (ra2_16k_octets a) = n.
Proof.
  induction n as [|n IH]; intros a L.
  - destruct a; [reflexivity|discriminate].
  - destruct a as [|x [|y r]]; try (cbn in L; lia). cbn [ra2_16k_octets length]. f_equal. apply IH. cbn in L. lia.
Qed.
Lemma oct16_octets n : forall a, length a = 2 * n -> Forall is_octet (ra2_16k_octets a).
Proof.
  induction n as [|n IH]; intros a L.
  - destruct a; [constructor|discriminate].
  - destruct a as [|x [|y r]]; try (cbn in L; lia). cbn [ra2_16k_octets]. constructor; [destruct x, y; split; discriminate|apply IH; cbn in L; lia].
Qed.
Lemma oct16_unpack n : forall a, length a = 2 * n -> ra2_16k_unpack (ra2_16k_octets a) = a.
Proof. intros a L. eapply ra2_16k_roundtrip; [exact L|now apply pack16_spec]. Qed.
Lemma oct8_length a : length (ra2_8k_octets a) = length a.
Proof. apply map_length. Qed.
Lemma oct8_octets a : Forall is_octet (ra2_8k_octets a).
Proof. apply Forall_map, Forall_forall. intros [] _; split; discriminate. Qed.
Lemma oct8_unpack a : ra2_8k_unpack (ra2_8k_octets a) = a.
Proof. rewrite <- pack8_spec. apply ra2_8k_roundtrip. Qed.

Lemma blit_next (p out x : bits) n : length p = n -> n + length x <= length out ->
  blit (p ++ skipn n out) n x = Some ((p ++ x) ++ skipn (n + length x) out).
Proof.
  intros <- H. rewrite <- (firstn_skipn (length x) (skipn (length p) out)) at 1.
  rewrite blit_mid by (rewrite firstn_length, skipn_length; lia). rewrite skipn_skipn', app_assoc. reflexivity.
Qed.

Lemma d63_length fr k : tf_wf fr -> k < 4 -> length (d63 fr k) = 63.
Proof. intros (_ & Hd & _) H. unfold d63. rewrite firstn_length, skipn_length. lia. Qed.
Lemma fr80 fr k : tf_wf fr -> k < 4 -> length (v110_frame (d63 fr k)) = 80.
Proof. intros. apply v110_frame_length. now apply d63_length. Qed.

(** two 8k frames *)
Lemma ir8_step p out ob fr k : tf_wf fr -> k < 4 -> length p = 8 * ob -> 8 * ob + 640 <= length out ->
  trau2v110_ir8 (p ++ skipn (8 * ob) out) ob (tf_d fr) (63 * k) =
  Some ((p ++ bits_of_octets (ra2_8k_octets (v110_frame (d63 fr k)))) ++ skipn (8 * (ob + 80)) out).
Proof.
  intros W K L H. pose proof W as (_ & Hd & _). unfold trau2v110_ir8. rewrite v110_bits_ok by lia. fold (d63 fr k).
  rewrite pack8_spec. assert (LB : length (bits_of_octets (ra2_8k_octets (v110_frame (d63 fr k)))) = 640)
    by (rewrite boo_length, oct8_length, fr80 by assumption; reflexivity).
  rewrite blit_next; [|exact L|rewrite LB; lia]. rewrite LB. do 3 f_equal. lia.
Qed.
Lemma ir16_step p out ob fr k : tf_wf fr -> k < 4 -> length p = 8 * ob -> 8 * ob + 320 <= length out ->
  trau2v110_ir16 (p ++ skipn (8 * ob) out) ob (tf_d fr) (63 * k) =
  Some ((p ++ bits_of_octets (ra2_16k_octets (v110_frame (d63 fr k)))) ++ skipn (8 * (ob + 40)) out).
Proof.
  intros W K L H. pose proof W as (_ & Hd & _). unfold trau2v110_ir16. rewrite v110_bits_ok by lia. fold (d63 fr k).
  rewrite pack16_spec by now rewrite fr80.
  assert (LB : length (bits_of_octets (ra2_16k_octets (v110_frame (d63 fr k)))) = 320)
    by (rewrite boo_length, (oct16_length 40) by (now rewrite fr80); reflexivity).
  rewrite blit_next; [|exact L|rewrite LB; lia]. rewrite LB. do 3 f_equal. lia.
Qed.
Lemma boo8_len fr k : tf_wf fr -> k < 4 -> length (bits_of_octets (ra2_8k_octets (v110_frame (d63 fr k)))) = 640.
Proof. intros. rewrite boo_length, oct8_length, fr80 by assumption. reflexivity. Qed.
Lemma boo16_len fr k : tf_wf fr -> k < 4 -> length (bits_of_octets (ra2_16k_octets (v110_frame (d63 fr k)))) = 320.
Proof. intros. rewrite boo_length, (oct16_length 40) by (now rewrite fr80). reflexivity. Qed.

Lemma two8 out fr k1 k2 : tf_wf fr -> k1 < 4 -> k2 < 4 -> Forall is_octet out -> 160 <= length out ->
  (do out <- trau2v110_ir8 (bits_of_octets out) 0 (tf_d fr) (63 * k1); trau2v110_ir8 out 80 (tf_d fr) (63 * k2))
  = Some (bits_of_octets (csd_octets false [d63 fr k1; d63 fr k2] ++ skipn 160 out)).
Proof.
  intros W K1 K2 F L. assert (LO : 1280 <= length (bits_of_octets out)) by (rewrite boo_length; lia).
  pose proof (ir8_step [] (bits_of_octets out) 0 fr k1 W K1 eq_refl) as S1.
  change ([] ++ skipn (8 * 0) (bits_of_octets out)) with (bits_of_octets out) in S1. rewrite S1 by lia. cbn [app].
  rewrite (ir8_step _ _ 80) by (try assumption; rewrite ?boo8_len by assumption; lia).
  unfold csd_octets, ra2_8k_octets. cbn [map concat]. rewrite app_nil_r, map_app, !boo_app.
  rewrite boo_skipn. reflexivity.
Qed.
Lemma four16 out fr : tf_wf fr -> Forall is_octet out -> 160 <= length out ->
  (do out <- trau2v110_ir16 (bits_of_octets out) 0 (tf_d fr) 0;
   do out <- trau2v110_ir16 out 40 (tf_d fr) 63;
   do out <- trau2v110_ir16 out 80 (tf_d fr) (63 * 2);
   trau2v110_ir16 out 120 (tf_d fr) (63 * 3))
  = Some (bits_of_octets (csd_octets true [d63 fr 0; d63 fr 1; d63 fr 2; d63 fr 3] ++ skipn 160 out)).
Proof.
  intros W F L. assert (LO : 1280 <= length (bits_of_octets out)) by (rewrite boo_length; lia).
  pose proof (ir16_step [] (bits_of_octets out) 0 fr 0 W ltac:(lia) eq_refl) as S1.
  change ([] ++ skipn (8 * 0) (bits_of_octets out)) with (bits_of_octets out) in S1. change (63 * 0) with 0 in S1.
  rewrite S1 by lia. cbn [app]. change 63 with (63 * 1) at 1.
  rewrite (ir16_step _ _ 40) by (try assumption; rewrite ?boo16_len by (assumption || lia); lia).
  rewrite (ir16_step _ _ 80) by (try assumption; rewrite ?app_length, ?boo16_len by (assumption || lia); lia).
  rewrite (ir16_step _ _ 120) by (try assumption; rewrite ?app_length, ?boo16_len by (assumption || lia); lia).
  unfold csd_octets. cbn [map concat]. rewrite app_nil_r.
  rewrite !(oct16_app 40) by (rewrite fr80; [reflexivity|exact W|lia]).
  rewrite !boo_app, boo_skipn. rewrite <- !app_assoc. reflexivity.
Qed.

Lemma csd_octets_length fr : tf_wf fr -> tf_type fr <> T16_EDATA ->
  length (csd_octets (rate16 fr) (csd_data fr)) = 160 /\ Forall is_octet (csd_octets (rate16 fr) (csd_data fr)).
Proof.
  intros W N. assert (E : csd_data fr = map (d63 fr) (groups fr)) by (unfold csd_data; destruct (tf_type fr); congruence).
  rewrite E. unfold rate16, groups, csd_octets.
  assert (A : forall k1 k2, k1 < 4 -> k2 < 4 -> length (ra2_8k_octets (concat (map v110_frame (map (d63 fr) [k1; k2])))) = 160
     /\ Forall is_octet (ra2_8k_octets (concat (map v110_frame (map (d63 fr) [k1; k2]))))).
  { intros. split; [|apply oct8_octets]. rewrite oct8_length. cbn [map concat]. rewrite !app_length, !fr80 by assumption. reflexivity. }
  assert (B : length (concat (map v110_frame (map (d63 fr) [0; 1; 2; 3]))) = 320).
  { cbn [map concat]. rewrite !app_length, !fr80 by (assumption || lia). reflexivity. }
  destruct (tf_type fr); try (apply A; lia).
  destruct (ir16 fr); [|apply A; lia].
  split; [now apply oct16_length|now apply (oct16_octets 160)].
Qed.

(** the A-TRAU payload of an EDATA frame *)
Lemma edata_payload fr : tf_wf fr -> exists o, length o = 160 /\ Forall is_octet o /\
  to_atrau_ra2 (repeat false 320) (tf_m fr) (tf_d fr) true (ir16 fr) = Some o /\
  forall d0, length d0 = 288 -> from_atrau_ra2 d0 o = Some (inr (nth 0 (tf_m fr) false, nth 1 (tf_m fr) false, tf_d fr, true, ir16 fr)).
Proof.
  intros (_ & Hd & _ & _ & Hm & _). destruct (tf_m fr) as [|m0 [|m1 [|]]]; try discriminate Hm. cbn [nth].
  destruct (C02_atrau_ra2_roundtrip (repeat false 320) m0 m1 (tf_d fr) true (ir16 fr) (repeat false 288) eq_refl Hd eq_refl) as (o & E & Lo & R).
  exists o. split; [exact Lo|]. split.
  - unfold to_atrau_ra2 in E. destruct (to_atrau_bits _ _ _ _ _) as [b|]; [|discriminate].
    apply ra2_16k_fill in E. eapply Forall_impl; [|exact E]. intros a [H _]. exact H.
  - split; [exact E|]. intros d0 H0.
    destruct (C02_atrau_ra2_roundtrip (repeat false 320) m0 m1 (tf_d fr) true (ir16 fr) d0 eq_refl Hd H0) as (o' & E' & _ & R').
    rewrite E in E'. injection E' as <-. exact R'.
Qed.

(** TRAU -> RTP *)
Lemma csd_out cd fr st out out_len : tf_wf fr -> csd_type (tf_type fr) -> tf_type fr <> T16_EDATA -> buffer out out_len 160 ->
  osmo_trau2rtp cd out out_len fr st = Some (160%Z, csd_octets (rate16 fr) (csd_data fr) ++ skipn 160 out).
Proof.
  intros W CT N (F & H1 & H2). destruct (csd_octets_length fr W N) as [LO FO].
  assert (K : forall x, Some (160%Z, octets_of_bits (bits_of_octets (x ++ skipn 160 out))) = Some (160%Z, x ++ skipn 160 out)
      \/ ~ Forall is_octet x).
  { intros x. destruct (Forall_dec is_octet (fun z => ltac:(unfold is_octet; destruct (Z_le_dec 0 z), (Z_le_dec z 255); [left|right|right|right]; lia)) x) as [Fx|]; [left|now right].
    rewrite octets_of_bits_of; [reflexivity|]. apply Forall_app. split; [exact Fx|].
    rewrite <- (firstn_skipn 160 out) in F. apply Forall_app in F. apply F. }
  pose proof W as (Hc & _). unfold osmo_trau2rtp, trau2rtp_bits.
  unfold csd_data, rate16, groups, ir16 in *.
  destruct CT as [T|[T|[T|T]]]; rewrite T in *; [| | |congruence].
  - unfold trau2rtp_data_fr. rewrite T. destruct (Nat.ltb_spec out_len 160); [lia|].
    rewrite get_nth by (rewrite Hc; lia). destruct (nth 5 (tf_c fr) false).
    + rewrite four16 by (try assumption; lia). cbn [map] in *.
      destruct (K (csd_octets true [d63 fr 0; d63 fr 1; d63 fr 2; d63 fr 3])) as [E|E]; [exact E|contradiction].
    + pose proof (two8 out fr 0 2 W ltac:(lia) ltac:(lia) F ltac:(lia)) as E0. change (63 * 0) with 0 in E0. rewrite E0. clear E0. cbn [map] in *.
      destruct (K (csd_octets false [d63 fr 0; d63 fr 2])) as [E|E]; [exact E|contradiction].
  - unfold trau2rtp_data_hr16. rewrite T. destruct (Nat.ltb_spec out_len 160); [lia|].
    pose proof (two8 out fr 0 1 W ltac:(lia) ltac:(lia) F ltac:(lia)) as E.
    change (63 * 0) with 0 in E. change (63 * 1) with 63 in E. cbn [map] in *.
    destruct (trau2v110_ir8 _ 0 _ 0) as [o1|]; [|discriminate E]. rewrite E.
    destruct (K (csd_octets false [d63 fr 0; d63 fr 1])) as [E'|E']; [exact E'|contradiction].
  - unfold trau2rtp_data_hr8. rewrite T. destruct (Nat.ltb_spec out_len 160); [lia|].
    pose proof (two8 out fr 0 1 W ltac:(lia) ltac:(lia) F ltac:(lia)) as E.
    change (63 * 0) with 0 in E. change (63 * 1) with 63 in E. cbn [map] in *.
    destruct (trau2v110_ir8 _ 0 _ 0) as [o1|]; [|discriminate E]. rewrite E.
    destruct (K (csd_octets false [d63 fr 0; d63 fr 1])) as [E'|E']; [exact E'|contradiction].
Qed.
Lemma edata_out cd fr st out out_len o : tf_wf fr -> tf_type fr = T16_EDATA -> buffer out out_len 160 ->
  to_atrau_ra2 (repeat false 320) (tf_m fr) (tf_d fr) true (ir16 fr) = Some o -> length o = 160 -> Forall is_octet o ->
  osmo_trau2rtp cd out out_len fr st = Some (160%Z, o ++ skipn 160 out).
Proof.
  intros W T (F & H1 & H2) E L FO. pose proof W as (Hc & _). unfold osmo_trau2rtp, trau2rtp_bits, trau2rtp_edata. rewrite T.
  destruct (Nat.ltb_spec out_len 160); [lia|]. rewrite get_nth by (rewrite Hc; lia). fold (ir16 fr). rewrite E.
  rewrite blit_splice by (rewrite !boo_length; lia). unfold splice. change (firstn 0 _) with (@nil bool). cbn [app].
  rewrite boo_length, L, Nat.add_0_l, boo_skipn, <- boo_app. rewrite octets_of_bits_of; [reflexivity|].
  apply Forall_app. split; [exact FO|]. rewrite <- (firstn_skipn 160 out) in F. apply Forall_app in F. apply F.
Qed.

(** RTP -> TRAU *)
Definition rate_rx (st : rtp_state) : bool := match st_type st with T16_DATA => st_ir16k st | _ => false end.
(** the received bits, and the V.110 frames in them *)
Definition rx_bits (st : rtp_state) (rtp : list Z) : bits :=
  if rate_rx st then flat_map (fun o => [Z.testbit o 7; Z.testbit o 6]) rtp else map (fun o => Z.testbit o 7) rtp.
Definition rx_frame (st : rtp_state) (rtp : list Z) (k : nat) : bits := firstn 80 (skipn (80 * k) (rx_bits st rtp)).
Definition n_frames (st : rtp_state) : nat := if rate_rx st then 4 else 2.
(** well-formed data payload: 160 octets, all V.110 frames aligned *)
Definition v110_rtp (st : rtp_state) (rtp : list Z) : Prop :=
  length rtp = 160 /\ forall k, k < n_frames st -> is_v110 (rx_frame st rtp k).
Definition idle_data (fr : tframe) : Prop := Forall (fun g => Forall (eq true) g) (csd_data fr).

Lemma odd_shift z k : (0 <= k)%Z -> Z.odd (Z.shiftr z k) = Z.testbit z k.
Proof. intros H. rewrite <- Z.bit0_odd, Z.shiftr_spec by lia. reflexivity. Qed.
Lemma rx_unpack st rtp : rx_bits st rtp = if rate_rx st then ra2_16k_unpack rtp else ra2_8k_unpack rtp.
Proof.
  unfold rx_bits, ra2_16k_unpack, ra2_8k_unpack. destruct (rate_rx st).
  - apply flat_map_ext. intros a. now rewrite !odd_shift by lia.
  - apply map_ext. intros a. now rewrite odd_shift by lia.
Qed.
Lemma rx_length st rtp : length rtp = 160 -> length (rx_bits st rtp) = 80 * n_frames st.
Proof.
  intros L. rewrite rx_unpack. unfold n_frames. destruct (rate_rx st); [rewrite ra2_16k_unpack_length|rewrite ra2_8k_unpack_length]; rewrite L; reflexivity.
Qed.
Lemma rx_frame_length st rtp k : length rtp = 160 -> k < n_frames st -> length (rx_frame st rtp k) = 80.
Proof. intros L H. unfold rx_frame. rewrite firstn_length, skipn_length, rx_length by assumption. lia. Qed.
Lemma v110_rtp_dec st rtp : 
  (length rtp =? 160) && frames_ok (n_frames st) (rx_bits st rtp) = true <-> v110_rtp st rtp.
Proof.
  unfold v110_rtp, frames_ok. rewrite andb_true_iff, Nat.eqb_eq, forallb_forall. split.
  - intros (L & H). split; [exact L|]. intros k K. apply aligned_spec; [now apply rx_frame_length|].
    apply H, in_seq. lia.
  - intros (L & H). split; [exact L|]. intros k K. apply in_seq in K. apply aligned_spec; [apply rx_frame_length; [exact L|lia]|apply H; lia].
Qed.

Lemma c_step1 (c x : bits) : length c = 25 -> length x = 5 -> blit c 0 x = Some (x ++ skipn 5 c).
Proof. intros H H'. sym_buf c H. sym_buf x H'. vmr. Qed.
Lemma c_step2 (c x : bits) v : length c = 25 -> length x = 5 -> put (x ++ skipn 5 c) 5 v = Some (x ++ v :: skipn 6 c).
Proof. intros H H'. sym_buf c H. sym_buf x H'. vmr. Qed.
Lemma c_step3 (c x : bits) v : length c = 25 -> length x = 5 -> memset (x ++ v :: skipn 6 c) 6 true 9 = Some (x ++ v :: repeat true 9 ++ skipn 15 c).
Proof. intros H H'. sym_buf c H. sym_buf x H'. vmr. Qed.

Lemma cat63 (a b r : bits) : length a = 63 -> length b = 63 ->
  firstn 63 (skipn (63 * 0) (a ++ b ++ r)) = a /\ firstn 63 (skipn (63 * 1) (a ++ b ++ r)) = b.
Proof.
  intros A B. split; [now apply firstn_app_exact|]. change (63 * 1) with 63.
  rewrite skipn_app_exact by assumption. now apply firstn_app_exact.
Qed.
Lemma cat63_4 (a b c d r : bits) : length a = 63 -> length b = 63 -> length c = 63 -> length d = 63 ->
  map (fun k => firstn 63 (skipn (63 * k) (a ++ b ++ c ++ d ++ r))) [0; 1; 2; 3] = [a; b; c; d].
Proof.
  intros A B C D. cbn [map]. destruct (cat63 a b (c ++ d ++ r) A B) as [-> ->]. f_equal. f_equal.
  replace (63 * 2) with (63 + (63 + 63 * 0)) by reflexivity. replace (63 * 3) with (63 + (63 + 63 * 1)) by reflexivity.
  rewrite <- !skipn_skipn'. rewrite !(skipn_app_exact a), !(skipn_app_exact b) by assumption.
  destruct (cat63 c d r C D) as [-> ->]. reflexivity.
Qed.

Lemma cat63_02 (a t b t' r : bits) : length a = 63 -> length t = 63 -> length b = 63 -> length t' = 63 ->
  map (fun k => firstn 63 (skipn (63 * k) (a ++ t ++ b ++ t' ++ r))) [0; 2] = [a; b].
Proof.
  intros La Lt Lb Lt'. pose proof (cat63_4 a t b t' r La Lt Lb Lt') as Q. cbn [map] in Q |- *.
  pose proof (f_equal (fun l => nth 0 l []) Q) as Q0. pose proof (f_equal (fun l => nth 2 l []) Q) as Q2.
  cbn [nth] in Q0, Q2. now rewrite Q0, Q2.
Qed.
Lemma csd_in cd fr st rtp : tf_wf fr -> csd_type (st_type st) -> st_type st <> T16_EDATA ->
  exists fr', osmo_rtp2trau cd fr rtp st = Some (0%Z, fr') /\ tf_wf fr' /\ tf_type fr' = st_type st /\ tf_dir fr' = tf_dir fr /\
    rate16 fr' = rate_rx st /\
    csd_data fr' = if (length rtp =? 160) && frames_ok (n_frames st) (rx_bits st rtp)
                   then map (fun k => v110_payload (rx_frame st rtp k)) (seq 0 (n_frames st))
                   else repeat (repeat true 63) (n_frames st).
Proof.
  intros W CT N. pose proof W as (Hc & Hd & Ht & Hs & Hm & Hcr & Hx).
  assert (LP : forall k, k < n_frames st -> length rtp = 160 -> length (v110_payload (rx_frame st rtp k)) = 63)
    by (intros; apply v110_payload_length; now apply rx_frame_length).
  assert (WF : forall c d t, length c = 25 -> length d = 288 -> tf_wf (set_d (set_c (set_type fr t) c) d)) by (intros; repeat split; assumption).
  unfold osmo_rtp2trau. unfold n_frames, rate_rx in *.
  assert (UNP : rx_bits st rtp = if rate_rx st then ra2_16k_unpack rtp else ra2_8k_unpack rtp) by apply rx_unpack.
  unfold rate_rx in UNP. unfold rx_frame in *.
  assert (LX : forall b : bool, length (if b then [false; true; false; false; false] else [true; false; true; true; false]) = 5) by now intros [].
  assert (IR8 : forall fr', rate16 fr' = false -> rate16 fr' = false) by auto.
  (* the two 8k forms at offset 63 *)
  assert (K8 : st_type st <> T16_DATA -> forall c t, length c = 25 -> t <> T16_DATA -> t <> T16_EDATA ->
     exists d, rtp2trau_data_ir8 (tf_d fr) rtp 63 = Some d /\ length d = 288 /\
     csd_data (set_d (set_c (set_type fr t) c) d) =
       if (length rtp =? 160) && frames_ok 2 (ra2_8k_unpack rtp)
       then map (fun k => v110_payload (f80 (ra2_8k_unpack rtp) k)) (seq 0 2) else repeat (repeat true 63) 2).
  { intros NT c t Lc Nt Nt'. rewrite ir8_63 by assumption. eexists. split; [reflexivity|].
    assert (E : forall d, csd_data (set_d (set_c (set_type fr t) c) d) = [firstn 63 (skipn (63 * 0) d); firstn 63 (skipn (63 * 1) d)])
      by (intros d; unfold csd_data, groups, d63; cbn [set_d set_c set_type tf_type tf_d]; destruct t; try congruence; reflexivity).
    rewrite E. destruct (Nat.eqb_spec (length rtp) 160) as [L|L]; cbn [andb].
    - destruct (frames_ok 2 _).
      + assert (L0 : forall k, k < 2 -> length (v110_payload (f80 (ra2_8k_unpack rtp) k)) = 63).
        { intros k Hk. apply v110_payload_length. unfold f80. rewrite firstn_length, skipn_length, ra2_8k_unpack_length. lia. }
        split; [rewrite !app_length, skipn_length, !L0 by lia; lia|].
        destruct (cat63 _ _ (skipn 126 (tf_d fr)) (L0 0 ltac:(lia)) (L0 1 ltac:(lia))) as [-> ->]. reflexivity.
      + change (repeat true 126) with (repeat true 63 ++ repeat true 63). rewrite <- app_assoc.
        split; [rewrite !app_length, skipn_length, !repeat_length; lia|].
        destruct (cat63 (repeat true 63) (repeat true 63) (skipn 126 (tf_d fr)) eq_refl eq_refl) as [-> ->]. reflexivity.
    - change (repeat true 126) with (repeat true 63 ++ repeat true 63). rewrite <- app_assoc.
      split; [rewrite !app_length, skipn_length, !repeat_length; lia|].
      destruct (cat63 (repeat true 63) (repeat true 63) (skipn 126 (tf_d fr)) eq_refl eq_refl) as [-> ->]. reflexivity. }
  destruct CT as [T|[T|[T|T]]]; rewrite T in *; [| | |congruence].
  - (* DATA *)
    unfold rtp2trau_data_fr. cbn [set_type tf_c tf_dir tf_d].
    set (x := match tf_dir fr with UL => _ | DL => _ end). assert (Lx : length x = 5) by (unfold x; now destruct (tf_dir fr)).
    rewrite c_step1, c_step2 by assumption.
    set (c' := x ++ st_ir16k st :: repeat true 9 ++ skipn 15 (tf_c fr)).
    assert (Lc : length c' = 25) by (unfold c'; rewrite app_length; cbn [length]; rewrite app_length, skipn_length, repeat_length; lia).
    assert (N5 : nth 5 c' false = st_ir16k st) by (unfold c'; rewrite app_nth2 by lia; rewrite Lx; reflexivity).
    assert (FIN : forall d D, length d = 288 ->
      csd_data (set_d (set_c (set_type fr T16_DATA) c') d) = D ->
      exists fr', (do c <- memset (x ++ st_ir16k st :: skipn 6 (tf_c fr)) 6 true 9; Some (0%Z, set_d (set_c (set_type fr T16_DATA) c) d)) = Some (0%Z, fr')
      /\ tf_wf fr' /\ tf_type fr' = T16_DATA /\ tf_dir fr' = tf_dir fr /\ rate16 fr' = st_ir16k st /\ csd_data fr' = D).
    { intros d D Ld E. rewrite c_step3 by assumption. fold c'. eexists. split; [reflexivity|].
      split; [now apply WF|]. split; [reflexivity|]. split; [reflexivity|].
      split; [unfold rate16, ir16; cbn [set_d set_c set_type tf_type tf_c]; exact N5|exact E]. }
    assert (CD : forall d, csd_data (set_d (set_c (set_type fr T16_DATA) c') d) =
      map (fun k => firstn 63 (skipn (63 * k) d)) (if st_ir16k st then [0;1;2;3] else [0;2])).
    { intros d. unfold csd_data, groups, ir16, d63. cbn [set_d set_c set_type tf_type tf_c tf_d]. rewrite N5. reflexivity. }
    destruct (st_ir16k st); cbv beta iota in LP, UNP.
    + rewrite ir16_ok by assumption. rewrite UNP. apply FIN; [|rewrite CD].
      * destruct (Nat.eqb_spec (length rtp) 160) as [L|L]; cbn [andb].
        -- destruct (frames_ok 4 _); [|rewrite app_length, skipn_length, repeat_length; lia].
           rewrite !app_length, skipn_length. unfold f80. rewrite <- UNP. rewrite !LP by (try assumption; lia).
           lia.
        -- rewrite app_length, skipn_length, repeat_length; lia.
      * assert (ID : map (fun k => firstn 63 (skipn (63 * k) (repeat true 252 ++ skipn 252 (tf_d fr)))) [0; 1; 2; 3] = repeat (repeat true 63) 4).
        { change (repeat true 252) with (repeat true 63 ++ repeat true 63 ++ repeat true 63 ++ repeat true 63). rewrite <- !app_assoc.
          now rewrite cat63_4 by reflexivity. }
        destruct (Nat.eqb_spec (length rtp) 160) as [L|L]; cbn [andb]; [|exact ID].
        destruct (frames_ok 4 _); [|exact ID]. rewrite <- !app_assoc.
        rewrite cat63_4 by (unfold f80; rewrite <- UNP; apply LP; [lia|exact L]). reflexivity.
    + rewrite ir8_126 by assumption. rewrite UNP. change (63 * 3) with 189.
      assert (D : forall a b, length a = 63 -> length b = 63 -> 
        (do d <- Some (a ++ firstn 63 (skipn 63 (tf_d fr)) ++ b ++ skipn 189 (tf_d fr)); do d <- memset d 63 true 63; memset d 189 true 63)
        = Some (a ++ repeat true 63 ++ b ++ repeat true 63 ++ skipn 252 (tf_d fr))).
      { intros a b La Lb. pose proof Hd as Hd'. revert Hd'. generalize (tf_d fr). intros d Ld.
        sym_buf d Ld. sym_buf a La. sym_buf b Lb. vmr. }
      assert (ID : forall a b r, length a = 63 -> length b = 63 ->
        map (fun k => firstn 63 (skipn (63 * k) (a ++ repeat true 63 ++ b ++ repeat true 63 ++ r))) [0; 2] = [a; b]).
      { intros a b r La Lb. now apply cat63_02. }
      assert (FIN2 : forall a b, length a = 63 -> length b = 63 -> forall D0, D0 = [a; b] -> exists fr',
        (do d <- (do d <- Some (a ++ firstn 63 (skipn 63 (tf_d fr)) ++ b ++ skipn 189 (tf_d fr)); do d <- memset d 63 true 63; memset d 189 true 63);
         do c <- memset (x ++ false :: skipn 6 (tf_c fr)) 6 true 9; Some (0%Z, set_d (set_c (set_type fr T16_DATA) c) d)) = Some (0%Z, fr')
        /\ tf_wf fr' /\ tf_type fr' = T16_DATA /\ tf_dir fr' = tf_dir fr /\ rate16 fr' = false /\ csd_data fr' = D0).
      { intros a b La Lb D0 ->. rewrite D by assumption. apply FIN; [|rewrite CD; now apply ID].
        rewrite !app_length, skipn_length, !repeat_length. lia. }
      destruct (Nat.eqb_spec (length rtp) 160) as [L|L]; cbn [andb]; [|apply FIN2; reflexivity].
      destruct (frames_ok 2 _); [|apply FIN2; reflexivity].
      apply FIN2; try reflexivity; unfold f80; rewrite <- UNP; apply LP; (lia || exact L).
  - (* DATA_HR *)
    unfold rtp2trau_data_hr16. cbn [set_type tf_c tf_dir tf_d].
    set (x := match tf_dir fr with UL => _ | DL => _ end). assert (Lx : length x = 5) by (unfold x; now destruct (tf_dir fr)).
    rewrite c_step1, c_step2 by assumption.
    set (c' := x ++ false :: repeat true 9 ++ skipn 15 (tf_c fr)).
    assert (Lc : length c' = 25) by (unfold c'; rewrite app_length; cbn [length]; rewrite app_length, skipn_length, repeat_length; lia).
    destruct (K8 ltac:(discriminate) c' T16_DATA_HR Lc ltac:(discriminate) ltac:(discriminate)) as (d & -> & Ld & E).
    rewrite c_step3 by assumption. fold c'. eexists. split; [reflexivity|].
    split; [now apply WF|]. split; [reflexivity|]. split; [reflexivity|]. split; [reflexivity|].
    rewrite UNP. unfold f80 in E. exact E.
  - (* T8_DATA *)
    unfold rtp2trau_data_hr8. cbn [set_type tf_c tf_dir tf_d].
    rewrite c_step1 by (try assumption; reflexivity).
    set (c' := _ ++ skipn 5 (tf_c fr)).
    assert (Lc : length c' = 25) by (unfold c'; rewrite app_length, skipn_length, Hc; reflexivity).
    destruct (K8 ltac:(discriminate) c' T8_DATA Lc ltac:(discriminate) ltac:(discriminate)) as (d & -> & Ld & E).
    eexists. split; [reflexivity|].
    split; [now apply WF|]. split; [reflexivity|]. split; [reflexivity|]. split; [reflexivity|].
    rewrite UNP. unfold f80 in E. exact E.
Qed.

(** EDATA, RTP -> TRAU *)
Lemma memset13 c : length c = 25 -> (do c <- memset c 0 true 13; put c 5 false) = Some (repeat true 5 ++ false :: repeat true 7 ++ skipn 13 c).
Proof. intros H. sym_buf c H. vmr. Qed.
Lemma put6 c v : length c = 25 -> put (repeat true 5 ++ false :: repeat true 7 ++ skipn 13 c) 6 v
  = Some (repeat true 5 ++ false :: v :: repeat true 6 ++ skipn 13 c).
Proof. intros H. sym_buf c H. vmr. Qed.
Definition edata_frame (fr : tframe) (v : bool) (m d : bits) : tframe :=
  set_m (set_d (set_c (set_type fr T16_EDATA) (repeat true 5 ++ false :: v :: repeat true 6 ++ skipn 13 (tf_c fr))) d) m.
Lemma edata_in cd fr st rtp : tf_wf fr -> st_type st = T16_EDATA -> length rtp = 160 ->
  osmo_rtp2trau cd fr rtp st = 
  do r <- from_atrau_ra2 (tf_d fr) rtp;
  match r with
  | inl _ => Some (0%Z, edata_frame fr true (repeat true 2) (repeat true 288))
  | inr (m0, m1, d, c4, _) => Some (0%Z, edata_frame fr (negb c4) [m0; m1] d)
  end.
Proof.
  intros W T L. pose proof W as (Hc & Hd & Ht & Hs & Hm & Hcr & Hx).
  unfold osmo_rtp2trau, rtp2trau_edata. rewrite T. cbn [set_type tf_c tf_d tf_m].
  pose proof (memset13 (tf_c fr) Hc) as M. destruct (memset (tf_c fr) 0 true 13) as [c1|]; [|discriminate M]. rewrite M. clear M c1.
  rewrite L. cbn [Nat.eqb]. unfold memset. rewrite !blit_splice by (rewrite ?repeat_length; cbn [length]; lia).
  rewrite !splice_full by (rewrite ?repeat_length; cbn [length]; lia).
  destruct (from_atrau_ra2 (tf_d fr) rtp) as [[rc|((((m0, m1), d), c4), c5)]|]; [| |reflexivity].
  - rewrite put6 by assumption. reflexivity.
  - rewrite !blit_splice by (cbn [length]; lia). rewrite !splice_full by (cbn [length]; lia). rewrite put6 by assumption. reflexivity.
Qed.
Lemma edata_short cd fr st rtp : tf_wf fr -> st_type st = T16_EDATA -> length rtp <> 160 ->
  osmo_rtp2trau cd fr rtp st = Some (0%Z, edata_frame fr true (repeat true 2) (repeat true 288)).
Proof.
  intros W T L. pose proof W as (Hc & Hd & Ht & Hs & Hm & Hcr & Hx).
  unfold osmo_rtp2trau, rtp2trau_edata. rewrite T. cbn [set_type tf_c tf_d tf_m].
  pose proof (memset13 (tf_c fr) Hc) as M. destruct (memset (tf_c fr) 0 true 13) as [c1|]; [|discriminate M]. rewrite M. clear M c1.
  destruct (Nat.eqb_spec (length rtp) 160); [contradiction|].
  unfold memset. rewrite !blit_splice by (rewrite ?repeat_length; cbn [length]; lia).
  rewrite !splice_full by (rewrite ?repeat_length; cbn [length]; lia). rewrite put6 by assumption. reflexivity.
Qed.
Lemma edata_frame_wf fr v m d : tf_wf fr -> length m = 2 -> length d = 288 -> tf_wf (edata_frame fr v m d).
Proof.
  intros (Hc & Hd & Ht & Hs & Hm & Hcr & Hx) Lm Ld. repeat split; try assumption.
  cbn [edata_frame set_m set_d set_c set_type tf_c]. rewrite app_length. cbn [length]. rewrite app_length, skipn_length, Hc. reflexivity.
Qed.

Lemma v110_frame_payload f : is_v110 f -> v110_frame (v110_payload f) = f.
Proof.
  intros (L & Z & O).
  assert (F : forall i, i < 80 -> nth i f false = if (i <? 8) then false else if i mod 8 =? 0 then true else nth i f false).
  { intros i Hi. destruct (Nat.ltb_spec i 8); [specialize (Z i H); now apply nth_error_nth|].
    destruct (Nat.eqb_spec (i mod 8) 0) as [M|M]; [|reflexivity].
    assert (E : i = 8 * (i / 8)) by (rewrite (Nat.div_mod i 8) at 1 by lia; lia).
    rewrite E. specialize (O (i / 8) ltac:(lia)). now apply nth_error_nth. }
  assert (E : f = vec 80 (fun i => if (i <? 8) then false else if i mod 8 =? 0 then true else nth i f false)).
  { rewrite (vec_of_list f _ L) at 1. apply map_ext_in. intros a Ha. apply in_seq in Ha. apply F. lia. }
  rewrite E. clear E F. generalize (fun i => nth i f false). intros g. vmr.
Qed.

Lemma concat_frames n : forall (l : bits), length l = 80 * n -> l = concat (map (fun k => firstn 80 (skipn (80 * k) l)) (seq 0 n)).
Proof.
  induction n as [|n IH]; intros l L; [destruct l; [reflexivity|discriminate]|].
  cbn [seq map concat]. change (80 * 0) with 0. change (skipn 0 l) with l. rewrite <- (firstn_skipn 80 l) at 1. f_equal.
  rewrite (IH (skipn 80 l)) at 1 by (rewrite skipn_length; lia). rewrite <- seq_shift, map_map. f_equal.
  apply map_ext. intros k. rewrite skipn_skipn'. do 2 f_equal. lia.
Qed.
Lemma frame_nth (fs : list bits) : Forall (fun f => length f = 80) fs -> forall k, k < length fs ->
  firstn 80 (skipn (80 * k) (concat fs)) = nth k fs [].
Proof.
  induction 1 as [|f fs Lf F IH]; intros k Hk; [cbn in Hk; lia|].
  cbn [concat]. destruct k as [|k].
  - change (80 * 0) with 0. change (skipn 0 ?l) with l. now apply firstn_app_exact.
  - replace (80 * S k) with (80 + 80 * k) by lia. rewrite <- skipn_skipn', skipn_app_exact by assumption. apply IH. cbn in Hk. lia.
Qed.
Lemma csd_data_63 fr : tf_wf fr -> tf_type fr <> T16_EDATA -> Forall (fun x => length x = 63) (csd_data fr) /\
  length (csd_data fr) = if rate16 fr then 4 else 2.
Proof.
  intros W N. unfold csd_data, rate16, groups.
  assert (K : forall k, k < 4 -> length (d63 fr k) = 63) by (intros; now apply d63_length).
  destruct (tf_type fr); try congruence; try destruct (ir16 fr); cbn [map length]; (split; [repeat constructor; apply K; lia|reflexivity]).
Qed.

Lemma edata_dec t : t = T16_EDATA \/ t <> T16_EDATA.
Proof. destruct t; (now left) || (right; discriminate). Qed.

(** ** C26 *)
Theorem C26_trau_roundtrip : forall cd fr st out out_len fr0,
  tf_wf fr -> csd_type (tf_type fr) -> st_type st = tf_type fr -> (tf_type fr = T16_DATA -> st_ir16k st = ir16 fr) ->
  buffer out out_len 160 -> tf_wf fr0 ->
  exists rtp fr', osmo_trau2rtp cd out out_len fr st = Some (160%Z, rtp ++ skipn 160 out) /\
    length rtp = 160 /\ Forall is_octet rtp /\
    (tf_type fr <> T16_EDATA -> rtp = csd_octets (rate16 fr) (csd_data fr)) /\
    osmo_rtp2trau cd fr0 rtp st = Some (0%Z, fr') /\ tf_wf fr' /\ tf_type fr' = tf_type fr /\
    csd_data fr' = csd_data fr.
Proof.
  intros cd fr st out out_len fr0 W CT T IR B W0.
  destruct (edata_dec (tf_type fr)) as [DEC|DEC].
  all: [> rename DEC into E | rename DEC into N ].
  - destruct (edata_payload fr W) as (o & Lo & Fo & Eo & R). exists o, (edata_frame fr0 false (tf_m fr) (tf_d fr)).
    split; [now apply edata_out|]. split; [exact Lo|]. split; [exact Fo|]. split; [congruence|].
    pose proof W as (_ & Hd & _ & _ & Hm & _).
    split. { rewrite edata_in, R by (try assumption; try congruence; apply W0). cbn [negb].
      destruct (tf_m fr) as [|m0 [|m1 [|]]]; try discriminate Hm. reflexivity. }
    split; [now apply edata_frame_wf|]. split; [now rewrite E|].
    unfold csd_data. rewrite E. reflexivity.
  - destruct (csd_octets_length fr W N) as [LO FO]. exists (csd_octets (rate16 fr) (csd_data fr)).
    destruct (csd_in cd fr0 st (csd_octets (rate16 fr) (csd_data fr)) W0) as (fr' & E & W' & T' & D' & R' & CD); [congruence|congruence|].
    exists fr'. split; [now apply csd_out|]. split; [exact LO|]. split; [exact FO|]. split; [auto|].
    split; [exact E|]. split; [exact W'|]. split; [congruence|]. rewrite CD. clear CD.
    destruct (csd_data_63 fr W N) as [F63 L63].
    assert (RR : rate_rx st = rate16 fr). { unfold rate_rx, rate16. rewrite T. destruct (tf_type fr) eqn:K; try reflexivity. now apply IR. }
    assert (F80 : Forall (fun f => length f = 80) (map v110_frame (csd_data fr))).
    { apply Forall_map. eapply Forall_impl; [|exact F63]. intros x. apply v110_frame_length. }
    assert (LC : forall fs, Forall (fun f : bits => length f = 80) fs -> length (concat fs) = 80 * length fs).
    { clear. induction 1 as [|f fs Lf F IH]; [reflexivity|]. cbn [concat length]. rewrite app_length, IH, Lf. lia. }
    assert (RX : rx_bits st (csd_octets (rate16 fr) (csd_data fr)) = concat (map v110_frame (csd_data fr))).
    { rewrite rx_unpack, RR. unfold csd_octets. destruct (rate16 fr); [|apply oct8_unpack].
      apply (oct16_unpack 160). rewrite LC by assumption. rewrite map_length, L63. reflexivity. }
    unfold n_frames. rewrite RR. rewrite LO. cbn [Nat.eqb andb].
    assert (OK : frames_ok (if rate16 fr then 4 else 2) (rx_bits st (csd_octets (rate16 fr) (csd_data fr))) = true).
    { unfold frames_ok. apply forallb_forall. intros k Hk. apply in_seq in Hk. rewrite RX. unfold f80.
      rewrite frame_nth by (try assumption; rewrite map_length; lia).
      rewrite (nth_indep _ [] (v110_frame [])) by (rewrite map_length; lia). rewrite map_nth. apply aligned_frame.
      rewrite Forall_forall in F63. apply F63, nth_In. lia. }
    rewrite OK. rewrite <- L63. unfold rx_frame. rewrite RX.
    transitivity (map (fun k => nth k (csd_data fr) []) (seq 0 (length (csd_data fr)))).
    + apply map_ext_in. intros k Hk. apply in_seq in Hk. rewrite frame_nth by (try assumption; rewrite map_length; lia).
      rewrite (nth_indep _ [] (v110_frame [])) by (rewrite map_length; lia). rewrite map_nth. apply v110_payload_frame.
      rewrite Forall_forall in F63. apply F63, nth_In. lia.
    + clear. induction (csd_data fr) as [|x l IH]; [reflexivity|]. cbn [length seq map nth]. f_equal. rewrite <- IH at 2.
      rewrite <- seq_shift, map_map. reflexivity.
Qed.

(** the unused bits of each octet are ones, as RA2 requires *)
Definition ra2_filled (st : rtp_state) (rtp : list Z) : Prop :=
  Forall (fun o => is_octet o /\ if rate_rx st then Z.land o 63 = 63%Z else Z.land o 127 = 127%Z) rtp.
Lemma filled8 o : is_octet o -> Z.land o 127 = 127%Z -> (if Z.testbit o 7 then 255 else 127)%Z = o.
Proof.
  intros O H. destruct (octet_cases o O) as (b7 & b6 & b5 & b4 & b3 & b2 & b1 & b0 & EB & ->).
  destruct b7, b6, b5, b4, b3, b2, b1, b0; try (cbv in H; discriminate H); reflexivity.
Qed.
Lemma filled16 o : is_octet o -> Z.land o 63 = 63%Z ->
  (63 + (if Z.testbit o 7 then 128 else 0) + (if Z.testbit o 6 then 64 else 0))%Z = o.
Proof.
  intros O H. destruct (octet_cases o O) as (b7 & b6 & b5 & b4 & b3 & b2 & b1 & b0 & EB & ->).
  destruct b7, b6, b5, b4, b3, b2, b1, b0; try (cbv in H; discriminate H); reflexivity.
Qed.
Theorem C26_rtp_roundtrip : forall cd fr st rtp out out_len,
  tf_wf fr -> csd_type (st_type st) -> st_type st <> T16_EDATA ->
  v110_rtp st rtp -> ra2_filled st rtp -> buffer out out_len 160 ->
  exists fr', osmo_rtp2trau cd fr rtp st = Some (0%Z, fr') /\ tf_wf fr' /\
    osmo_trau2rtp cd out out_len fr' st = Some (160%Z, rtp ++ skipn 160 out).
Proof.
  intros cd fr st rtp out out_len W CT N V RF B. pose proof V as [LR VF].
  destruct (csd_in cd fr st rtp W CT N) as (fr' & E & W' & T' & D' & R' & CD).
  rewrite (proj2 (v110_rtp_dec st rtp) V) in CD.
  exists fr'. split; [exact E|]. split; [exact W'|].
  rewrite csd_out; [|exact W'|congruence|congruence|exact B]. do 3 f_equal. rewrite R', CD. unfold csd_octets. rewrite map_map.
  rewrite (map_ext_in _ (rx_frame st rtp)) by (intros k Hk; apply in_seq in Hk; apply v110_frame_payload, VF; lia).
  unfold rx_frame. rewrite <- concat_frames by now apply rx_length.
  clear -RF. unfold ra2_filled, rx_bits in *. destruct (rate_rx st).
  - induction RF as [|o r [O H] F IH]; [reflexivity|]. cbn [flat_map app ra2_16k_octets]. rewrite filled16 by assumption. f_equal. apply IH.
  - unfold ra2_8k_octets. rewrite map_map. induction RF as [|o r [O H] F IH]; [reflexivity|]. cbn [map]. rewrite filled8 by assumption. f_equal. apply IH.
Qed.

(** any other payload (wrong length, misaligned) gives the all-ones idle fill *)
Theorem C26_malformed_idle : forall cd fr st rtp, tf_wf fr -> csd_type (st_type st) ->
  (st_type st <> T16_EDATA -> ~ v110_rtp st rtp) ->
  (st_type st = T16_EDATA -> length rtp <> 160 \/ exists rc, from_atrau_ra2 (tf_d fr) rtp = Some (inl rc)) ->
  exists fr', osmo_rtp2trau cd fr rtp st = Some (0%Z, fr') /\ tf_wf fr' /\ tf_type fr' = st_type st /\ idle_data fr'.
Proof.
  intros cd fr st rtp W CT H1 H2.
  assert (AT : forall n, Forall (eq true) (repeat true n)) by (intros n; apply Forall_forall; intros x Hx; now apply repeat_spec in Hx).
  destruct (edata_dec (st_type st)) as [DEC|DEC].
  all: [> rename DEC into E | rename DEC into N ].
  - exists (edata_frame fr true (repeat true 2) (repeat true 288)).
    split; [|split; [apply edata_frame_wf; [exact W|reflexivity|apply repeat_length]|split; [now rewrite E|]]].
    + destruct (Nat.eq_dec (length rtp) 160) as [L|L]; [|now apply edata_short].
      destruct (H2 E) as [?|[rc R]]; [contradiction|]. now rewrite edata_in, R by assumption.
    + unfold idle_data, csd_data. cbn [edata_frame set_m set_d set_c set_type tf_type tf_m tf_d].
      constructor; [apply AT|]. constructor; [apply AT|constructor].
  - destruct (csd_in cd fr st rtp W CT N) as (fr' & E & W' & T' & D' & R' & CD).
    destruct (_ && _) eqn:K in CD; [apply v110_rtp_dec in K; now apply H1 in K|].
    exists fr'. repeat (split; [assumption|]). unfold idle_data. rewrite CD. apply Forall_forall. intros x Hx.
    apply repeat_spec in Hx. rewrite Hx. apply AT.
Qed.
(** no payload makes the converter fail or touch memory out of bounds *)
Theorem C26_total : forall cd fr st rtp, tf_wf fr -> csd_type (st_type st) ->
  exists fr', osmo_rtp2trau cd fr rtp st = Some (0%Z, fr') /\ tf_wf fr' /\ tf_type fr' = st_type st /\ tf_dir fr' = tf_dir fr.
Proof.
  intros cd fr st rtp W CT. pose proof W as (_ & Hd & _ & _ & Hm & _).
  destruct (edata_dec (st_type st)) as [DEC|DEC].
  all: [> rename DEC into E | rename DEC into N ].
  - destruct (Nat.eq_dec (length rtp) 160) as [L|L].
    + rewrite edata_in by assumption. unfold from_atrau_ra2.
      destruct (C04_atrau_decoder_total (ra2_16k_unpack rtp) (tf_d fr)) as [->|(m0 & m1 & d' & c4 & c5 & -> & L' & _)];
        [rewrite ra2_16k_unpack_length, L; reflexivity|exact Hd| |].
      * eexists. split; [reflexivity|]. split; [apply edata_frame_wf; [exact W|reflexivity|apply repeat_length]|]. split; [now rewrite E|reflexivity].
      * eexists. split; [reflexivity|]. split; [apply edata_frame_wf; [exact W|reflexivity|exact L']|]. split; [now rewrite E|reflexivity].
    + rewrite edata_short by assumption. eexists. split; [reflexivity|].
      split; [apply edata_frame_wf; [exact W|reflexivity|apply repeat_length]|]. split; [now rewrite E|reflexivity].
  - destruct (csd_in cd fr st rtp W CT N) as (fr' & E & W' & T' & D' & R' & CD). exists fr'. repeat (split; [assumption|]). assumption.
Qed.
(** EDATA from any A-TRAU encoding of M and D bits *)
Theorem C26_edata_rx : forall cd fr st m0 m1 d c4 c5 rtp,
  tf_wf fr -> st_type st = T16_EDATA -> length d = 288 ->
  to_atrau_ra2 (repeat false 320) [m0; m1] d c4 c5 = Some rtp ->
  exists fr', osmo_rtp2trau cd fr rtp st = Some (0%Z, fr') /\ tf_wf fr' /\ tf_type fr' = T16_EDATA /\
    tf_m fr' = [m0; m1] /\ tf_d fr' = d /\ nth 6 (tf_c fr') false = negb c4.
Proof.
  intros cd fr st m0 m1 d c4 c5 rtp W T Ld E. pose proof W as (_ & Hd & _).
  destruct (C02_atrau_ra2_roundtrip (repeat false 320) m0 m1 d c4 c5 (tf_d fr) eq_refl Ld Hd) as (o & E' & Lo & R).
  rewrite E in E'. injection E' as <-.
  exists (edata_frame fr (negb c4) [m0; m1] d). split; [now rewrite edata_in, R by assumption|].
  split; [now apply edata_frame_wf|]. repeat split.
Qed.

Example C26_example : exists rtp, v110_rtp (mkRtpState T16_DATA false false true) rtp /\ ra2_filled (mkRtpState T16_DATA false false true) rtp /\
  ~ v110_rtp (mkRtpState T16_DATA false false true) (repeat 255%Z 160) /\ buffer (repeat 0%Z 160) 160 160 /\ tf_wf (ex_tf T16_DATA UL).
Proof.
  exists (csd_octets true (repeat (repeat true 31 ++ repeat false 32) 4)).
  split; [apply v110_rtp_dec; vmr|]. split.
  - unfold ra2_filled. apply Forall_forall. intros o Ho. cbn [rate_rx st_type st_ir16k].
    assert (K : forallb (fun o => (0 <=? o)%Z && (o <=? 255)%Z && (Z.land o 63 =? 63)%Z) (csd_octets true (repeat (repeat true 31 ++ repeat false 32) 4)) = true) by vmr.
    rewrite forallb_forall in K. specialize (K o Ho). rewrite !andb_true_iff, !Z.leb_le, Z.eqb_eq in K. unfold is_octet. tauto.
  - split; [|split; [split; [octs|cbn; lia]|repeat split]].
    intros H. apply v110_rtp_dec in H. vm_compute in H. discriminate H.
Qed.
Print Assumptions C26_trau_roundtrip.
Print Assumptions C26_rtp_roundtrip.
Print Assumptions C26_malformed_idle.
Print Assumptions C26_total.
Print Assumptions C26_edata_rx.
