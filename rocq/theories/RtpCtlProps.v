(** C52: the control bits of the TRAU frames made from RTP packets
    (src/trau/trau_rtp_conv.c, osmo_rtp2trau). *)
From Coq Require Import List Arith Lia Bool ZArith.
From Verif Require Import Base RtpSpec RaaModel RaaProofs RaaProps TrauSpec TrauModel TrauFields TrauProofs TrauProps RtpModel RtpProofs RtpProps RtpHrProps RtpCsdProps.
Import ListNotations.

(** C bit number [k] (1, 2, ...) as 3GPP TS 48.060 counts them *)
Definition C (k : nat) (fr : tframe) : bool := nth (k - 1) (tf_c fr) false.
Definition C_all (a b : nat) (v : bool) (fr : tframe) : Prop := forall k, a <= k <= b -> C k fr = v.
Definition T_ones (n : nat) (fr : tframe) : Prop := firstn n (tf_t fr) = repeat true n.

(** the two-bit SID code of C13 C14 (TS 48.060 5.5.1.1.1): 10 valid SID,
    01 invalid SID, 00 speech *)
Definition sid_code (fr : tframe) : bool * bool := (C 13 fr, C 14 fr).
Definition sid_says (s : sid_class) : bool * bool :=
  match s with SID_VALID => (true, false) | SID_INVALID => (false, true) | SID_SPEECH => (false, false) end.

(** libosmocodec's classification for a codec *)
Definition classify (cd : codec) (ty : ftype) (p : list Z) : sid_class :=
  match p with
  | [] => SID_SPEECH
  | _ => match ty with T16_FR => osmo_fr_sid_classify cd (bits_of_octets p) | _ => osmo_efr_sid_classify cd (bits_of_octets p) end
  end.
Definition is_sid (cd : codec) (ty : ftype) (p : list Z) : bool :=
  match p with
  | [] => false
  | _ => match ty with
         | T16_FR => osmo_fr_check_sid cd (bits_of_octets p)
         | T16_EFR => osmo_efr_check_sid cd (bits_of_octets p)
         | _ => osmo_hr_check_sid cd (bits_of_octets p)
         end
  end.

Lemma C_list c fr k v : tf_c fr = c -> nth (k - 1) c false = v -> C k fr = v.
Proof. unfold C. intros -> H. exact H. Qed.
Lemma C_all_list c fr a b v : tf_c fr = c -> forallb (fun k => Bool.eqb (nth (k - 1) c false) v) (seq a (b + 1 - a)) = true -> C_all a b v fr.
Proof.
  unfold C_all, C. intros -> H k Hk. rewrite forallb_forall in H. apply eqb_prop. apply H. apply in_seq. lia.
Qed.

Lemma speech_c_dl ul dl cl ck bfi taf dtxd data fr : tf_wf fr -> tf_dir fr = DL -> length dl = 5 ->
  speech_c_bits ul dl cl ck bfi taf dtxd data fr =
  Some (set_t (set_c fr ((if length data =? 0 then [false;true;true;true;false] else dl) ++ repeat false 6 ++
     [true; true; true; true; negb (negb (length data =? 0) && ck data); true] ++ repeat true 4 ++ skipn 21 (tf_c fr)))
         (repeat true 4)).
Proof.
  intros W E HU. destruct dl as [|u0 [|u1 [|u2 [|u3 [|u4 [|]]]]]]; try discriminate HU.
  unfold speech_c_bits. destruct (length data =? 0) eqn:N; clear N.
  - revert E; revert fr W; sym_c. cbn [tf_dir] in E. subst. reflexivity.
  - generalize (ck data). intros s. revert E; revert fr W; sym_c. cbn [tf_dir] in E. subst. reflexivity.
Qed.

(** the C and T bits of an FR or EFR frame made from a packet *)
Lemma speech_made cd fr st rtp fr' : tf_wf fr -> Forall is_octet rtp -> st_type st = T16_FR \/ st_type st = T16_EFR ->
  osmo_rtp2trau cd fr rtp st = Some (0%Z, fr') ->
  let p := strip_header rtp in
  tf_type fr' = st_type st /\ tf_dir fr' = tf_dir fr /\ tf_t fr' = repeat true 4 /\
  (tf_dir fr = UL ->
     tf_c fr' = code16 (st_type st) UL ++ repeat false 6 ++
       [match p with [] => true | _ => hbit rtp 1 end; fst (sid_says (classify cd (st_type st) p)); snd (sid_says (classify cd (st_type st) p));
        hbit rtp 0; true; hbit rtp 3] ++ repeat true 4 ++ skipn 21 (tf_c fr)) /\
  (tf_dir fr = DL ->
     tf_c fr' = match p with [] => code16 T16_IDLE DL | _ => code16 (st_type st) DL end ++ repeat false 6 ++
       [true; true; true; true; negb (is_sid cd (st_type st) p); true] ++ repeat true 4 ++ skipn 21 (tf_c fr)).
Proof.
  intros W F HT E p.
  assert (N0 : forall q, length (bits_of_octets q) =? 0 = match q with [] => true | _ => false end).
  { intros q. rewrite boo_length. now destruct q. }
  assert (W2 : forall t, tf_wf (set_type fr t)) by (intros; exact W).
  unfold osmo_rtp2trau in E. destruct HT as [HT|HT]; rewrite HT in *.
  - unfold rtp2trau_fr in E. rewrite speech_input_spec in E by (try assumption; lia).
    destruct (accept_speech _ _ _) in E; [|discriminate E]. unfold rtp2trau_fr_body in E.
    fold p in E. destruct (tf_dir fr) eqn:D.
    + rewrite speech_c_ul in E; [|apply W2|exact D|reflexivity]. cbv zeta in E. rewrite N0 in E.
      match type of E with context [if ?b then memset ?u ?v ?w ?x else ?y] => destruct (if b then memset u v w x else y) as [d|]; [|discriminate E] end. injection E as <-.
      cbn [set_type set_t set_c set_d tf_type tf_dir tf_t tf_c]. rewrite D. repeat split; try (intros; discriminate).
      intros _. destruct p; [reflexivity|]. cbn [classify]. destruct (osmo_fr_sid_classify cd _); reflexivity.
    + rewrite speech_c_dl in E; [|apply W2|exact D|reflexivity]. rewrite N0 in E.
      match type of E with context [if ?b then memset ?u ?v ?w ?x else ?y] => destruct (if b then memset u v w x else y) as [d|]; [|discriminate E] end. injection E as <-.
      cbn [set_type set_t set_c set_d tf_type tf_dir tf_t tf_c]. rewrite D. repeat split; try (intros; discriminate).
      intros _. destruct p; reflexivity.
  - unfold rtp2trau_efr in E. rewrite speech_input_spec in E by (try assumption; lia).
    destruct (accept_speech _ _ _) in E; [|discriminate E]. unfold rtp2trau_efr_body in E.
    fold p in E. destruct (tf_dir fr) eqn:D.
    + rewrite speech_c_ul in E; [|apply W2|exact D|reflexivity]. cbv zeta in E. rewrite N0 in E.
      match type of E with context [if ?b then memset ?u ?v ?w ?x else ?y] => destruct (if b then memset u v w x else y) as [d|]; [|discriminate E] end. injection E as <-.
      cbn [set_type set_t set_c set_d tf_type tf_dir tf_t tf_c]. rewrite D. repeat split; try (intros; discriminate).
      intros _. destruct p; [reflexivity|]. cbn [classify]. destruct (osmo_efr_sid_classify cd _); reflexivity.
    + rewrite speech_c_dl in E; [|apply W2|exact D|reflexivity]. rewrite N0 in E.
      match type of E with context [if ?b then memset ?u ?v ?w ?x else ?y] => destruct (if b then memset u v w x else y) as [d|]; [|discriminate E] end. injection E as <-.
      cbn [set_type set_t set_c set_d tf_type tf_dir tf_t tf_c]. rewrite D. repeat split; try (intros; discriminate).
      intros _. destruct p; reflexivity.
Qed.

Ltac cbit E := eapply C_list; [exact E|reflexivity].
Ltac call E := eapply C_all_list; [exact E|reflexivity].

(** C52, uplink speech. Any packet the library accepts for FR or EFR; [p] is its
    payload (after a TW-TS-001 header, whose DTXd, BFI and TAF flags are bits 3,
    1 and 0; without a header they count as 0). *)
Theorem C52_speech_uplink : forall cd fr st rtp fr', tf_wf fr -> Forall is_octet rtp -> st_type st = T16_FR \/ st_type st = T16_EFR ->
  tf_dir fr = UL -> osmo_rtp2trau cd fr rtp st = Some (0%Z, fr') ->
  let p := strip_header rtp in
  tf_type fr' = st_type st /\ tf_dir fr' = UL /\ firstn 5 (tf_c fr') = code16 (st_type st) UL /\ C_all 6 11 false fr' /\
  (C 12 fr' = true <-> p = [] \/ hbit rtp 1 = true) /\      (* BFI *)
  sid_code fr' = sid_says (classify cd (st_type st) p) /\    (* SID *)
  C 15 fr' = hbit rtp 0 /\                                   (* TAF *)
  C 16 fr' = true /\ C 17 fr' = hbit rtp 3 /\                (* DTXd *)
  C_all 18 21 true fr' /\ T_ones 4 fr'.
Proof.
  intros cd fr st rtp fr' W F HT D E p. destruct (speech_made cd fr st rtp fr' W F HT E) as (A & B & T & U & _).
  specialize (U D). fold p in U. assert (L5 : exists a b c d e, code16 (st_type st) UL = [a;b;c;d;e]).
  { destruct HT as [-> | ->]; cbn; eauto 10. }
  destruct L5 as (a & b & c & d & e & L5). rewrite L5 in *. cbn [app repeat] in U.
  split; [exact A|]. split; [congruence|]. split; [rewrite U; reflexivity|]. split.
  { intros k Hk. unfold C. rewrite U. do 6 (destruct k as [|k]; [lia|]). do 6 (destruct k as [|k]; [reflexivity|]). lia. }
  split. { assert (X : C 12 fr' = match p with [] => true | _ => hbit rtp 1 end) by cbit U. rewrite X.
    destruct p; [split; [now left|reflexivity]|]. split; [now right|intros [?|?]; [discriminate|assumption]]. }
  split. { unfold sid_code. rewrite (surjective_pairing (sid_says _)). f_equal; cbit U. }
  split; [cbit U|]. split; [cbit U|]. split; [cbit U|]. split.
  { intros k Hk. unfold C. rewrite U. do 18 (destruct k as [|k]; [lia|]). do 4 (destruct k as [|k]; [reflexivity|]). lia. }
  unfold T_ones. rewrite T. reflexivity.
Qed.

(** C52, downlink speech: SP (C16) is 0 exactly when the payload is a SID; a
    packet without payload becomes an idle speech frame. *)
Theorem C52_speech_downlink : forall cd fr st rtp fr', tf_wf fr -> Forall is_octet rtp -> st_type st = T16_FR \/ st_type st = T16_EFR ->
  tf_dir fr = DL -> osmo_rtp2trau cd fr rtp st = Some (0%Z, fr') ->
  let p := strip_header rtp in
  tf_type fr' = st_type st /\ tf_dir fr' = DL /\
  firstn 5 (tf_c fr') = code16 (match p with [] => T16_IDLE | _ => st_type st end) DL /\ C_all 6 11 false fr' /\
  C_all 12 15 true fr' /\ (C 16 fr' = false <-> is_sid cd (st_type st) p = true) /\ C_all 17 21 true fr' /\ T_ones 4 fr'.
Proof.
  intros cd fr st rtp fr' W F HT D E p. destruct (speech_made cd fr st rtp fr' W F HT E) as (A & B & T & _ & U).
  specialize (U D). fold p in U.
  assert (L5 : exists a b c d e, match p with [] => code16 T16_IDLE DL | _ => code16 (st_type st) DL end = [a;b;c;d;e]).
  { destruct p; [|destruct HT as [-> | ->]]; cbn; eauto 10. }
  assert (L6 : code16 (match p with [] => T16_IDLE | _ => st_type st end) DL = match p with [] => code16 T16_IDLE DL | _ => code16 (st_type st) DL end)
    by now destruct p.
  rewrite L6. destruct L5 as (a & b & c & d & e & L5). rewrite L5 in *. cbn [app repeat] in U.
  split; [exact A|]. split; [congruence|]. split; [rewrite U; reflexivity|]. split.
  { intros k Hk. unfold C. rewrite U. do 6 (destruct k as [|k]; [lia|]). do 6 (destruct k as [|k]; [reflexivity|]). lia. }
  split. { intros k Hk. unfold C. rewrite U. do 12 (destruct k as [|k]; [lia|]). do 4 (destruct k as [|k]; [reflexivity|]). lia. }
  split. { assert (X : C 16 fr' = negb (is_sid cd (st_type st) p)) by cbit U. rewrite X. destruct (is_sid _ _ _); intuition discriminate. }
  split. { intros k Hk. unfold C. rewrite U. do 17 (destruct k as [|k]; [lia|]). do 5 (destruct k as [|k]; [reflexivity|]). lia. }
  unfold T_ones. rewrite T. reflexivity.
Qed.

(** C52, half rate on 16 kbit/s: [p] is the payload, after the optional RFC 5993
    header octet. In the uplink C15 keeps the caller's value (FIXME in the code). *)
Definition hr_octets (rtp : list Z) : list Z := if length rtp =? 15 then skipn 1 rtp else rtp.
Lemma hr_in rtp data : hr_input (bits_of_octets rtp) = Some data ->
  data = bits_of_octets (hr_octets rtp) /\ (length data = 112 \/ length data = 0).
Proof.
  rewrite hr_input_spec. unfold hr_octets. destruct (Nat.eqb_spec (length rtp) 14) as [L|_].
  - intros E. injection E as <-. rewrite L. change (14 =? 15) with false. rewrite boo_length, L. auto.
  - destruct (Nat.eqb_spec (length rtp) 15) as [L|_].
    + destruct rtp as [|x r]; [discriminate L|]. intros E. injection E as <-. split; [reflexivity|]. rewrite boo_length. cbn in L. left. lia.
    + destruct (Nat.eqb_spec (length rtp) 0) as [L|_]; [|discriminate]. intros E. injection E as <-.
      destruct rtp; [auto|discriminate].
Qed.
Theorem C52_hr16 : forall cd fr st rtp fr', tf_wf fr -> st_type st = T16_HR ->
  osmo_rtp2trau cd fr rtp st = Some (0%Z, fr') ->
  let p := hr_octets rtp in let sid := osmo_hr_check_sid cd (bits_of_octets p) in
  tf_type fr' = T16_HR /\ tf_dir fr' = tf_dir fr /\ firstn 5 (tf_c fr') = code16 T16_HR (tf_dir fr) /\ C_all 6 11 false fr' /\
  (tf_dir fr = UL -> (C 12 fr' = true <-> p = []) /\ sid_code fr' = (if sid then sid_says SID_VALID else sid_says SID_SPEECH) /\
                     C 15 fr' = C 15 fr /\ C_all 16 17 false fr' /\ tf_ufi fr' = false) /\
  (tf_dir fr = DL -> C_all 12 15 true fr' /\ (C 16 fr' = false <-> sid = true) /\ C 17 fr' = true /\ tf_ufi fr' = true) /\
  C_all 18 21 true fr' /\ T_ones 4 fr'.
Proof.
  intros cd fr st rtp fr' W T E p sid.
  destruct (hr_input (bits_of_octets rtp)) as [data|] eqn:I.
  2:{ unfold osmo_rtp2trau, rtp2trau_hr16 in E. rewrite T, I in E. discriminate. }
  destruct (hr_in rtp data I) as [Hd L]. rewrite (hr16_rtp_api cd fr rtp st data W T I L) in E. injection E as <-.
  fold p in Hd. subst data. fold sid in |- *.
  assert (N0 : length (bits_of_octets p) =? 0 = true <-> p = []).
  { rewrite Nat.eqb_eq, boo_length. destruct p; cbn; split; intros; try reflexivity; try discriminate; try lia. }
  unfold hr16_frame, hr16_c, C_all, C, sid_code, T_ones, C. cbn [tf_type tf_dir tf_t tf_c tf_ufi]. fold sid.
  assert (K : forall (c : bits) v a b, forallb (fun k => Bool.eqb (nth (k - 1) c false) v) (seq a (b + 1 - a)) = true ->
     forall k, a <= k <= b -> nth (k - 1) c false = v).
  { intros c v a b H k Hk. rewrite forallb_forall in H. apply eqb_prop. apply H. apply in_seq. lia. }
  destruct (tf_dir fr) eqn:D.
  - split; [reflexivity|]. split; [reflexivity|]. split; [reflexivity|]. split; [apply K; reflexivity|].
    split; [|split; [discriminate|split; [apply K; reflexivity|reflexivity]]].
    intros _. split; [exact N0|]. split; [cbn [app nth Nat.sub repeat]; destruct sid; reflexivity|].
    split; [reflexivity|]. split; [apply K; reflexivity|reflexivity].
  - split; [reflexivity|]. split; [reflexivity|]. split; [reflexivity|]. split; [apply K; reflexivity|].
    split; [discriminate|split; [|split; [apply K; reflexivity|reflexivity]]].
    intros _. split; [apply K; reflexivity|]. split; [cbn [app nth Nat.sub repeat]; destruct sid; intuition discriminate|]. split; reflexivity.
Qed.

(** C52, half rate on 8 kbit/s (downlink only) *)
Theorem C52_hr8 : forall cd fr st rtp fr', tf_wf fr -> st_type st = T8_SPEECH ->
  osmo_rtp2trau cd fr rtp st = Some (0%Z, fr') ->
  let sid := osmo_hr_check_sid cd (bits_of_octets (hr_octets rtp)) in
  tf_dir fr = DL /\ tf_type fr' = T8_SPEECH /\ firstn 5 (tf_c fr') = [false; false; false; true; false] /\ C_all 6 9 true fr' /\
  tf_xc fr' = (if sid then [false; false; false; true; false; false] else [false; false; false; false; false; true]) /\ T_ones 2 fr'.
Proof.
  intros cd fr st rtp fr' W T E sid.
  destruct (hr_input (bits_of_octets rtp)) as [data|] eqn:I.
  2:{ unfold osmo_rtp2trau, rtp2trau_hr8 in E. rewrite T, I in E. discriminate. }
  destruct (tf_dir fr) eqn:D.
  { unfold osmo_rtp2trau, rtp2trau_hr8 in E. rewrite T, I, D in E. discriminate. }
  destruct (hr_in rtp data I) as [Hd L]. rewrite (hr8_rtp_api cd fr rtp st data W T D I L) in E. injection E as <-.
  subst data. fold sid in |- *. unfold hr8_frame. cbn [tf_type tf_dir tf_t tf_c tf_xc]. fold sid.
  split; [reflexivity|]. split; [reflexivity|]. split; [reflexivity|]. split; [|split; reflexivity].
  eapply C_all_list; reflexivity.
Qed.

(** C52, circuit-switched data: the type code, the intermediate rate (C6) and the spare bits *)
Theorem C52_data : forall cd fr st rtp fr', tf_wf fr -> osmo_rtp2trau cd fr rtp st = Some (0%Z, fr') ->
  match st_type st with
  | T16_DATA => firstn 5 (tf_c fr') = code16 T16_DATA (tf_dir fr) /\ C 6 fr' = st_ir16k st /\ C_all 7 15 true fr'
  | T16_DATA_HR => firstn 5 (tf_c fr') = code16 T16_DATA_HR (tf_dir fr) /\ C 6 fr' = false /\ C_all 7 15 true fr'
  | T16_EDATA => firstn 5 (tf_c fr') = code16 T16_EDATA (tf_dir fr) /\ C 6 fr' = false /\ C_all 8 13 true fr'
  | T8_DATA => firstn 5 (tf_c fr') = [false; false; true; true; true]
  | _ => True
  end.
Proof.
  intros cd fr st rtp fr' W E. unfold osmo_rtp2trau in E.
  assert (ED : forall v m d, firstn 5 (tf_c (edata_frame fr v m d)) = code16 T16_EDATA (tf_dir fr) /\ C 6 (edata_frame fr v m d) = false /\ C_all 8 13 true (edata_frame fr v m d)).
  { intros v m d. split; [reflexivity|]. split; [reflexivity|]. eapply C_all_list; reflexivity. }
  destruct (st_type st) eqn:T; try exact I.
  - (* DATA *) unfold rtp2trau_data_fr in E. cbv zeta in E. cbn [set_type tf_c tf_d tf_dir] in E.
    pose proof W as (Hc & _). destruct fr as [ty dir ta c d t s m u cr x]. cbn [tf_c tf_dir tf_d] in *.
    do 25 (destruct c as [|? c]; [discriminate|]). destruct c; [|discriminate].
    set (X := if st_ir16k st then _ else _) in E. generalize dependent X. intros X E.
    destruct dir, X as [d'|]; try discriminate E; cbn in E; injection E as <-; (split; [reflexivity|split; [reflexivity|eapply C_all_list; reflexivity]]).
  - (* EDATA *) assert (E' : osmo_rtp2trau cd fr rtp st = Some (0%Z, fr')) by (unfold osmo_rtp2trau; rewrite T; exact E). clear E.
    destruct (Nat.eq_dec (length rtp) 160) as [L|L].
    + rewrite edata_in in E' by assumption. destruct (from_atrau_ra2 _ _) as [[?|[[[[m0 m1] d] c4] c5]]|]; try discriminate E'; injection E' as <-; apply ED.
    + rewrite edata_short in E' by assumption. injection E' as <-. apply ED.
  - (* DATA_HR *) unfold rtp2trau_data_hr16 in E. cbv zeta in E. cbn [set_type tf_c tf_d tf_dir] in E.
    pose proof W as (Hc & _). destruct fr as [ty dir ta c d t s m u cr x]. cbn [tf_c tf_dir tf_d] in *.
    do 25 (destruct c as [|? c]; [discriminate|]). destruct c; [|discriminate].
    set (X := rtp2trau_data_ir8 _ _ _) in E. generalize dependent X. intros X E.
    destruct dir, X as [d'|]; try discriminate E; cbn in E; injection E as <-; (split; [reflexivity|split; [reflexivity|eapply C_all_list; reflexivity]]).
  - (* DATA 8k *) unfold rtp2trau_data_hr8 in E. cbv zeta in E. cbn [set_type tf_c tf_d tf_dir] in E.
    pose proof W as (Hc & _). destruct fr as [ty dir ta c d t s m u cr x]. cbn [tf_c tf_dir tf_d] in *.
    do 25 (destruct c as [|? c]; [discriminate|]). destruct c; [|discriminate].
    set (X := rtp2trau_data_ir8 _ _ _) in E. generalize dependent X. intros X E.
    destruct X as [d'|]; try discriminate E; cbn in E; injection E as <-. reflexivity.
Qed.

(** REFUTED: the downlink idle code of a packet without payload never reaches
    the line. The encoder takes the code from the frame type, so the frame goes
    out as a speech frame (all D bits 1, SP = 1). *)
Theorem C52_idle_on_line_refuted : forall cd, exists fr fr' st' b',
  tf_wf fr /\ tf_dir fr = DL /\ osmo_rtp2trau cd fr [] (mkRtpState T16_FR false false false) = Some (0%Z, fr') /\
  firstn 5 (tf_c fr') = code16 T16_IDLE DL /\
  osmo_trau_frame_encode idle_initial (repeat false 640) 640 fr' = Some (st', (320%Z, b')) /\
  firstn 5 (skipn 17 b') = code16 T16_FR DL.
Proof.
  intros cd.
  set (fr := mkTf T16_FR DL 0 (repeat false 25) (repeat false 288) (repeat false 4) (repeat false 6) (repeat false 2) true (repeat false 3) (repeat false 6)).
  assert (K : match osmo_rtp2trau cd fr [] (mkRtpState T16_FR false false false) with
    | Some (rc, fr') => rc = 0%Z /\ firstn 5 (tf_c fr') = code16 T16_IDLE DL /\
        match osmo_trau_frame_encode idle_initial (repeat false 640) 640 fr' with
        | Some (_, (rc, b')) => rc = 320%Z /\ firstn 5 (skipn 17 b') = code16 T16_FR DL
        | None => False end
    | None => False end) by (vm_compute; auto).
  destruct (osmo_rtp2trau cd fr [] _) as [[rc fr']|] eqn:E; [|contradiction]. destruct K as (-> & H & K).
  destruct (osmo_trau_frame_encode idle_initial (repeat false 640) 640 fr') as [[st' [rc b']]|] eqn:E2; [|contradiction].
  destruct K as (-> & K). exists fr, fr', st', b'. repeat (split; [first [assumption | repeat split]|]). exact K.
Qed.

(** ** the three-bit parity *)
(** remainder of the division of the polynomial [a] (highest coefficient first)
    by x^3 + x + 1 over GF(2), [n] steps: the leading term is cancelled by
    subtracting the divisor 1011 *)
Fixpoint divide (n : nat) (a : bits) : bits :=
  match n with
  | O => a
  | S n => match a with
           | true :: a2 :: a1 :: a0 :: r => divide n (a2 :: negb a1 :: negb a0 :: r)
           | _ :: r => divide n r
           | [] => []
           end
  end.
(** TS 48.060 / 46.060: the word followed by three zeros, divided; the
    remainder is transmitted inverted *)
Definition parity_of (w : bits) : bits := map negb (divide (length w) (w ++ repeat false 3)).

Definition st_list (s : bool * bool * bool) : bits := let '(a, b, c) := s in [a; b; c].
Lemma divide_state w : forall s2 s1 s0 x y z r, w ++ repeat false 3 = x :: y :: z :: r ->
  divide (length w) (xorb x s2 :: xorb y s1 :: xorb z s0 :: r) = st_list (fold_left crc3_step w (s2, s1, s0)).
Proof.
  induction w as [|b w IH]; intros s2 s1 s0 x y z r E.
  - cbn in E. injection E as <- <- <- <-. cbn. now destruct s2, s1, s0.
  - cbn [app] in E. injection E as <- E. destruct r as [|t r].
    { apply (f_equal (@length bool)) in E. rewrite app_length in E. cbn in E. lia. }
    cbn [length fold_left]. unfold crc3_step at 2. rewrite <- (IH s1 (xorb s0 (xorb s2 b)) (xorb s2 b) y z t r E).
    rewrite (xorb_comm s2 b). destruct (xorb b s2); cbn [divide].
    + rewrite !xorb_true_r. rewrite <- negb_xorb_r. reflexivity.
    + rewrite !xorb_false_r. reflexivity.
Qed.
Lemma crc3_parity w : crc3_bits w = parity_of w.
Proof.
  unfold crc3_bits, parity_of, crc3, crc3_state.
  assert (X : exists x y z r, w ++ repeat false 3 = x :: y :: z :: r).
  { destruct w as [|a [|b [|c w]]]; cbn; eauto. }
  destruct X as (x & y & z & r & E). rewrite E.
  pose proof (divide_state w false false false x y z r E) as D. rewrite !xorb_false_r in D. rewrite D.
  destruct (fold_left crc3_step w _) as [[a b] c]. reflexivity.
Qed.

(** C24, exact acceptance: an EFR frame not flagged bad is delivered exactly
    when each of the five parity fields is the parity of its group. *)
Theorem C24_parity_exact : forall fr, tf_wf fr -> tf_type fr = T16_EFR -> nth 11 (tf_c fr) false = false ->
  (efr_accepts fr <-> Forall (fun g => firstn 3 (skipn (snd g) (tf_d fr)) = parity_of (at_ (tf_d fr) (fst g))) efr_protected).
Proof.
  intros fr W T H. etransitivity; [apply ok_accepts; assumption|]. unfold efr_ok. rewrite forallb_forall, Forall_forall.
  pose proof W as (_ & Hd & _).
  assert (K : forall g, In g efr_protected -> (crc3_check (at_ (tf_d fr) (fst g)) (firstn 3 (skipn (snd g) (tf_d fr))) = true <->
     firstn 3 (skipn (snd g) (tf_d fr)) = parity_of (at_ (tf_d fr) (fst g)))).
  { intros g HI. rewrite <- crc3_parity. apply crc3_check_eq. rewrite firstn_length, skipn_length, Hd.
    cbn in HI. decompose [or] HI; subst; try contradiction; cbn [snd]; lia. }
  split; intros A g HI; apply K; auto.
Qed.
(** and the parity an EFR or HR frame made from a packet carries *)
Theorem C24_parity_sent : forall cd fr st rtp fr', tf_wf fr -> tf_dir fr = UL -> Forall is_octet rtp -> length rtp = 31 -> hi rtp = 12%Z ->
  st_type st = T16_EFR -> osmo_rtp2trau cd fr rtp st = Some (0%Z, fr') ->
  Forall (fun g => firstn 3 (skipn (snd g) (tf_d fr')) = parity_of (at_ (tf_d fr') (fst g))) efr_protected.
Proof.
  intros cd fr st rtp fr' W D F L H T E.
  set (st0 := mkRtpState T16_EFR false (st_twts002 st) (st_ir16k st)).
  assert (E0 : osmo_rtp2trau cd fr rtp st0 = Some (0%Z, fr')) by (unfold osmo_rtp2trau in *; rewrite T in E; exact E).
  destruct (C24_efr_rtp_roundtrip cd fr st0 rtp (repeat 0%Z 31) 31 W D eq_refl eq_refl F L H) as (fr2 & out' & E2 & W2 & T2 & R2 & _).
  { split; [octs|cbn; lia]. }
  rewrite E0 in E2. injection E2 as <-.
  assert (HT : st_type st0 = T16_FR \/ st_type st0 = T16_EFR) by now right.
  destruct (C52_speech_uplink cd fr st0 rtp fr' W F HT D E0) as (_ & _ & _ & _ & B & _).
  assert (N : nth 11 (tf_c fr') false = false).
  { destruct (nth 11 (tf_c fr') false) eqn:X; [|reflexivity]. exfalso. destruct (proj1 B X) as [Q|Q].
    - rewrite (strip_plain rtp 12) in Q by (try assumption; discriminate). subst rtp. discriminate L.
    - rewrite (hbit_plain rtp 12) in Q by (try assumption; discriminate). discriminate Q. }
  destruct (efr_api_plain cd (repeat 0%Z 31) 31 fr' st0 W2 T2 eq_refl) as (rc & p & E' & _ & _ & R).
  { split; [octs|cbn; lia]. }
  rewrite R2 in E'. injection E' as <- _. rewrite N in R.
  apply C24_parity_exact; try assumption. apply ok_accepts; try assumption.
  destruct (efr_ok (tf_d fr')); [reflexivity|discriminate R].
Qed.
Theorem C25_parity_sent : forall cd fr st rtp fr', tf_wf fr -> st_type st = T16_HR \/ st_type st = T8_SPEECH ->
  osmo_rtp2trau cd fr rtp st = Some (0%Z, fr') -> tf_crc fr' = parity_of (firstn 44 (tf_d fr')).
Proof.
  intros cd fr st rtp fr' W T E. rewrite <- crc3_parity.
  assert (P : forall data, length data = 112 \/ length data = 0 -> firstn 44 (hr_payload data ++ skipn 112 (tf_d fr)) = firstn 44 (hr_payload data)).
  { intros data L. pose proof (hr_payload_length data L). rewrite firstn_app. replace (44 - length (hr_payload data)) with 0 by lia. apply app_nil_r. }
  destruct (hr_input (bits_of_octets rtp)) as [data|] eqn:I.
  2:{ unfold osmo_rtp2trau, rtp2trau_hr16, rtp2trau_hr8 in E. destruct T as [T|T]; rewrite T, I in E; discriminate. }
  destruct (hr_in rtp data I) as [_ L].
  destruct T as [T|T].
  - rewrite (hr16_rtp_api cd fr rtp st data W T I L) in E. injection E as <-. unfold hr16_frame. cbn [tf_crc tf_d]. now rewrite P.
  - destruct (tf_dir fr) eqn:D. { unfold osmo_rtp2trau, rtp2trau_hr8 in E. rewrite T, I, D in E. discriminate. }
    rewrite (hr8_rtp_api cd fr rtp st data W T D I L) in E. injection E as <-. unfold hr8_frame. cbn [tf_crc tf_d]. now rewrite P.
Qed.

(** non-vacuity *)
Definition wit_cd : codec := mkCodec (fun _ => false) (fun _ => SID_VALID) (fun b => nth 5 b false) (fun _ => false) (fun _ => SID_INVALID) (fun _ => true) (fun b => nth 3 b false) (fun x => x).
Definition wit_fr (ty : ftype) (dir : fdir) : tframe :=
  mkTf ty dir 0 (repeat false 25) (repeat false 288) (repeat false 4) (repeat false 6) (repeat false 2) true (repeat false 3) (repeat false 6).
Definition accepted_by (cd : codec) (fr : tframe) (rtp : list Z) (ty : ftype) (ck : tframe -> bool) : Prop :=
  match osmo_rtp2trau cd fr rtp (mkRtpState ty false false true) with Some (rc, fr') => rc = 0%Z /\ ck fr' = true | None => False end.
Example C52_witness :
  accepted_by wit_cd (wit_fr FT_NONE UL) (0xeb :: 0xd0 :: repeat 7 32)%Z T16_FR (fun f => C 12 f && C 13 f && negb (C 14 f) && C 15 f && C 17 f) /\
  accepted_by wit_cd (wit_fr FT_NONE UL) (0xc0 :: repeat 7 30)%Z T16_EFR (fun f => negb (C 12 f) && negb (C 13 f) && C 14 f && negb (C 15 f)) /\
  accepted_by wit_cd (wit_fr FT_NONE DL) (0xd4 :: repeat 7 32)%Z T16_FR (fun f => negb (C 16 f)) /\
  accepted_by wit_cd (wit_fr FT_NONE DL) (0xd0 :: repeat 7 32)%Z T16_FR (fun f => C 16 f) /\
  accepted_by wit_cd (wit_fr FT_NONE UL) (repeat 16%Z 14) T16_HR (fun f => C 13 f && negb (C 12 f)) /\
  accepted_by wit_cd (wit_fr FT_NONE DL) (repeat 16%Z 15) T8_SPEECH (fun f => nth 3 (tf_xc f) false) /\
  accepted_by wit_cd (wit_fr FT_NONE DL) [] T16_DATA (fun f => C 6 f) /\
  accepted_by wit_cd (wit_fr FT_NONE UL) [] T8_DATA (fun f => C 5 f).
Proof. vm_compute. repeat split. Qed.
Example parity_example : parity_of [true; false; true; true; false] = [true; true; true] /\ parity_of [true] = [true; false; false].
Proof. split; reflexivity. Qed.
Print Assumptions C52_speech_uplink.
Print Assumptions C52_speech_downlink.
Print Assumptions C52_hr16.
Print Assumptions C52_hr8.
Print Assumptions C52_data.
Print Assumptions C52_idle_on_line_refuted.
Print Assumptions C24_parity_exact.
Print Assumptions C24_parity_sent.
Print Assumptions C25_parity_sent.
