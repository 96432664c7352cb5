(** Property C69: a call over the Abis, end to end (see E2eSpec). *)
From Coq Require Import List Arith Lia Bool ZArith.
From Verif Require Import Base Spec RtpSpec RaaModel RaaProofs RaaProps TrauSpec TrauModel TrauFields TrauProofs TrauProps
  RtpModel RtpProofs RtpProps RtpHrProps RtpCsdProps RtpBufProps RtpCtlProps SyncModel SyncSpec SyncProofs SyncProps SyncPatProps E2eSpec.
Import ListNotations.

(** * What the conversion to RTP reads *)
Lemma firstn_nth {A} n (l l' : list A) i d : firstn n l = firstn n l' -> i < n -> nth i l d = nth i l' d.
Proof.
  revert l l' i. induction n as [|n IH]; intros l l' i E H; [lia|].
  destruct l as [|a l], l' as [|b l']; cbn [firstn] in E; try discriminate E; [reflexivity|].
  injection E as <- E. destruct i; [reflexivity|]. cbn [nth]. apply IH; [exact E|lia].
Qed.
Lemma firstn_less {A} n m (l l' : list A) : firstn n l = firstn n l' -> m <= n -> firstn m l = firstn m l'.
Proof. intros E H. replace m with (Nat.min m n) by lia. rewrite <- !firstn_firstn, E. reflexivity. Qed.
Lemma firstn_skip {A} n k m (l l' : list A) : firstn n l = firstn n l' -> k + m <= n -> firstn m (skipn k l) = firstn m (skipn k l').
Proof. intros E H. rewrite !firstn_skipn_comm. f_equal. now apply (firstn_less n). Qed.
Lemma sub_nth {A} n k (l l' : list A) i d : sub l k n = sub l' k n -> k <= i < k + n -> nth i l d = nth i l' d.
Proof.
  intros E H. unfold sub in E. replace i with (k + (i - k)) by lia.
  assert (Q : forall (x : list A), nth (k + (i - k)) x d = nth (i - k) (skipn k x) d).
  { clear. intros x. generalize (i - k) as j. revert x. induction k as [|k IH]; intros x j; [reflexivity|].
    destruct x; [destruct j; reflexivity|]. cbn [skipn nth Nat.add]. apply IH. }
  rewrite !Q. apply (firstn_nth n); [exact E|lia].
Qed.
Lemma fr_bits_firstn d d' : firstn 260 d = firstn 260 d' -> fr_rtp_bits d = fr_rtp_bits d'.
Proof. intros E. unfold fr_rtp_bits. now rewrite E. Qed.
Lemma efr_bits_firstn d d' : firstn 260 d = firstn 260 d' -> efr_rtp_bits d = efr_rtp_bits d'.
Proof.
  intros E. unfold efr_rtp_bits, efr_speech. f_equal.
  rewrite (firstn_skip 260 1 38 d d' E), (firstn_skip 260 42 53 d d' E), (firstn_skip 260 98 50 d d' E),
    (firstn_skip 260 151 53 d d' E), (firstn_skip 260 207 50 d d' E) by lia. reflexivity.
Qed.
Lemma efr_ok_firstn d d' : firstn 260 d = firstn 260 d' -> efr_ok d = efr_ok d'.
Proof.
  intros E. unfold efr_ok.
  assert (K : Forall (fun g => Forall (fun i => i < 260) (fst g) /\ snd g + 3 <= 260) efr_protected).
  { apply Forall_forall. intros g H. cbn in H. decompose [or] H; subst; try contradiction; (split; [|cbn; lia]); apply Forall_forall;
      intros x Hx; cbn in Hx; decompose [or] Hx; subst; try contradiction; lia. }
  induction efr_protected as [|g l IH]; [reflexivity|]. cbn [forallb]. inversion K as [|? ? [K1 K2] K']; subst.
  rewrite IH by assumption. f_equal.
  rewrite (firstn_skip 260 (snd g) 3 d d' E K2). f_equal. unfold at_. apply map_ext_in. intros i Hi.
  apply (firstn_nth 260); [exact E|]. rewrite Forall_forall in K1. now apply K1.
Qed.

Lemma firstn_tail {A} n (a b b' : list A) : n <= length a -> firstn n (a ++ b) = firstn n (a ++ b').
Proof. intros H. rewrite !firstn_app. replace (n - length a) with 0 by lia. reflexivity. Qed.

(** frames with the same contents give the same payload *)
Lemma same16_rtp cd st fr fr' out rc o : tf_wf fr -> tf_wf fr' -> codec_ok cd -> same_contents16 fr fr' ->
  In (tf_type fr) [T16_FR; T16_EFR; T16_HR; T16_DATA; T16_DATA_HR] -> buffer out (length out) 160 ->
  osmo_trau2rtp cd out (length out) fr st = Some (rc, o) ->
  exists o', osmo_trau2rtp cd out (length out) fr' st = Some (rc, o') /\ firstn (Z.to_nat rc) o' = firstn (Z.to_nat rc) o.
Proof.
  intros W W' CD (ST & SC & SD & SM & SS & SH) HI B E.
  assert (BL : forall n, n <= 160 -> buffer out (length out) n) by (intros n Hn; destruct B as (B1 & B2 & B3); split; [exact B1|lia]).
  cbn in HI. destruct HI as [T|[T|[T|[T|[T|[]]]]]]; symmetry in T; pose proof ST as T'; rewrite T in *; cbn [n_c16 n_d16] in *.
  - (* FR *)
    assert (N : forall i, 5 <= i < 21 -> nth i (tf_c fr') false = nth i (tf_c fr) false) by (intros; now apply (sub_nth 16 5)).
    destruct (st_twts001 st) eqn:S.
    + rewrite (fr_api_ext cd out (length out) fr st W T S (BL 34 ltac:(lia))) in E.
      exists o. split; [|reflexivity]. rewrite (fr_api_ext cd out (length out) fr' st W' T' S (BL 34 ltac:(lia))). rewrite <- E.
      unfold fr_hdr, fr_out. rewrite !N by lia. rewrite (fr_bits_firstn _ _ SD). reflexivity.
    + rewrite (fr_api_plain cd out (length out) fr st W T S (BL 33 ltac:(lia))) in E.
      exists o. split; [|reflexivity]. rewrite (fr_api_plain cd out (length out) fr' st W' T' S (BL 33 ltac:(lia))). rewrite <- E.
      rewrite !N by lia. rewrite (fr_bits_firstn _ _ SD). reflexivity.
  - (* EFR *)
    assert (N : forall i, 5 <= i < 21 -> nth i (tf_c fr') false = nth i (tf_c fr) false) by (intros; now apply (sub_nth 16 5)).
    destruct (st_twts001 st) eqn:S.
    + pose proof (efr_api_ext cd out (length out) fr st W T S (BL 32 ltac:(lia))) as A.
      pose proof (efr_api_ext cd out (length out) fr' st W' T' S (BL 32 ltac:(lia))) as A'.
      rewrite (efr_ok_firstn _ _ SD) in A'.
      destruct (efr_ok (tf_d fr)).
      * exists o. split; [|reflexivity]. rewrite A'. rewrite <- E, A.
        unfold fr_hdr, efr_out. rewrite !N by lia. rewrite (efr_bits_firstn _ _ SD). reflexivity.
      * destruct A as (p & Lp & _ & A), A' as (p' & Lp' & _ & A'). rewrite A in E. injection E as <- <-.
        exists (octets_of_bits (bad_hdr fr') ++ p' ++ skipn 32 out). split; [exact A'|].
        unfold bad_hdr. rewrite !N by lia. reflexivity.
    + destruct (efr_api_plain cd out (length out) fr st W T S (BL 31 ltac:(lia))) as (rc1 & p & A & Lp & _ & R).
      destruct (efr_api_plain cd out (length out) fr' st W' T' S (BL 31 ltac:(lia))) as (rc2 & p' & A' & Lp' & _ & R').
      rewrite !N in R' by lia. rewrite (efr_ok_firstn _ _ SD), (efr_bits_firstn _ _ SD) in R'.
      rewrite A in E. assert (rc1 = rc /\ p ++ skipn 31 out = o) as [-> <-] by (split; congruence).
      destruct (_ || _).
      * subst rc rc2. eexists. split; [exact A'|reflexivity].
      * destruct R as [-> ->], R' as [-> ->]. eexists. split; [exact A'|reflexivity].
  - (* HR *)
    assert (N : forall i, 5 <= i < 21 -> nth i (tf_c fr') false = nth i (tf_c fr) false) by (intros; now apply (sub_nth 16 5)).
    destruct (SH eq_refl) as [SU SR].
    rewrite (hr16_api cd out (length out) fr st W CD T (BL 15 ltac:(lia))) in E.
    exists o. split; [|reflexivity]. rewrite (hr16_api cd out (length out) fr' st W' CD T' (BL 15 ltac:(lia))). rewrite <- E.
    unfold hr16_result, hr16_hdr, hr_crc_ok, c_. rewrite !N by lia. rewrite SU, SR, SD, (firstn_less 112 44 _ _ SD) by lia. reflexivity.
  - (* DATA *)
    assert (N : nth 5 (tf_c fr') false = nth 5 (tf_c fr) false) by (apply (sub_nth 10 5); [exact SC|lia]).
    assert (CT : csd_type T16_DATA) by now left.
    rewrite csd_out in E; [|exact W|rewrite T; exact CT|congruence|exact B].
    exists o. split; [|reflexivity]. rewrite csd_out; [|exact W'|rewrite T'; exact CT|congruence|exact B]. rewrite <- E.
    unfold rate16, csd_data, groups, ir16. rewrite T, T', N. do 4 f_equal. apply map_ext_in. intros k Hk.
    unfold d63. apply (firstn_skip 252); [exact SD|]. destruct (nth 5 (tf_c fr) false); cbn in Hk; lia.
  - (* DATA_HR *)
    assert (CT : csd_type T16_DATA_HR) by (right; now left).
    rewrite csd_out in E; [|exact W|rewrite T; exact CT|congruence|exact B].
    exists o. split; [|reflexivity]. rewrite csd_out; [|exact W'|rewrite T'; exact CT|congruence|exact B]. rewrite <- E.
    unfold rate16, csd_data, groups. rewrite T, T'. do 4 f_equal. apply map_ext_in. intros k Hk.
    unfold d63. apply (firstn_skip 126); [exact SD|]. cbn in Hk; lia.
Qed.
Lemma same8_rtp cd st fr fr' out rc o : tf_wf fr -> tf_wf fr' -> codec_ok cd -> same_contents8 fr fr' ->
  tf_type fr = T8_SPEECH \/ tf_type fr = T8_DATA -> buffer out (length out) 160 ->
  osmo_trau2rtp cd out (length out) fr st = Some (rc, o) ->
  exists o', osmo_trau2rtp cd out (length out) fr' st = Some (rc, o') /\ firstn (Z.to_nat rc) o' = firstn (Z.to_nat rc) o.
Proof.
  intros W W' CD (ST & SC & SD & SS & _) HI B E.
  assert (BL : forall n, n <= 160 -> buffer out (length out) n) by (intros n Hn; destruct B as (B1 & B2 & B3); split; [exact B1|lia]).
  destruct HI as [T|T]; pose proof ST as T'; rewrite T in *; cbn [n_c8 n_d8] in *.
  - destruct (SS eq_refl) as (SC4 & SR & SX & _).
    assert (N : nth 8 (tf_c fr') false = nth 8 (tf_c fr) false) by (apply (sub_nth 4 5); [exact SC4|lia]).
    rewrite (hr8_api cd out (length out) fr st W CD T (BL 15 ltac:(lia))) in E.
    exists o. split; [|reflexivity]. rewrite (hr8_api cd out (length out) fr' st W' CD T' (BL 15 ltac:(lia))). rewrite <- E.
    unfold hr8_result, hr8_hdr, hr_crc_ok, hr8_par_ok, x_. rewrite N, SX, SR, SD, (firstn_less 112 44 _ _ SD) by lia. reflexivity.
  - assert (CT : csd_type T8_DATA) by (right; right; now left).
    rewrite csd_out in E; [|exact W|rewrite T; exact CT|congruence|exact B].
    exists o. split; [|reflexivity]. rewrite csd_out; [|exact W'|rewrite T'; exact CT|congruence|exact B]. rewrite <- E.
    unfold rate16, csd_data, groups. rewrite T, T'. do 4 f_equal. apply map_ext_in. intros k Hk.
    unfold d63. apply (firstn_skip 126); [exact SD|]. cbn in Hk; lia.
Qed.

(** * Sending *)
Lemma speech_c_keeps ul dl cl ck bfi taf dtxd data fr fr' : speech_c_bits ul dl cl ck bfi taf dtxd data fr = Some fr' ->
  tf_ta fr' = tf_ta fr /\ tf_dir fr' = tf_dir fr.
Proof.
  unfold speech_c_bits. intros E.
  repeat match type of E with
  | match ?x with _ => _ end = Some _ => let h := fresh in destruct x eqn:h; try discriminate E
  | (let '(_, _) := ?x in _) = Some _ => destruct x
  | Some _ = Some _ => injection E as <-
  end; try (split; reflexivity).
Qed.
Ltac inv_all := repeat match goal with
  | H : match ?x with _ => _ end = Some _ |- _ => let h := fresh in destruct x eqn:h; try discriminate H
  | H : Some _ = Some _ |- _ => injection H; clear H; intros; subst
  end.
Lemma rtp2trau_keeps cd fr rtp st rc fr' : st_type st <> T16_EDATA -> osmo_rtp2trau cd fr rtp st = Some (rc, fr') -> tf_ta fr' = tf_ta fr /\ tf_dir fr' = tf_dir fr.
Proof.
  intros NE E. unfold osmo_rtp2trau in E.
  assert (HD : forall f data f', hr_d_bits f data = Some f' -> tf_ta f' = tf_ta f /\ tf_dir f' = tf_dir f).
  { clear. intros f data f' E. unfold hr_d_bits in E. destruct (if length data =? 0 then _ else _) in E; [|discriminate].
    destruct (slice _ 0 44); [|discriminate]. destruct (blit _ _ _); [|discriminate]. injection E as <-. split; reflexivity. }
  destruct (st_type st); try (injection E as <- <-; split; reflexivity).
  - unfold rtp2trau_fr in E. destruct (speech_input _ _ _) as [[[[? ?] ?] ?]|]; [|injection E as <- <-; auto].
    unfold rtp2trau_fr_body in E. cbv zeta in E.
    destruct (speech_c_bits _ _ _ _ _ _ _ _ _) as [f1|] eqn:H; [|discriminate E]. apply speech_c_keeps in H. destruct H as [H1 H2].
    destruct (if length _ =? 0 then _ else _) in E; [|discriminate E]. injection E as <- <-. split; assumption.
  - unfold rtp2trau_hr16 in E. destruct (hr_input _); [|injection E as <- <-; auto].
    destruct (rtp2trau_hr16_body _ _ _) as [f1|] eqn:H; [|discriminate E]. injection E as <- <-.
    unfold rtp2trau_hr16_body in H. cbv zeta in H.
    destruct (blit _ _ _) in H; [|discriminate H]. destruct (memset _ 5 _ _) in H; [|discriminate H].
    destruct (match tf_dir (set_type fr T16_HR) with UL => _ | DL => _ end) in H; [|discriminate H].
    destruct (memset _ 17 _ _) in H; [|discriminate H]. destruct (memset _ 0 _ _) in H; [|discriminate H].
    now apply HD in H.
  - unfold rtp2trau_efr in E. destruct (speech_input _ _ _) as [[[[? ?] ?] ?]|]; [|injection E as <- <-; auto].
    unfold rtp2trau_efr_body in E. cbv zeta in E.
    destruct (speech_c_bits _ _ _ _ _ _ _ _ _) as [f1|] eqn:H; [|discriminate E]. apply speech_c_keeps in H. destruct H as [H1 H2].
    destruct (if length _ =? 0 then _ else _) in E; [|discriminate E]. injection E as <- <-. split; assumption.
  - unfold rtp2trau_data_fr in E. cbv zeta in E. destruct (blit _ _ _) in E; [|discriminate E]. destruct (put _ _ _) in E; [|discriminate E].
    destruct (if st_ir16k st then _ else _) in E; [|discriminate E]. destruct (memset _ _ _ _) in E; [|discriminate E]. injection E as <- <-. split; reflexivity.
  - congruence.
  - unfold rtp2trau_data_hr16 in E. cbv zeta in E. destruct (blit _ _ _) in E; [|discriminate E]. destruct (put _ _ _) in E; [|discriminate E].
    destruct (rtp2trau_data_ir8 _ _ _) in E; [|discriminate E]. destruct (memset _ _ _ _) in E; [|discriminate E]. injection E as <- <-. split; reflexivity.
  - unfold rtp2trau_hr8 in E. destruct (hr_input _); [|injection E as <- <-; auto]. destruct (tf_dir fr) eqn:D; [injection E as <- <-; auto|].
    destruct (rtp2trau_hr8_body _ _ _) as [f1|] eqn:H; [|discriminate E]. injection E as <- <-.
    unfold rtp2trau_hr8_body in H. cbv zeta in H.
    destruct (blit (tf_c _) _ _) in H; [|discriminate H]. destruct (memset _ 5 _ _) in H; [|discriminate H].
    destruct (blit _ _ _) in H; [|discriminate H]. destruct (memset _ 0 _ _) in H; [|discriminate H].
    apply HD in H. destruct H as [H1 H2]. split; [exact H1|]. rewrite H2. exact D.
  - unfold rtp2trau_data_hr8 in E. cbv zeta in E. destruct (blit _ _ _) in E; [|discriminate E].
    destruct (rtp2trau_data_ir8 _ _ _) in E; [|discriminate E]. injection E as <- <-. split; reflexivity.
Qed.

(** the made frame, and what the receiver's conversion makes of it *)
Lemma made cd st dir x q : codec_laws cd -> ready dir x -> arrives cd st dir (payload x) q ->
  let '(fr, b, rtp) := x in
  In (st_type st) [T16_FR; T16_EFR; T16_HR; T16_DATA; T16_DATA_HR; T8_SPEECH; T8_DATA] /\
  exists fr', osmo_rtp2trau cd fr rtp st = Some (0%Z, fr') /\ tf_wf fr' /\ tf_type fr' = st_type st /\
    forall out, buffer out (length out) 160 -> exists rc o, osmo_trau2rtp cd out (length out) fr' st = Some (rc, o) /\ (0 <= rc)%Z /\
      arrives cd st dir rtp (firstn (Z.to_nat rc) o).
Proof.
  intros (L1 & L2 & L3) R A. destruct x as [[fr b] rtp0]. unfold payload in A. cbn [snd] in A. destruct R as (W & D & TA & TD & LB).
  assert (BL : forall out n, buffer out (length out) 160 -> n <= 160 -> buffer out (length out) n) by (intros out n (B1 & B2 & B3) Hn; split; [exact B1|lia]).
  assert (B0 : buffer (repeat 0%Z 160) (length (repeat 0%Z 160)) 160).
  { split; [apply Forall_forall; intros z Hz; apply repeat_spec in Hz; subst; unfold is_octet; lia|]. rewrite repeat_length; lia. }
  assert (ONE : forall P : tframe -> list Z -> Prop, (forall out, buffer out (length out) 160 -> exists f, osmo_rtp2trau cd fr rtp0 st = Some (0%Z, f) /\ P f out) ->
     exists f, osmo_rtp2trau cd fr rtp0 st = Some (0%Z, f) /\ forall out, buffer out (length out) 160 -> P f out).
  { intros P H. destruct (H _ B0) as (f & E & _). exists f. split; [exact E|]. intros out B. destruct (H out B) as (f2 & E2 & Q).
    rewrite E in E2. injection E2 as <-. exact Q. }
  assert (GOAL : In (st_type st) [T16_FR; T16_EFR; T16_HR; T16_DATA; T16_DATA_HR; T8_SPEECH; T8_DATA] /\
    (forall out, buffer out (length out) 160 -> exists f, osmo_rtp2trau cd fr rtp0 st = Some (0%Z, f) /\ tf_wf f /\ tf_type f = st_type st /\
       exists rc o, osmo_trau2rtp cd out (length out) f st = Some (rc, o) /\ (0 <= rc)%Z /\ arrives cd st dir rtp0 (firstn (Z.to_nat rc) o))).
  2:{ destruct GOAL as [G1 G2]. split; [exact G1|]. apply ONE in G2. destruct G2 as (f & E & G). exists f. split; [exact E|].
      destruct (G _ B0) as (W' & T' & _). split; [exact W'|]. split; [exact T'|]. intros out B. destruct (G out B) as (_ & _ & Q). exact Q. }
  pose proof A as A0. clear TD. revert D.
  inversion A as [rtp S SP | h rtp S SP Oh Hh Hn | S TT | pre rtp t T Lp F L Ht | T S | pre rtp t T Lp F L Ht | dir' rtp T V RF]; subst; clear A; rename A0 into A; intros D.
  - (* plain speech *)
    destruct SP as (F & [(T & L & HI)|(T & L & HI)]); (split; [rewrite T; cbn; tauto|]); intros out B.
    + destruct (C23_fr_rtp_roundtrip cd fr st q out (length out) W D T S F L HI (BL out 33 B ltac:(lia))) as (f & o & E & W' & T' & E2 & P & _).
      exists f. split; [exact E|]. split; [exact W'|]. split; [congruence|]. exists 33%Z, o. split; [exact E2|]. split; [lia|].
      change (Z.to_nat 33) with 33. rewrite P. exact A.
    + destruct (C24_efr_rtp_roundtrip cd fr st q out (length out) W D T S F L HI (BL out 31 B ltac:(lia))) as (f & o & E & W' & T' & E2 & P & _).
      exists f. split; [exact E|]. split; [exact W'|]. split; [congruence|]. exists 31%Z, o. split; [exact E2|]. split; [lia|].
      change (Z.to_nat 31) with 31. rewrite P. exact A.
  - (* TW-TS-001 *)
    destruct SP as (F & [(T & L & HI)|(T & L & HI)]); (split; [rewrite T; cbn; tauto|]); intros out B.
    + destruct (C23_fr_twts001_roundtrip cd fr st h rtp out (length out) L1 W D T S Oh Hh Hn F L HI (BL out 34 B ltac:(lia))) as (f & o & E & W' & E2 & P & _).
      assert (FO : Forall is_octet (h :: rtp)) by now constructor.
      destruct (C52_speech_uplink cd fr st (h :: rtp) f W FO (or_introl T) D E) as (T' & _).
      exists f. split; [exact E|]. split; [exact W'|]. split; [exact T'|]. exists 34%Z, o. split; [exact E2|]. split; [lia|].
      change (Z.to_nat 34) with 34. rewrite P. exact A.
    + destruct (C24_efr_twts001_roundtrip cd fr st h rtp out (length out) L2 W D T S Oh Hh Hn F L HI (BL out 32 B ltac:(lia))) as (f & o & E & W' & E2 & P & _).
      assert (FO : Forall is_octet (h :: rtp)) by now constructor.
      destruct (C52_speech_uplink cd fr st (h :: rtp) f W FO (or_intror T) D E) as (T' & _).
      exists f. split; [exact E|]. split; [exact W'|]. split; [exact T'|]. exists 32%Z, o. split; [exact E2|]. split; [lia|].
      change (Z.to_nat 32) with 32. rewrite P. exact A.
  - (* nothing *)
    split; [destruct TT as [-> | ->]; cbn; tauto|]. intros out B.
    destruct (C27_rtp2trau_accepts cd fr st [] W (Forall_nil _)) as (rc & f & E & W' & K).
    assert (AC : accepted st (tf_dir fr) [] = true) by (unfold accepted; destruct TT as [-> | ->]; reflexivity).
    rewrite AC in K. destruct K as (-> & T' & D').
    exists f. split; [exact E|]. split; [exact W'|]. split; [exact T'|].
    destruct (C52_speech_uplink cd fr st [] f W (Forall_nil _) TT D E) as (_ & _ & _ & _ & BF & _).
    assert (BFI : nth 11 (tf_c f) false = true) by (apply (proj2 BF); now left).
    destruct TT as [T|T].
    + exists 0%Z, out. split; [|split; [lia|exact A]]. rewrite (fr_api_plain cd out (length out) f st W' ltac:(congruence) S (BL out 33 B ltac:(lia))), BFI. reflexivity.
    + destruct (efr_api_plain cd out (length out) f st W' ltac:(congruence) S (BL out 31 B ltac:(lia))) as (rc & p & E2 & _ & _ & K).
      rewrite BFI in K. cbn [orb] in K. subst rc. exists 0%Z, (p ++ skipn 31 out). split; [exact E2|]. split; [lia|exact A].
  - (* HR 16k *)
    split; [rewrite T; cbn; tauto|]. intros out B.
    destruct (C25_hr16_rtp_roundtrip cd fr st pre rtp out (length out) L3 W D T Lp F L (BL out 15 B ltac:(lia))) as (f & t' & E & W' & T' & E2 & Ht' & _).
    exists f. split; [exact E|]. split; [exact W'|]. split; [congruence|]. exists 15%Z, (t' :: rtp ++ skipn 15 out). split; [exact E2|]. split; [lia|].
    change (Z.to_nat 15) with 15. change (firstn 15 (t' :: rtp ++ skipn 15 out)) with (t' :: firstn 14 (rtp ++ skipn 15 out)). rewrite firstn_app_exact by assumption. apply ar_hr16; assumption.
  - split; [rewrite T; cbn; tauto|]. intros out B. pose proof L3 as [CK _].
    destruct (C25_hr16_empty cd fr st out (length out) CK W D T S (BL out 15 B ltac:(lia))) as (f & E & _ & E2).
    exists f. split; [exact E|]. destruct (C52_hr16 cd fr st [] f W T E) as (T' & _).
    destruct (C27_rtp2trau_accepts cd fr st [] W (Forall_nil _)) as (rc & f2 & E3 & W' & _). rewrite E in E3. injection E3 as <- <-.
    split; [exact W'|]. split; [congruence|]. exists 0%Z, out. split; [exact E2|]. split; [lia|exact A].
  - (* HR 8k *)
    split; [rewrite T; cbn; tauto|]. intros out B.
    destruct (C25_hr8_rtp_roundtrip cd fr st pre rtp out (length out) L3 W D T Lp F L (BL out 15 B ltac:(lia))) as (f & t' & E & W' & T' & E2 & Ht' & _).
    exists f. split; [exact E|]. split; [exact W'|]. split; [congruence|]. exists 15%Z, (t' :: rtp ++ skipn 15 out). split; [exact E2|]. split; [lia|].
    change (Z.to_nat 15) with 15. change (firstn 15 (t' :: rtp ++ skipn 15 out)) with (t' :: firstn 14 (rtp ++ skipn 15 out)). rewrite firstn_app_exact by assumption. apply ar_hr8; assumption.
  - (* data *)
    split; [destruct T as [-> | [-> | ->]]; cbn; tauto|]. intros out B.
    assert (CT : csd_type (st_type st)) by (destruct T as [-> | [-> | ->]]; unfold csd_type; tauto).
    assert (NE : st_type st <> T16_EDATA) by (destruct T as [-> | [-> | ->]]; discriminate).
    destruct (C26_rtp_roundtrip cd fr st q out (length out) W CT NE V RF B) as (f & E & W' & E2).
    destruct (csd_in cd fr st q W CT NE) as (f2 & E3 & _ & T' & _). rewrite E in E3. injection E3 as <-.
    exists f. split; [exact E|]. split; [exact W'|]. split; [exact T'|]. exists 160%Z, (q ++ skipn 160 out). split; [exact E2|]. split; [lia|].
    change (Z.to_nat 160) with 160. rewrite firstn_app_exact by apply V. exact A.
Qed.
Lemma decode8_wf fr0 b dir rc fr' : length b = 160 -> tf_wf fr0 -> osmo_trau_frame_decode_8k fr0 b dir = Some (rc, fr') -> tf_wf fr'.
Proof.
  intros L W E.
  assert (G : forall ty r, TrauProofs.good (set_head fr0 ty dir) r -> ok r = Some (rc, fr') -> tf_wf fr').
  { intros ty r H K. destruct (good_ok fr0 ty dir r H) as (f & K' & Wf & _). rewrite K in K'. injection K' as _ <-. exact Wf. }
  assert (N : Some (EINVAL, set_head fr0 FT_NONE dir) = Some (rc, fr') -> tf_wf fr') by (intros K; injection K as _ <-; exact W).
  assert (A : forall ty, TrauProofs.good (set_head fr0 ty dir) (decode8_hr (set_head fr0 ty dir) b) /\ TrauProofs.good (set_head fr0 ty dir) (decode8_data (set_head fr0 ty dir) b) /\
     TrauProofs.good (set_head fr0 ty dir) (decode8_oam (set_head fr0 ty dir) b) /\ TrauProofs.good (set_head fr0 ty dir) (decode8_amr_low (set_head fr0 ty dir) b) /\
     TrauProofs.good (set_head fr0 ty dir) (decode8_amr_74 (set_head fr0 ty dir) b) /\ decode8_amr_67 (set_head fr0 ty dir) b = None) by (intros ty; exact (good_all b (set_head fr0 ty dir) L W)).
  unfold osmo_trau_frame_decode_8k in E.
  destruct (is_hr b) as [[]|]; [| |discriminate E].
  - destruct (get_bits b 9 5) as [c5|]; [|discriminate E].
    destruct dir.
    + destruct (c5 =? 2); [destruct (A T8_SPEECH) as (X & _); exact (G _ _ X E)|].
      destruct (c5 =? 7); [destruct (A T8_DATA) as (_ & X & _); exact (G _ _ X E)|].
      destruct (c5 =? 11); [destruct (A T8_OAM) as (_ & _ & X & _); exact (G _ _ X E)|exact (N E)].
    + destruct (c5 / 4 =? 0); [destruct (A T8_SPEECH) as (X & _); exact (G _ _ X E)|].
      destruct (c5 / 4 =? 1); [destruct (A T8_DATA) as (_ & X & _); exact (G _ _ X E)|].
      destruct (c5 / 4 =? 2); [destruct (A T8_OAM) as (_ & _ & X & _); exact (G _ _ X E)|exact (N E)].
  - destruct (is_amr_low b) as [[]|]; [| |discriminate E].
    + destruct (A T8_AMR_LOW) as (_ & _ & _ & X & _). exact (G _ _ X E).
    + destruct (is_amr_67 b) as [[]|]; [| |discriminate E].
      * destruct (A T8_AMR_6k7) as (_ & _ & _ & _ & _ & X). rewrite X in E. discriminate E.
      * destruct (is_amr_74 b) as [[]|]; [| |discriminate E]; [|exact (N E)].
        destruct (A T8_AMR_7k4) as (_ & _ & _ & _ & X & _). exact (G _ _ X E).
Qed.
Lemma ta_zero fr : (tf_dir fr = DL -> tf_ta fr = 0%Z) -> ta_bits fr = 0%Z.
Proof.
  intros H. unfold ta_bits, ta16, ta8. destruct (tf_dir fr); [now destruct (tf_type fr)|]. rewrite (H eq_refl). now destruct (tf_type fr).
Qed.

Definition v_types : list ftype := [T16_FR; T16_EFR; T16_HR; T16_DATA; T16_DATA_HR; T8_SPEECH; T8_DATA].
Lemma carried cd st dir fr b rtp es fr' (P : list Z -> Prop) : codec_laws cd -> ready dir (fr, b, rtp) -> reachable es ->
  In (st_type st) v_types -> osmo_rtp2trau cd fr rtp st = Some (0%Z, fr') -> tf_wf fr' -> tf_type fr' = st_type st ->
  (forall out, buffer out (length out) 160 -> exists rc o, osmo_trau2rtp cd out (length out) fr' st = Some (rc, o) /\ (0 <= rc)%Z /\ P (firstn (Z.to_nat rc) o)) ->
  exists es' f, tx cd st es (fr, b, rtp) = Some (es', f) /\ reachable es' /\ encoded (pattern_of st) f /\
    forall fr0 out, tf_wf fr0 -> buffer out (length out) 160 -> exists q', rx cd st dir fr0 out f = Some q' /\ P q'.
Proof.
  intros CL R RE TI E W' T' OUT. destruct R as (W & D & TA & TD & LB).
  assert (NE : st_type st <> T16_EDATA) by (intros X; rewrite X in TI; cbn in TI; decompose [or] TI; discriminate || contradiction).
  destruct (rtp2trau_keeps cd fr rtp st 0 fr' NE E) as [KT KD].
  assert (TA' : ta_ok fr') by (unfold ta_ok in *; rewrite KT; exact TA).
  assert (TZ : ta_bits fr' = 0%Z) by (apply ta_zero; rewrite KT, KD, D; exact TD).
  destruct (C17_encode_buffer es b (length b) fr' RE W' TA' ltac:(lia)) as (es' & rc & b' & E2 & L2 & _ & K).
  assert (RQ : exists r, required (tf_type fr') = Some r /\ r <= 639).
  { rewrite T'. cbn in TI. decompose [or] TI; try contradiction; match goal with H : _ = st_type st |- _ => rewrite <- H end; eexists; (split; [reflexivity|lia]). }
  destruct RQ as (r & RQ & RL). rewrite RQ in K. destruct (Nat.ltb_spec (length b) r); [lia|].
  destruct (encode_inv es b (length b) fr' es' rc b' RE W' TA' ltac:(lia) E2 ltac:(lia)) as (RC & _ & _).
  rewrite TZ, Z.add_0_r in RC.
  assert (FL : TrauFields.frame_len (tf_type fr') = SyncSpec.frame_len (pattern_of st)).
  { rewrite T'. unfold pattern_of. cbn in TI. decompose [or] TI; try contradiction; match goal with H : _ = st_type st |- _ => rewrite <- H end; reflexivity. }
  assert (CA : carries (pattern_of st) (tf_type fr') = true).
  { rewrite T'. unfold pattern_of. cbn in TI. decompose [or] TI; try contradiction; match goal with H : _ = st_type st |- _ => rewrite <- H end; reflexivity. }
  exists es', (firstn (Z.to_nat rc) b'). split; [|split; [|split]].
  - unfold tx. rewrite E. cbn [Z.eqb]. rewrite E2. cbn [fst snd]. destruct (Z.ltb_spec 0 rc); [reflexivity|lia].
  - eapply reach_call; [exact RE|exact E2].
  - rewrite RC, Nat2Z.id, FL. eapply enc; [exact RE|exact W'|exact TA'| |exact CA|exact E2|]; [lia|]. now rewrite RC, FL.
  - intros fr0 out W0 B. destruct (OUT out B) as (n & o & E3 & Hn & AR).
    assert (LF : length (firstn (Z.to_nat rc) b') = TrauFields.frame_len (tf_type fr')).
    { rewrite RC, Nat2Z.id. apply firstn_length_le. rewrite L2. destruct (tf_type fr'); cbn in *; lia. }
    assert (FIN : forall fr2 (rcd : Z), rcd = 0%Z -> tf_wf fr2 ->
        (exists o', osmo_trau2rtp cd out (length out) fr2 st = Some (n, o') /\ firstn (Z.to_nat n) o' = firstn (Z.to_nat n) o) ->
        exists q', (if Z.eqb rcd 0 then do (n, out) <- osmo_trau2rtp cd out (length out) fr2 st; (if Z.ltb n 0 then None else Some (firstn (Z.to_nat n) out)) else None) = Some q' /\ P q').
    { intros fr2 rcd -> W2 (o' & E4 & Q). cbn [Z.eqb]. rewrite E4. destruct (Z.ltb_spec n 0); [lia|]. exists (firstn (Z.to_nat n) o'). split; [reflexivity|]. rewrite Q. exact AR. }
    pose proof CL as (_ & _ & CO & _).
    unfold rx. destruct (on8 (st_type st)) eqn:O8.
    + assert (T8 : tf_type fr' = T8_SPEECH \/ tf_type fr' = T8_DATA) by (rewrite T'; destruct (st_type st); try discriminate O8; auto).
      assert (V8 : valid_c8 fr').
      { unfold valid_c8. destruct T8 as [T8|T8]; rewrite T8; [now destruct (tf_dir fr')|].
        pose proof (C52_data cd fr st rtp fr' W E) as C5. rewrite <- T', T8 in C5.
        destruct (tf_dir fr'); [exact C5|]. replace 3 with (Nat.min 3 5) by reflexivity. rewrite <- firstn_firstn, C5. reflexivity. }
      assert (R160 : rc = 160%Z) by (rewrite RC; destruct T8 as [-> | ->]; reflexivity).
      destruct (C20_roundtrip_8k es b (length b) fr' es' rc b' fr0 [] RE W' TA' ltac:(lia)) as (fr2 & E4 & _ & SC & _); try assumption; try lia.
      { destruct T8 as [-> | ->]; cbn; tauto. }
      rewrite app_nil_r, KD, D in E4.
      assert (F160 : firstn 160 (firstn (Z.to_nat rc) b') = firstn (Z.to_nat rc) b') by (rewrite R160, firstn_firstn; reflexivity).
      rewrite F160 in E4. rewrite E4. apply FIN; [reflexivity| |].
      * eapply decode8_wf; [|exact W0|exact E4]. rewrite LF. destruct T8 as [-> | ->]; reflexivity.
      * eapply same8_rtp; [exact W'| |exact CO|exact SC|exact T8|exact B|exact E3].
        eapply decode8_wf; [|exact W0|exact E4]. rewrite LF. destruct T8 as [-> | ->]; reflexivity.
    + assert (T6 : In (tf_type fr') [T16_FR; T16_EFR; T16_HR; T16_DATA; T16_DATA_HR]).
      { rewrite T'. cbn in TI. decompose [or] TI; try contradiction; match goal with H : _ = st_type st |- _ => rewrite <- H in O8 |- * end; try discriminate O8; cbn; tauto. }
      assert (R320 : rc = 320%Z) by (rewrite RC; cbn in T6; decompose [or] T6; try contradiction; match goal with H : _ = tf_type fr' |- _ => rewrite <- H end; reflexivity).
      destruct (C19_roundtrip_16k es b (length b) fr' es' rc b' fr0 dir [] RE W' TA' ltac:(lia)) as (fr2 & E4 & _ & SC & _); try assumption; try lia.
      { cbn in T6 |- *. decompose [or] T6; try contradiction; tauto. }
      rewrite app_nil_r in E4.
      assert (F320 : firstn 320 (firstn (Z.to_nat rc) b') = firstn (Z.to_nat rc) b') by (rewrite R320, firstn_firstn; reflexivity).
      rewrite F320 in E4.
      assert (W2 : tf_wf fr2).
      { pose proof (decode16_total_m (firstn (Z.to_nat rc) b') fr0 dir) as DT. rewrite E4 in DT. apply lens_wf. apply DT; [|exact W0].
        rewrite LF. cbn in T6. decompose [or] T6; try contradiction; match goal with H : _ = tf_type fr' |- _ => rewrite <- H end; reflexivity. }
      rewrite E4. apply FIN; [reflexivity|exact W2|].
      eapply same16_rtp; [exact W'|exact W2|exact CO|exact SC|exact T6|exact B|exact E3].
Qed.

Lemma sent cd st dir x q es : codec_laws cd -> ready dir x -> arrives cd st dir (payload x) q -> reachable es ->
  exists es' f, tx cd st es x = Some (es', f) /\ reachable es' /\ encoded (pattern_of st) f /\
    forall fr0 out, tf_wf fr0 -> buffer out (length out) 160 -> exists q', rx cd st dir fr0 out f = Some q' /\ arrives cd st dir (payload x) q'.
Proof.
  intros CL R A RE. pose proof (made cd st dir x q CL R A) as M. destruct x as [[fr b] rtp]. destruct M as (TI & fr' & E & W' & T' & OUT).
  exact (carried cd st dir fr b rtp es fr' (arrives cd st dir rtp) CL R RE TI E W' T' OUT).
Qed.

(** C69. For any number of packets, of any kind a call can carry: they all become frames; the
    line may idle before the first and its bits be handed to the receiver in any pieces; the
    receiver's synchroniser delivers the frames, each of them once, in order and nothing else;
    and each frame becomes the packet it was made of. *)
Theorem C69_call : forall cd st dir xs k tail junk, codec_laws cd ->
  Forall (ready dir) xs -> Forall (fun x => exists q, arrives cd st dir (payload x) q) xs -> xs <> [] ->
  length tail < SyncSpec.frame_len (pattern_of st) ->
  exists fs, tx_all cd st idle_initial xs = Some fs /\
    (forall chunks, concat chunks = repeat true k ++ concat fs ++ tail ->
       exists s outs, do_ops junk (osmo_trau_sync_alloc (pattern_of st)) (map Rx chunks) = Some (s, outs) /\ concat outs = map Frame fs) /\
    Forall2 (fun x f => forall fr0 out, tf_wf fr0 -> buffer out (length out) 160 ->
       exists q, rx cd st dir fr0 out f = Some q /\ arrives cd st dir (payload x) q) xs fs.
Proof.
  intros cd st dir xs k tail junk CL FR FA NN LT.
  assert (G : forall es, reachable es -> exists fs, tx_all cd st es xs = Some fs /\ Forall (encoded (pattern_of st)) fs /\
    Forall2 (fun x f => forall fr0 out, tf_wf fr0 -> buffer out (length out) 160 ->
       exists q, rx cd st dir fr0 out f = Some q /\ arrives cd st dir (payload x) q) xs fs).
  { clear NN. induction xs as [|x xs IH]; intros es RE.
    - exists []. split; [reflexivity|]. split; constructor.
    - destruct (Forall_inv FA) as (q & A). destruct (sent cd st dir x q es CL (Forall_inv FR) A RE) as (es' & f & E & RE' & EN & Q).
      destruct (IH (Forall_inv_tail FR) (Forall_inv_tail FA) es' RE') as (fs & E2 & EN2 & Q2).
      exists (f :: fs). split; [cbn [tx_all]; now rewrite E, E2|]. split; constructor; assumption. }
  destruct (G idle_initial reach_start) as (fs & E & EN & Q). exists fs. split; [exact E|]. split; [|exact Q].
  intros chunks HC.
  assert (NF : fs <> []) by (intros ->; inversion Q; congruence).
  destruct (C51_encoder_stream junk (pattern_of st) [] (osmo_trau_sync_alloc (pattern_of st)) [] k fs tail (Forall_nil _) eq_refl EN LT NF) as (s' & ES).
  destruct (C29_chunking junk (pattern_of st) [] (osmo_trau_sync_alloc (pattern_of st)) [] chunks Logic.I eq_refl) as (s2 & outs & E1 & E2).
  exists s2, outs. split; [exact E1|]. rewrite HC, ES in E2. congruence.
Qed.

(** REFUTED: the same in the downlink, for full rate and enhanced full rate speech (without
    TW-TS-001).  Every packet becomes a frame that is sent and arrives, but the receiver takes
    every one for a bad frame: its payload is empty, whatever was sent. *)
Theorem C69_downlink_refuted : forall cd st fr b rtp, codec_laws cd -> ready DL (fr, b, rtp) -> st_twts001 st = false -> speech st rtp ->
  exists f, tx_all cd st idle_initial [(fr, b, rtp)] = Some [f] /\
    forall fr0 out, tf_wf fr0 -> buffer out (length out) 160 -> rx cd st DL fr0 out f = Some [].
Proof.
  intros cd st fr b rtp CL R S (F & K). pose proof R as (W & D & _).
  assert (HT : st_type st = T16_FR \/ st_type st = T16_EFR) by (destruct K as [K|K]; [left|right]; apply K).
  destruct (C27_rtp2trau_accepts cd fr st rtp W F) as (rc & f & E & W' & AC).
  assert (A : accepted st (tf_dir fr) rtp = true).
  { unfold accepted. destruct K as [(T & L & H)|(T & L & H)]; rewrite T; apply accept_plain; try assumption; discriminate. }
  rewrite A in AC. destruct AC as (-> & T' & D').
  destruct (C52_speech_downlink cd fr st rtp f W F HT D E) as (_ & _ & _ & _ & C1 & _).
  assert (BFI : nth 11 (tf_c f) false = true) by (apply (C1 12); lia).
  assert (BL : forall out n, buffer out (length out) 160 -> n <= 160 -> buffer out (length out) n) by (intros out n (B1 & B2 & B3) Hn; split; [exact B1|lia]).
  destruct (carried cd st DL fr b rtp idle_initial f (fun q => q = []) CL R reach_start) as (es' & g & E2 & _ & _ & Q).
  - destruct HT as [-> | ->]; cbn; tauto.
  - exact E.
  - exact W'.
  - exact T'.
  - intros out B. destruct HT as [T|T].
    + exists 0%Z, out. split; [|split; [lia|reflexivity]].
      rewrite (fr_api_plain cd out (length out) f st W' ltac:(congruence) S (BL out 33 B ltac:(lia))), BFI. reflexivity.
    + destruct (efr_api_plain cd out (length out) f st W' ltac:(congruence) S (BL out 31 B ltac:(lia))) as (rc & p & E2 & _ & _ & K2).
      rewrite BFI in K2. cbn [orb] in K2. subst rc. exists 0%Z, (p ++ skipn 31 out). split; [exact E2|]. split; [lia|reflexivity].
  - exists g. split; [cbn [tx_all]; now rewrite E2|]. intros fr0 out W0 B. destruct (Q fr0 out W0 B) as (q & -> & ->). reflexivity.
Qed.

(** hypotheses are met: a full rate call (a packet, silence, a packet) and a data call *)
Definition ex_pkt (ty : ftype) (dir : fdir) (rtp : list Z) : packet := (ex_tf ty dir, repeat false 639, rtp).
Definition ex_fr : list packet := [ex_pkt FT_NONE UL (0xD5%Z :: repeat 0xA7%Z 32); ex_pkt FT_NONE UL []; ex_pkt FT_NONE UL (0xD0%Z :: repeat 3%Z 32)].
Definition ex_st : rtp_state := mkRtpState T16_FR false false false.
Lemma ex_octs n z : is_octet z -> Forall is_octet (repeat z n).
Proof. intros H. apply Forall_forall. intros x Hx. apply repeat_spec in Hx. now subst. Qed.
Example C69_example : codec_laws ex_codec /\ Forall (ready UL) ex_fr /\
  Forall (fun x => exists q, arrives ex_codec ex_st UL (payload x) q) ex_fr /\
  match tx_all ex_codec ex_st idle_initial ex_fr with
  | Some [f1; f2; f3] => exists i j, nth_error f1 i <> nth_error f2 i /\ nth_error f1 j <> nth_error f3 j
  | _ => False
  end /\
  (exists rtp, let x := ex_pkt FT_NONE DL rtp in ready DL x /\ rtp <> [] /\ exists q, arrives ex_codec (mkRtpState T8_DATA false false false) DL (payload x) q).
Proof.
  assert (RD : forall dir rtp, ready dir (ex_pkt FT_NONE dir rtp)).
  { intros dir rtp. unfold ready, ex_pkt. split; [|split; [reflexivity|split; [unfold ta_ok; cbn; lia|split; [reflexivity|rewrite repeat_length; lia]]]].
    unfold tf_wf, ex_tf. cbn [tf_c tf_d tf_t tf_s tf_m tf_crc tf_xc]. rewrite ?repeat_length. tauto. }
  split; [|split; [|split; [|split]]].
  - split; [|split]; [discriminate|discriminate|]. apply C25_example.
  - repeat apply Forall_cons; try apply RD. apply Forall_nil.
  - apply Forall_cons; [|apply Forall_cons; [|apply Forall_cons; [|apply Forall_nil]]].
    + eexists. apply ar_speech; [reflexivity|]. split; [constructor; [unfold is_octet; lia|apply ex_octs; unfold is_octet; lia]|]. left. repeat split.
    + eexists. apply ar_nothing; [reflexivity|now left].
    + eexists. apply ar_speech; [reflexivity|]. split; [constructor; [unfold is_octet; lia|apply ex_octs; unfold is_octet; lia]|]. left. repeat split.
  - vm_compute. exists 28, 34. split; discriminate.
  - exists (ra2_8k_octets (v110_frame (repeat true 63) ++ v110_frame (repeat false 63))). split; [apply RD|]. split; [discriminate|].
    eexists. apply ar_data; [cbn; tauto| |].
    + split; [vm_compute; reflexivity|]. intros [|[|k]] H; [| |cbn in H; lia]; apply aligned_spec; vm_compute; reflexivity.
    + apply Forall_forall. intros o H. apply in_map_iff in H. destruct H as ([] & <- & _); (split; [unfold is_octet; lia|reflexivity]).
Qed.
Print Assumptions C69_call.
Print Assumptions C69_downlink_refuted.
