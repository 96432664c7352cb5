(** Properties C17-C22 (TRAU frame codec, src/trau/trau_frame.c).
    Specification vocabulary: TrauSpec.v, TrauFields.v. *)
From Coq Require Import List Arith Lia Bool ZArith.
From Verif Require Import Base Spec TrauSpec TrauModel TrauFields TrauProofs.
Import ListNotations.

(** The static idle-frame objects after program start and any sequence of
    encoder calls. *)
Inductive reachable : idle_state -> Prop :=
  | reach_start : reachable idle_initial
  | reach_call : forall st b n fr st' r, reachable st ->
      osmo_trau_frame_encode st b n fr = Some (st', r) -> reachable st'.

Lemma reachable_inv st : reachable st -> st = idle_initial \/ st = idle_done.
Proof.
  induction 1 as [|st b n fr st' r _ IH E]; [now left|].
  unfold osmo_trau_frame_encode in E. destruct (_ <? _)%Z; [injection E as <- _; exact IH|].
  assert (K : forall x, match x with Some y => Some (st, y) | None => None end = Some (st', r) -> st' = idle_initial \/ st' = idle_done).
  { intros x. destruct x; [|discriminate]. intros E'; injection E' as <- _. exact IH. }
  cbv zeta in E.
  destruct (tf_type fr); try (exact (K _ E)); try (injection E as <- _; exact IH).
  clear K. right. unfold encode16_idle in E.
  assert (T : trau_idle_frame st = Some (idle_done, idle_line))
    by (destruct IH as [->| ->]; [exact idle_first|exact idle_again]).
  rewrite T in E. destruct (memcpy b 0 _ 0 320); [|discriminate]. cbn [fst] in E. congruence.
Qed.

(** C17. [b] is the caller's memory, of which the first [n_bits] bits are
    offered to the encoder. The call always returns (no access outside [b]);
    nothing at or beyond [n_bits] changes; a buffer too small for the type is
    refused with nothing written; otherwise the returned length is positive
    and at most [n_bits]. *)
Theorem C17_encode_buffer : forall st b n_bits fr,
  reachable st -> tf_wf fr -> ta_ok fr -> n_bits <= length b ->
  exists st' rc b', osmo_trau_frame_encode st b n_bits fr = Some (st', (rc, b')) /\
    length b' = length b /\ skipn n_bits b' = skipn n_bits b /\
    match required (tf_type fr) with
    | None => rc = EINVAL /\ b' = b
    | Some r => if n_bits <? r then rc = ENOSPC /\ b' = b else (0 < rc <= Z.of_nat n_bits)%Z
    end.
Proof.
  intros st b n_bits fr Hst W HT Hn. apply reachable_inv in Hst.
  destruct (required (tf_type fr)) as [r|] eqn:HR.
  - destruct (Nat.ltb_spec n_bits r) as [Hr|Hr].
    + exists st, ENOSPC, b. unfold osmo_trau_frame_encode.
      assert (E : encode_size_check n_bits fr = ENOSPC).
      { unfold encode_size_check. destruct (tf_type fr); cbn in HR; try discriminate HR; injection HR as <-;
        (match goal with |- context [n_bits <? ?m] => destruct (Nat.ltb_spec n_bits m) as [Q|Q] end; [reflexivity|cbn in Q; lia]). }
      rewrite E. cbn. auto.
    + destruct (encode_all st b n_bits fr r Hst W HT HR Hr Hn) as (st' & b' & E & _ & L & S & _).
      exists st', (Z.of_nat (frame_len (tf_type fr)) + ta_bits fr)%Z, b'. split; [exact E|].
      split; [exact L|]. split; [exact S|].
      pose proof (ta16_range fr). pose proof (ta8_range fr). unfold frame_len, ta_bits.
      destruct (tf_type fr); cbn in HR; try discriminate HR; injection HR as <-; lia.
  - exists st, EINVAL, b. unfold osmo_trau_frame_encode, encode_size_check.
    destruct (tf_type fr); cbn in HR; try discriminate HR; cbn; auto.
Qed.

Definition ex_frame ty dir ta := mkTf ty dir ta (repeat true 25) (repeat true 288) (repeat true 4) (repeat false 6)
  (repeat true 2) true (repeat true 3) (repeat false 6).
Example C17_example : reachable idle_initial /\ tf_wf (ex_frame T16_EFR DL 19500) /\ ta_ok (ex_frame T16_EFR DL 19500) /\
  required T16_EFR = Some 639 /\ 639 <= length (repeat false 640).
Proof. split; [constructor|]. repeat split; cbn; lia. Qed.
Print Assumptions C17_encode_buffer.

(** C18. Every successfully encoded frame carries its type's synchronisation
    pattern within the bits reported as the frame, also after timing
    alignment, for every type except AMR 6.7. *)
Theorem C18_sync_pattern : forall st b n_bits fr st' rc b',
  reachable st -> tf_wf fr -> ta_ok fr -> n_bits <= length b ->
  tf_type fr <> T8_AMR_6k7 ->
  osmo_trau_frame_encode st b n_bits fr = Some (st', (rc, b')) -> (0 <= rc)%Z ->
  has_pattern (firstn (Z.to_nat rc) b') (sync_pattern (tf_type fr)).
Proof.
  intros st b n_bits fr st' rc b' Hst W HT Hn N67 E Hrc. apply reachable_inv in Hst.
  destruct (required (tf_type fr)) as [r|] eqn:HR.
  2:{ exfalso. unfold osmo_trau_frame_encode, encode_size_check in E.
      destruct (tf_type fr); cbn in HR; try discriminate HR; cbn in E; injection E as <- <- <-; cbv in Hrc; congruence. }
  destruct (Nat.ltb_spec n_bits r) as [Hr|Hr].
  { exfalso. destruct (C17_encode_buffer st b n_bits fr) as (st2 & rc2 & b2 & E2 & _ & _ & Q); try assumption.
    { destruct Hst as [->| ->]; [constructor|].
      eapply (reach_call idle_initial (repeat false 320) 320 (ex_frame T16_IDLE UL 0)); [constructor|].
      unfold osmo_trau_frame_encode, encode16_idle. cbn [ex_frame tf_type encode_size_check]. rewrite idle_first. vm_compute. reflexivity. }
    rewrite HR in Q. destruct (Nat.ltb_spec n_bits r); [|lia]. destruct Q as [-> ->].
    rewrite E in E2. injection E2 as _ -> _. cbv in Hrc. congruence. }
  destruct (encode_all st b n_bits fr r Hst W HT HR Hr Hn) as (st2 & b2 & E2 & _ & L & S & A & _).
  rewrite E in E2. injection E2 as -> -> ->.
  assert (K : forall n p, n = frame_len (tf_type fr) -> has_pattern (firstn n b2) p ->
            forall m, (forall o v, In (o, v) p -> o < m) -> has_pattern (firstn m b2) p).
  { intros n p -> Hp m Hm o v HI. specialize (Hp o v HI). specialize (Hm o v HI).
    assert (o < length (firstn (frame_len (tf_type fr)) b2)) by (apply nth_error_Some; rewrite Hp; discriminate).
    rewrite firstn_length in H. rewrite nth_error_firstn in Hp by lia. now rewrite nth_error_firstn. }
  pose proof (ta16_range fr) as R16. pose proof (ta8_range fr) as R8.
  assert (KB : forall p n m, forallb (fun q : nat * bool => fst q <? n) p = true -> n <= m -> forall o v, In (o, v) p -> o < m).
  { intros p n m Hb Hm o v HI. apply (pos_bound p n Hb) in HI. lia. }
  unfold area_ok, frame_len, ta_bits, sync_pattern in *.
  destruct (tf_type fr); cbn in HR; try discriminate HR; injection HR as <-;
  try (match type of A with _ /\ _ => idtac end; destruct A as [P _]; apply pat_has in P; refine (K _ _ eq_refl P _ _);
       first [eapply (KB _ 316); [reflexivity|lia] | eapply (KB _ 158); [reflexivity|lia]]).
  - (* IDLE *) refine (K 320 _ eq_refl _ _ _); [rewrite A; exact (pat_has _ _ idle_line_pat)|].
    eapply (KB _ 316); [reflexivity|lia].
  - now exfalso.
Qed.

(** The exception is real: the encoder destroys the AMR 6.7 pattern (it puts
    D bits on the pattern positions 32, 40, 48, 56), so its own frames are not
    recognised as such. *)
Theorem C18_amr67_pattern_refuted : exists fr b st' rc b',
  tf_wf fr /\ ta_ok fr /\ tf_type fr = T8_AMR_6k7 /\ length b = 319 /\
  osmo_trau_frame_encode idle_initial b 319 fr = Some (st', (rc, b')) /\ rc = 160%Z /\
  ~ has_pattern (firstn 160 b') (sync_pattern T8_AMR_6k7) /\
  (forall fr0, tf_wf fr0 -> exists fr', osmo_trau_frame_decode_8k fr0 (firstn 160 b') UL = Some (EINVAL, fr')).
Proof.
  exists (ex_frame T8_AMR_6k7 UL 0), (repeat false 319).
  pose (r := osmo_trau_frame_encode idle_initial (repeat false 319) 319 (ex_frame T8_AMR_6k7 UL 0)).
  assert (H : match r with Some (st', (rc, b')) => rc = 160%Z /\ nth_error (firstn 160 b') 40 = Some true /\ length b' = 319
     | None => False end) by (vm_compute; conjs).
  assert (H2 : match r with Some (st', (rc, b')) => forall fr0, tf_wf fr0 -> exists fr', osmo_trau_frame_decode_8k fr0 (firstn 160 b') UL = Some (EINVAL, fr')
     | None => False end).
  { vm_compute. intros fr0 _. eexists. reflexivity. }
  fold r. destruct r as [[st' [rc b']]|] eqn:E; [|contradiction]. destruct H as (H1 & H3 & _).
  exists st', rc, b'. split; [repeat split|]. split; [cbv; split; discriminate|]. split; [reflexivity|]. split; [reflexivity|].
  split; [reflexivity|]. split; [exact H1|]. split; [|exact H2].
  intros HP. specialize (HP 40 false). rewrite H3 in HP. assert (Some true = Some false) by (apply HP; cbn; tauto). discriminate.
Qed.
Example C18_example : exists st' b', osmo_trau_frame_encode idle_initial (repeat false 639) 639 (ex_frame T16_FR DL (-250)) = Some (st', (316%Z, b')).
Proof. eexists. eexists. vm_compute. reflexivity. Qed.
Print Assumptions C18_sync_pattern.
Print Assumptions C18_amr67_pattern_refuted.

(** C19. The receiver sees the [rc] bits reported by the encoder followed by
    whatever is sent next ([tail]) and decodes the first 320 of them. Type,
    C, D, M, UFI and CRC bits arrive; the T bits arrive unless timing
    alignment has cut the frame short. *)
Lemma reach_done : reachable idle_done.
Proof.
  eapply (reach_call idle_initial (repeat false 320) 320 (ex_frame T16_IDLE UL 0)); [constructor|].
  unfold osmo_trau_frame_encode, encode16_idle. cbn [ex_frame tf_type encode_size_check]. rewrite idle_first. vm_compute. reflexivity.
Qed.

Lemma encode_inv st b n_bits fr st' rc b' :
  reachable st -> tf_wf fr -> ta_ok fr -> n_bits <= length b ->
  osmo_trau_frame_encode st b n_bits fr = Some (st', (rc, b')) -> (0 <= rc)%Z ->
  rc = (Z.of_nat (frame_len (tf_type fr)) + ta_bits fr)%Z /\ (exists r, required (tf_type fr) = Some r /\ r <= n_bits) /\
    length b' = length b /\ area_ok fr (firstn (frame_len (tf_type fr)) b') /\
    sub b' (frame_len (tf_type fr)) (Z.to_nat (ta_bits fr)) = repeat true (Z.to_nat (ta_bits fr)).
Proof.
  intros Hst W HT Hn E Hrc.
  destruct (C17_encode_buffer st b n_bits fr Hst W HT Hn) as (st2 & rc2 & b2 & E2 & _ & _ & Q).
  rewrite E in E2. injection E2 as <- <- <-. apply reachable_inv in Hst.
  destruct (required (tf_type fr)) as [r|] eqn:HR; [|destruct Q as [-> _]; cbv in Hrc; congruence].
  destruct (Nat.ltb_spec n_bits r) as [Hr|Hr]; [destruct Q as [-> _]; cbv in Hrc; congruence|].
  destruct (encode_all st b n_bits fr r Hst W HT HR Hr Hn) as (st2 & b2 & E2 & _ & L & S & A & P).
  rewrite E in E2. injection E2 as -> -> ->. split; [reflexivity|]. split; [now exists r|]. auto.
Qed.

Lemma prefix_tail (b tail : bits) k n : n <= 316 + k -> 316 + k <= length b -> 316 <= n ->
  320 <= n + length tail -> k = n - 316 ->
  exists x, length x = 4 /\ firstn 320 (firstn n b ++ tail) = firstn 316 b ++ x /\ (4 <= k -> x = sub b 316 4).
Proof.
  intros. exists (firstn 4 (skipn 316 (firstn n b ++ tail))).
  assert (L : length (firstn n b) = n) by (rewrite firstn_length; lia).
  split; [rewrite firstn_length, skipn_length, app_length, L; lia|]. split.
  - rewrite <- (firstn_skipn_comm' (firstn n b ++ tail) 316 4) at 1. f_equal.
    rewrite firstn_app, L, firstn_firstn. replace (316 - n) with 0 by lia. rewrite app_nil_r. f_equal; lia.
  - intros Hk. unfold sub. rewrite skipn_app, L. replace (316 - n) with 0 by lia. change (skipn 0 tail) with tail.
    rewrite firstn_app, skipn_length, L. replace (4 - (n - 316)) with 0 by lia. rewrite app_nil_r.
    rewrite skipn_firstn_comm, firstn_firstn. f_equal; lia.
Qed.

Lemma len4 (x : bits) : length x = 4 -> exists a b c d, x = [a;b;c;d].
Proof. intros L. destruct x as [|a[|b[|c[|d[|]]]]]; try discriminate. now exists a,b,c,d. Qed.

Lemma sub_app_l {A} (a b : list A) n m : length a = n -> length b = m -> forall r, sub (a ++ b ++ r) n m = b.
Proof. intros Ha Hb r. unfold sub. rewrite skipn_app_exact by assumption. now apply firstn_app_exact. Qed.
Lemma sub_len {A} (l : list A) o n : o + n <= length l -> length (sub l o n) = n.
Proof. intros. unfold sub. rewrite firstn_length, skipn_length. lia. Qed.

Theorem C19_roundtrip_16k : forall st b n_bits fr st' rc b' fr0 dir tail,
  reachable st -> tf_wf fr -> ta_ok fr -> n_bits <= length b ->
  In (tf_type fr) [T16_FR; T16_EFR; T16_HR; T16_AMR; T16_DATA; T16_DATA_HR; T16_EDATA; T16_D145_SYNC] ->
  osmo_trau_frame_encode st b n_bits fr = Some (st', (rc, b')) -> (0 <= rc)%Z ->
  tf_wf fr0 -> (320 <= rc + Z.of_nat (length tail))%Z ->
  exists fr', osmo_trau_frame_decode_16k fr0 (firstn 320 (firstn (Z.to_nat rc) b' ++ tail)) dir = Some (0%Z, fr') /\
    tf_dir fr' = dir /\ same_contents16 fr fr' /\
    firstn 5 (tf_c fr') = code16 (tf_type fr) (tf_dir fr) /\
    (is_speech16 (tf_type fr) = true -> (320 <= rc)%Z -> tf_t fr' = tf_t fr).
Proof.
  intros st b n_bits fr st' rc b' fr0 dir tail Hst W HT Hn HI E Hrc W0 Htail.
  destruct (encode_inv st b n_bits fr st' rc b' Hst W HT Hn E Hrc) as (R & (r & HR & Hr) & L & A & _). clear E.
  pose proof (ta16_range fr) as R16. pose proof W as (Wc & Wd & Wt & Ws & Wm & Wcr & Wx). pose proof W0 as (Vc & Vd & Vt & Vs & Vm & Vcr & Vx).
  unfold area_ok, same_contents16, code16, is_speech16, n_c16, n_d16, ta_bits, frame_len in *.
  assert (SC : forall n, n <= 20 -> length (sub (tf_c fr) 5 n) = n) by (intros; apply sub_len; rewrite Wc; lia).
  assert (SD : forall n, n <= 288 -> length (firstn n (tf_d fr)) = n) by (intros; rewrite firstn_length, Wd; lia).
  assert (full : rc = 320%Z -> 320 <= length b' -> firstn 320 (firstn (Z.to_nat rc) b' ++ tail) = firstn 320 b').
  { intros -> Hb'. change (Z.to_nat 320) with 320. rewrite firstn_app_exact; [reflexivity|]. rewrite firstn_length; lia. }
  assert (speech : forall r', 639 <= length b' -> rc = (320 + ta16 fr)%Z -> r' = r' :> nat ->
     exists a0 a1 a2 a3, firstn 320 (firstn (Z.to_nat rc) b' ++ tail) = firstn 316 b' ++ [a0;a1;a2;a3] /\
       ((320 <= rc)%Z -> [a0;a1;a2;a3] = sub b' 316 4)).
  { intros _ Hb' Rq _. destruct (prefix_tail b' tail (Z.to_nat rc - 316) (Z.to_nat rc)) as (x & Lx & Ex & Tx); try lia.
    destruct (len4 x Lx) as (a0 & a1 & a2 & a3 & ->). exists a0, a1, a2, a3. split; [exact Ex|]. intros. apply Tx; lia. }
  assert (S320 : forall l o n, o + n <= 320 -> sub (firstn 320 l : bits) o n = sub l o n).
  { intros l o n Hon. unfold sub. rewrite skipn_firstn_comm, firstn_firstn. f_equal. lia. }
  assert (F316 : firstn 316 (firstn 320 b') = firstn 316 b') by (rewrite firstn_firstn; f_equal; lia).
  destruct (tf_type fr) eqn:TY; cbn in HI; try (exfalso; intuition discriminate); cbn in HR; try discriminate HR; injection HR as <-.
  - destruct (speech 0) as (a0 & a1 & a2 & a3 & -> & Tx); [lia|exact R|reflexivity|].
    destruct A as (_ & T & code & HC & D). rewrite S320 in T by lia. rewrite F316 in D. unfold dec16 in D. rewrite D by assumption.
    assert (CC : length code = 5 /\ code = match tf_dir fr with UL => [false;false;false;true;false] | DL => [true;true;true;false;false] end).
    { unfold fr_cbits5 in HC. rewrite TY in HC. destruct (tf_dir fr); injection HC as <-; split; reflexivity. }
    destruct CC as [LC CC].
    eexists. split; [reflexivity|]. cbn [upd tf_dir tf_type tf_c tf_d tf_t tf_m tf_s tf_ufi tf_crc].
    split; [reflexivity|]. split; [|split].
    + split; [reflexivity|]. split; [apply sub_app_l; [exact LC|apply SC; lia]|].
      split; [apply firstn_app_exact, SD; lia|]. repeat split; discriminate.
    + rewrite firstn_app_exact by exact LC. exact CC.
    + intros _ H. rewrite Tx by exact H. exact T.
  - destruct (speech 0) as (a0 & a1 & a2 & a3 & -> & Tx); [lia|exact R|reflexivity|].
    destruct A as (_ & T & D). rewrite S320 in T by lia. rewrite F316 in D. unfold dec16 in D. rewrite D by assumption.
    eexists. split; [reflexivity|]. cbn [upd tf_dir tf_type tf_c tf_d tf_t tf_m tf_s tf_ufi tf_crc].
    assert (LC : length (hr_code (tf_dir fr)) = 5) by (destruct (tf_dir fr); reflexivity).
    split; [reflexivity|]. split; [|split].
    + split; [reflexivity|]. split; [apply sub_app_l; [exact LC|apply SC; lia]|].
      split; [apply firstn_app_exact, SD; lia|]. repeat split; discriminate.
    + rewrite firstn_app_exact by exact LC. destruct (tf_dir fr); reflexivity.
    + intros _ H. rewrite Tx by exact H. exact T.
  - destruct (speech 0) as (a0 & a1 & a2 & a3 & -> & Tx); [lia|exact R|reflexivity|].
    destruct A as (_ & T & code & HC & D). rewrite S320 in T by lia. rewrite F316 in D. unfold dec16 in D. rewrite D by assumption.
    assert (CC : length code = 5 /\ code = [true;true;false;true;false]).
    { unfold fr_cbits5 in HC. rewrite TY in HC. injection HC as <-; split; reflexivity. }
    destruct CC as [LC CC].
    eexists. split; [reflexivity|]. cbn [upd tf_dir tf_type tf_c tf_d tf_t tf_m tf_s tf_ufi tf_crc].
    split; [reflexivity|]. split; [|split].
    + split; [reflexivity|]. split; [apply sub_app_l; [exact LC|apply SC; lia]|].
      split; [apply firstn_app_exact, SD; lia|]. repeat split; discriminate.
    + rewrite firstn_app_exact by exact LC. destruct (tf_dir fr); exact CC.
    + intros _ H. rewrite Tx by exact H. exact T.
  - destruct (speech 0) as (a0 & a1 & a2 & a3 & -> & Tx); [lia|exact R|reflexivity|].
    destruct A as (_ & T & D). rewrite S320 in T by lia. rewrite F316 in D. unfold dec16 in D. rewrite D by assumption.
    eexists. split; [reflexivity|]. cbn [upd tf_dir tf_type tf_c tf_d tf_t tf_m tf_s tf_ufi tf_crc].
    split; [reflexivity|]. split; [|split].
    + split; [reflexivity|]. split; [rewrite <- (app_nil_r (sub (tf_c fr) 5 20)) at 1; apply sub_app_l; [reflexivity|apply SC; lia]|].
      split; [apply firstn_app_exact, SD; lia|]. repeat split; discriminate.
    + destruct (tf_dir fr); reflexivity.
    + intros _ H. rewrite Tx by exact H. exact T.
  - rewrite full by lia. destruct A as (_ & D). unfold dec16 in D. rewrite D by assumption.
    eexists. split; [reflexivity|]. cbn [upd tf_dir tf_type tf_c tf_d tf_t tf_m tf_s tf_ufi tf_crc].
    assert (LC : length (data_code (tf_dir fr)) = 5) by (destruct (tf_dir fr); reflexivity).
    split; [reflexivity|]. split; [|split; [|discriminate]].
    + split; [reflexivity|]. split; [apply sub_app_l; [exact LC|apply SC; lia]|].
      split; [apply firstn_app_exact, SD; lia|]. repeat split; discriminate.
    + rewrite firstn_app_exact by exact LC. destruct (tf_dir fr); reflexivity.
  - rewrite full by lia. destruct A as (_ & D). unfold dec16 in D. rewrite D by assumption.
    eexists. split; [reflexivity|]. cbn [upd tf_dir tf_type tf_c tf_d tf_t tf_m tf_s tf_ufi tf_crc].
    split; [reflexivity|]. split; [|split; [|discriminate]].
    + split; [reflexivity|]. split; [apply sub_app_l; [reflexivity|apply SC; lia]|].
      split; [reflexivity|]. repeat split; discriminate.
    + destruct (tf_dir fr); reflexivity.
  - rewrite full by lia. destruct A as (_ & D). unfold dec16 in D. rewrite D by assumption.
    eexists. split; [reflexivity|]. cbn [upd tf_dir tf_type tf_c tf_d tf_t tf_m tf_s tf_ufi tf_crc].
    split; [reflexivity|]. split; [|split; [|discriminate]].
    + split; [reflexivity|]. split; [apply sub_app_l; [reflexivity|apply SC; lia]|].
      split; [reflexivity|]. repeat split; discriminate.
    + destruct (tf_dir fr); reflexivity.
  - rewrite full by lia. destruct A as (_ & D). unfold dec16 in D. rewrite D by assumption.
    eexists. split; [reflexivity|]. cbn [upd tf_dir tf_type tf_c tf_d tf_t tf_m tf_s tf_ufi tf_crc].
    assert (LC : length (data_hr_code (tf_dir fr)) = 5) by (destruct (tf_dir fr); reflexivity).
    split; [reflexivity|]. split; [|split; [|discriminate]].
    + split; [reflexivity|]. split; [apply sub_app_l; [exact LC|apply SC; lia]|].
      split; [apply firstn_app_exact, SD; lia|]. repeat split; discriminate.
    + rewrite firstn_app_exact by exact LC. destruct (tf_dir fr); reflexivity.
Qed.

(** Idle frames: however the struct is filled, the line shows the downlink
    idle speech frame; it is received as IDLE with C6..C11 = 0, C12..C21 = 1
    and all D and T bits 1. *)
Theorem C19_idle_16k : forall st b n_bits fr st' rc b' fr0 dir,
  reachable st -> tf_wf fr -> ta_ok fr -> n_bits <= length b -> tf_type fr = T16_IDLE ->
  osmo_trau_frame_encode st b n_bits fr = Some (st', (rc, b')) -> (0 <= rc)%Z -> tf_wf fr0 ->
  rc = 320%Z /\ exists fr', osmo_trau_frame_decode_16k fr0 (firstn 320 b') dir = Some (0%Z, fr') /\
    tf_dir fr' = dir /\ tf_type fr' = T16_IDLE /\ firstn 21 (tf_c fr') = code16 T16_IDLE DL ++ repeat false 6 ++ repeat true 10 /\
    firstn 260 (tf_d fr') = repeat true 260 /\ tf_t fr' = repeat true 4.
Proof.
  intros st b n_bits fr st' rc b' fr0 dir Hst W HT Hn TY E Hrc W0.
  destruct (encode_inv st b n_bits fr st' rc b' Hst W HT Hn E Hrc) as (R & _ & _ & A & _).
  unfold area_ok, ta_bits, frame_len in *. rewrite TY in *. split; [exact R|].
  rewrite A, (sym_idle fr0 dir W0). eexists. split; [reflexivity|].
  cbn [tf_dir tf_type tf_c tf_d tf_t]. split; [reflexivity|]. split; [reflexivity|].
  split; [reflexivity|]. split; [|reflexivity]. now rewrite firstn_app_exact by apply repeat_length.
Qed.

(** The encoder ignores the direction of idle frames: an uplink idle frame is
    sent with the downlink type code. *)
Theorem C19_idle_uplink_code_refuted : exists fr st' b', tf_wf fr /\ tf_type fr = T16_IDLE /\ tf_dir fr = UL /\
  osmo_trau_frame_encode idle_initial (repeat false 320) 320 fr = Some (st', (320%Z, b')) /\
  sub b' 17 5 = code16 T16_IDLE DL /\ sub b' 17 5 <> code16 T16_IDLE UL.
Proof.
  exists (ex_frame T16_IDLE UL 0). eexists. eexists. split; [repeat split|]. split; [reflexivity|]. split; [reflexivity|].
  split; [vm_compute; reflexivity|]. split; [reflexivity|discriminate].
Qed.

(** O&M frames: no 320-bit O&M frame produced by the encoder can be decoded
    without reading outside it; and given one more bit, the D bits come back
    wrong. *)
Theorem C19_oam_16k_refuted :
  (forall st b n_bits fr st' rc b' fr0 dir, reachable st -> tf_wf fr -> ta_ok fr -> n_bits <= length b ->
     tf_type fr = T16_OAM -> osmo_trau_frame_encode st b n_bits fr = Some (st', (rc, b')) -> (0 <= rc)%Z -> tf_wf fr0 ->
     osmo_trau_frame_decode_16k fr0 (firstn 320 b') dir = None) /\
  (exists fr st' b' fr', tf_wf fr /\ tf_type fr = T16_OAM /\
     osmo_trau_frame_encode idle_initial (repeat false 320) 320 fr = Some (st', (320%Z, b')) /\
     osmo_trau_frame_decode_16k (ex_frame FT_NONE UL 0) (b' ++ [true]) UL = Some (0%Z, fr') /\
     firstn 255 (tf_d fr') <> firstn 255 (tf_d fr) /\ sub (tf_c fr') 5 10 <> sub (tf_c fr) 5 10).
Proof.
  split.
  - intros st b n_bits fr st' rc b' fr0 dir Hst W HT Hn TY E Hrc W0.
    destruct (encode_inv st b n_bits fr st' rc b' Hst W HT Hn E Hrc) as (R & _ & _ & A & _).
    unfold area_ok, frame_len in *. rewrite TY in *. now apply A.
  - exists (mkTf T16_OAM UL 0 (repeat false 5 ++ repeat true 20) (true :: repeat false 287) (repeat true 4) (repeat false 6)
       (repeat true 2) true (repeat true 3) (repeat false 6)). eexists. eexists. eexists. split; [repeat split|]. split; [reflexivity|].
    split; [vm_compute; reflexivity|]. split; [vm_compute; reflexivity|]. split; vm_compute; discriminate.
Qed.

Example C19_example : exists st' b', osmo_trau_frame_encode idle_initial (repeat false 639) 639 (ex_frame T16_HR DL (-250)) = Some (st', (316%Z, b'))
  /\ tf_wf (ex_frame T16_HR DL (-250)) /\ ta_ok (ex_frame T16_HR DL (-250)).
Proof. eexists. eexists. split; [vm_compute; reflexivity|]. split; [repeat split|]. cbv; split; discriminate. Qed.
Print Assumptions C19_roundtrip_16k.
Print Assumptions C19_idle_16k.
Print Assumptions C19_idle_uplink_code_refuted.
Print Assumptions C19_oam_16k_refuted.

(** C20. 8k frames, received in the direction they were sent. Speech frames
    survive timing alignment (only T1, T2 may be cut off); for the AMR types
    the frame must not be shortened. *)
Lemma prefix_tail8 (b tail : bits) n : 158 <= n -> n <= length b -> 160 <= n + length tail ->
  exists x0 x1, firstn 160 (firstn n b ++ tail) = firstn 158 b ++ [x0; x1] /\ (160 <= n -> [x0; x1] = sub b 158 2).
Proof.
  intros. assert (L : length (firstn n b) = n) by (rewrite firstn_length; lia).
  assert (Lx : length (firstn 2 (skipn 158 (firstn n b ++ tail))) = 2)
    by (rewrite firstn_length, skipn_length, app_length, L; lia).
  destruct (firstn 2 (skipn 158 (firstn n b ++ tail))) as [|x0 [|x1 [|]]] eqn:E; try discriminate.
  exists x0, x1. split.
  - change 160 with (158 + 2). rewrite <- (firstn_skipn_comm' (firstn n b ++ tail) 158 2), E. f_equal.
    rewrite firstn_app, L, firstn_firstn. replace (158 - n) with 0 by lia. rewrite app_nil_r. f_equal; lia.
  - intros Hk. rewrite <- E. unfold sub. rewrite skipn_app, L. replace (158 - n) with 0 by lia. change (skipn 0 tail) with tail.
    rewrite firstn_app, skipn_length, L. replace (2 - (n - 158)) with 0 by lia. rewrite app_nil_r.
    rewrite skipn_firstn_comm, firstn_firstn. f_equal; lia.
Qed.

Theorem C20_roundtrip_8k : forall st b n_bits fr st' rc b' fr0 tail,
  reachable st -> tf_wf fr -> ta_ok fr -> n_bits <= length b ->
  In (tf_type fr) [T8_SPEECH; T8_DATA; T8_OAM; T8_AMR_LOW; T8_AMR_7k4] -> valid_c8 fr ->
  osmo_trau_frame_encode st b n_bits fr = Some (st', (rc, b')) -> (0 <= rc)%Z ->
  tf_wf fr0 -> (160 <= rc + Z.of_nat (length tail))%Z -> tf_type fr = T8_SPEECH \/ (160 <= rc)%Z ->
  exists fr', osmo_trau_frame_decode_8k fr0 (firstn 160 (firstn (Z.to_nat rc) b' ++ tail)) (tf_dir fr) = Some (0%Z, fr') /\
    tf_dir fr' = tf_dir fr /\ same_contents8 fr fr' /\
    ((160 <= rc)%Z -> firstn (n_t8 (tf_type fr)) (tf_t fr') = firstn (n_t8 (tf_type fr)) (tf_t fr)).
Proof.
  intros st b n_bits fr st' rc b' fr0 tail Hst W HT Hn HI HV E Hrc W0 Htail Hcut.
  destruct (encode_inv st b n_bits fr st' rc b' Hst W HT Hn E Hrc) as (R & (r & HR & Hr) & L & A & _). clear E.
  pose proof (ta8_range fr) as R8. pose proof W as (Wc & Wd & Wt & Ws & Wm & Wcr & Wx). pose proof W0 as (Vc & Vd & Vt & Vs & Vm & Vcr & Vx).
  unfold area_ok, same_contents8, n_c8, n_d8, n_t8, ta_bits, frame_len, valid_c8 in *.
  assert (SD : forall n, n <= 288 -> length (firstn n (tf_d fr)) = n) by (intros; rewrite firstn_length, Wd; lia).
  assert (SC : forall n, n <= 20 -> length (firstn n (tf_c fr)) = n) by (intros; rewrite firstn_length, Wc; lia).
  assert (full : (160 <= rc)%Z -> 160 <= length b' -> (Z.to_nat rc <= length b') -> firstn 160 (firstn (Z.to_nat rc) b' ++ tail) = firstn 160 b').
  { intros H1 H2 H3. rewrite firstn_app, firstn_firstn, firstn_length. replace (160 - Nat.min (Z.to_nat rc) (length b')) with 0 by lia.
    rewrite app_nil_r. f_equal. lia. }
  assert (F158 : firstn 158 (firstn 160 b') = firstn 158 b') by (rewrite firstn_firstn; f_equal; lia).
  destruct (tf_type fr) eqn:TY; cbn in HI; try (exfalso; intuition discriminate); cbn in HR; try discriminate HR; injection HR as <-.
  - (* speech *) destruct (prefix_tail8 b' tail (Z.to_nat rc)) as (x0 & x1 & -> & Tx); try lia.
    destruct A as (_ & T & D). rewrite F158 in D. unfold dec8 in D. rewrite D by assumption.
    eexists. split; [reflexivity|]. cbn [upd tf_dir tf_type tf_c tf_d tf_t tf_m tf_s tf_ufi tf_crc tf_xc].
    assert (LC : length (speech8_code fr) = 5) by (unfold speech8_code; destruct (tf_dir fr); reflexivity).
    split; [reflexivity|]. split.
    + split; [reflexivity|]. split; [reflexivity|]. split; [apply firstn_app_exact, SD; lia|]. split; [|discriminate].
      intros _. split; [apply sub_app_l; [exact LC|apply sub_len; rewrite Wc; lia]|]. split; [reflexivity|]. split; [reflexivity|].
      intros Hd. unfold speech8_code. rewrite Hd. reflexivity.
    + intros H. rewrite <- T. transitivity [x0; x1]; [reflexivity|]. rewrite Tx by lia. unfold sub.
      rewrite (skipn_firstn_comm 158 160 b'), firstn_firstn. reflexivity.
  - destruct Hcut as [?|Hcut]; [discriminate|]. rewrite full by lia. destruct A as (_ & D). unfold dec8 in D.
    rewrite D by (assumption || (unfold data8_code; destruct (tf_dir fr); assumption)).
    eexists. split; [reflexivity|]. cbn [upd tf_dir tf_type tf_c tf_d tf_t tf_m tf_s tf_ufi tf_crc tf_xc].
    split; [reflexivity|]. split; [|reflexivity].
    split; [reflexivity|]. split; [apply firstn_app_exact, SC; lia|]. split; [apply firstn_app_exact, SD; lia|]. split; discriminate.
  - destruct Hcut as [?|Hcut]; [discriminate|]. rewrite full by lia. destruct A as (_ & D). unfold dec8 in D.
    rewrite D by (assumption || (unfold oam8_code; destruct (tf_dir fr); assumption)).
    eexists. split; [reflexivity|]. cbn [upd tf_dir tf_type tf_c tf_d tf_t tf_m tf_s tf_ufi tf_crc tf_xc].
    split; [reflexivity|]. split; [|reflexivity].
    split; [reflexivity|]. split; [apply firstn_app_exact, SC; lia|]. split; [apply firstn_app_exact, SD; lia|]. split; [discriminate|reflexivity].
  - destruct Hcut as [?|Hcut]; [discriminate|]. rewrite full by lia. destruct A as (_ & D). unfold dec8 in D. rewrite D by assumption.
    eexists. split; [reflexivity|]. cbn [upd tf_dir tf_type tf_c tf_d tf_t tf_m tf_s tf_ufi tf_crc tf_xc].
    split; [reflexivity|]. split.
    + split; [reflexivity|]. split; [apply firstn_app_exact, SC; lia|]. split; [apply firstn_app_exact, SD; lia|]. split; discriminate.
    + intros _. apply firstn_app_exact. rewrite firstn_length, Wt. reflexivity.
  - destruct Hcut as [?|Hcut]; [discriminate|]. rewrite full by lia. destruct A as (_ & D). unfold dec8 in D. rewrite D by assumption.
    eexists. split; [reflexivity|]. cbn [upd tf_dir tf_type tf_c tf_d tf_t tf_m tf_s tf_ufi tf_crc tf_xc].
    split; [reflexivity|]. split; [|reflexivity].
    split; [reflexivity|]. split; [apply firstn_app_exact, SC; lia|]. split; [apply firstn_app_exact, SD; lia|]. split; discriminate.
Qed.

(** Shortening an AMR frame by 250 us loses data: 2 bits are removed but the
    low-rate frame has one T bit and the 7.4 frame none, so two frames that
    differ in a D bit are sent identically. *)
Theorem C20_amr_shortened_refuted : forall ty, ty = T8_AMR_LOW \/ ty = T8_AMR_7k4 ->
  exists fr1 fr2 st1 st2 b1 b2, tf_wf fr1 /\ tf_wf fr2 /\ tf_type fr1 = ty /\ tf_type fr2 = ty /\
  firstn (n_d8 ty) (tf_d fr1) <> firstn (n_d8 ty) (tf_d fr2) /\
  osmo_trau_frame_encode idle_initial (repeat false 319) 319 fr1 = Some (st1, (158%Z, b1)) /\
  osmo_trau_frame_encode idle_initial (repeat false 319) 319 fr2 = Some (st2, (158%Z, b2)) /\
  firstn 158 b1 = firstn 158 b2.
Proof.
  pose (f ty (d : bits) := mkTf ty DL (-250) (repeat true 25) d (repeat true 4) (repeat false 6) (repeat true 2) true (repeat true 3) (repeat false 6)).
  pose (enc fr := osmo_trau_frame_encode idle_initial (repeat false 319) 319 fr).
  assert (K : forall ty d1 d2, length d1 = 288 -> length d2 = 288 -> firstn (n_d8 ty) d1 <> firstn (n_d8 ty) d2 ->
    match enc (f ty d1), enc (f ty d2) with
    | Some (_, (158%Z, b1)), Some (_, (158%Z, b2)) => firstn 158 b1 = firstn 158 b2
    | _, _ => False end ->
    exists fr1 fr2 st1 st2 b1 b2, tf_wf fr1 /\ tf_wf fr2 /\ tf_type fr1 = ty /\ tf_type fr2 = ty /\
      firstn (n_d8 ty) (tf_d fr1) <> firstn (n_d8 ty) (tf_d fr2) /\
      enc fr1 = Some (st1, (158%Z, b1)) /\ enc fr2 = Some (st2, (158%Z, b2)) /\ firstn 158 b1 = firstn 158 b2).
  { intros ty d1 d2 L1 L2 N H. exists (f ty d1), (f ty d2).
    destruct (enc (f ty d1)) as [[st1 [rc1 b1]]|]; [|contradiction].
    destruct (enc (f ty d2)) as [[st2 [rc2 b2]]|]; [|exfalso; destruct rc1 as [|p|p]; try contradiction; do 8 (destruct p as [p|p|]; try contradiction)].
    exists st1, st2, b1, b2.
    assert (rc1 = 158%Z /\ rc2 = 158%Z /\ firstn 158 b1 = firstn 158 b2) as (-> & -> & E).
    { destruct (Z.eq_dec rc1 158) as [->|N1]; [destruct (Z.eq_dec rc2 158) as [->|N2]; [auto|]|].
      - exfalso. destruct rc2 as [|p|p]; try contradiction. do 8 (destruct p as [p|p|]; try contradiction; try now apply N2).
      - exfalso. destruct rc1 as [|p|p]; try contradiction. do 8 (destruct p as [p|p|]; try contradiction; try now apply N1). }
    unfold f, tf_wf. cbn [tf_c tf_d tf_t tf_s tf_m tf_crc tf_xc tf_type]. repeat split; assumption || reflexivity. }
  intros ty [->| ->].
  - apply (K T8_AMR_LOW (repeat true 288) (repeat true 125 ++ repeat false 163)); [reflexivity|reflexivity|cbn; discriminate|].
    vm_compute. reflexivity.
  - apply (K T8_AMR_7k4 (repeat true 288) (repeat true 150 ++ repeat false 138)); [reflexivity|reflexivity|cbn; discriminate|].
    vm_compute. reflexivity.
Qed.

(** AMR 6.7 frames never survive: the decoder needs bits beyond the frame
    whenever it recognises the pattern, and (C18) the encoder's own frames may
    not be recognised. *)
Theorem C20_amr67_refuted : forall b fr0 dir, length b = 160 -> tf_wf fr0 -> has_pattern b pat_67 ->
  osmo_trau_frame_decode_8k fr0 b dir = None.
Proof.
  intros b fr0 dir L W0 H. unfold osmo_trau_frame_decode_8k.
  destruct (is_hr_spec b L) as (r1 & -> & H1). destruct r1.
  { exfalso. pose proof (proj1 H1 eq_refl 16 false) as A. pose proof (H 16 true) as B.
    rewrite A in B by (cbn; tauto). assert (Some false = Some true) by (apply B; cbn; tauto). discriminate. }
  destruct (is_low_spec b L) as (r2 & -> & H2). destruct r2.
  { exfalso. pose proof (proj1 H2 eq_refl 24 false) as A. pose proof (H 24 true) as B.
    rewrite A in B by (cbn; tauto). assert (Some false = Some true) by (apply B; cbn; tauto). discriminate. }
  destruct (is_67_spec b L) as (r3 & -> & H3). destruct r3; [|now apply H3 in H].
  destruct (good_all b (set_head fr0 T8_AMR_6k7 dir) L) as (_ & _ & _ & _ & _ & ->); [exact W0|reflexivity].
Qed.
Example C20_example : exists st' b', osmo_trau_frame_encode idle_initial (repeat false 319) 319 (ex_frame T8_SPEECH DL 500) = Some (st', (164%Z, b'))
  /\ valid_c8 (ex_frame T8_SPEECH DL 500) /\ exists b, length b = 160 /\ has_pattern b pat_67.
Proof.
  eexists. eexists. split; [vm_compute; reflexivity|]. split; [exact I|].
  exists (repeat false 8 ++ repeat true 32 ++ [false] ++ repeat true 119). split; [reflexivity|].
  apply pat_has. reflexivity.
Qed.
Print Assumptions C20_roundtrip_8k.
Print Assumptions C20_amr_shortened_refuted.
Print Assumptions C20_amr67_refuted.

(** C21. Decoders on arbitrary input. The frame type found is the one the
    line shows; unknown ones are refused with type NONE. The struct keeps its
    array sizes, i.e. nothing is written outside it. *)
Theorem C21_decode_16k_total : forall b fr0 dir, length b = 320 -> tf_wf fr0 ->
  type16 (sub b 17 5) <> T16_OAM ->
  exists rc fr', osmo_trau_frame_decode_16k fr0 b dir = Some (rc, fr') /\ tf_wf fr' /\
    tf_dir fr' = dir /\ tf_ta fr' = 0%Z /\ tf_type fr' = type16 (sub b 17 5) /\
    (tf_type fr' = FT_NONE -> rc = EINVAL) /\ (tf_type fr' <> FT_NONE -> rc = 0%Z).
Proof.
  intros b fr0 dir L W0 HN. pose proof (decode16_total_m b fr0 dir L W0) as H.
  destruct (osmo_trau_frame_decode_16k fr0 b dir) as [[rc fr']|]; [|contradiction].
  destruct H as (Hl & Hd & Ht & Hty & Hrc). exists rc, fr'. split; [reflexivity|]. split; [now apply lens_wf|].
  split; [exact Hd|]. split; [exact Ht|]. split; [exact Hty|]. rewrite Hty. clear Hty.
  split; [intros N; rewrite N in Hrc; exact Hrc|].
  intros N. destruct (type16 (sub b 17 5)); congruence.
Qed.

Lemma good_ok fr0 ty dir r : good (set_head fr0 ty dir) r -> exists fr', ok r = Some (0%Z, fr') /\ tf_wf fr' /\ tf_dir fr' = dir /\ tf_ta fr' = 0%Z /\ tf_type fr' = ty.
Proof.
  unfold good, ok. destruct r as [f|]; [|contradiction]. intros (H1 & H2 & H3 & H4). exists f. split; [reflexivity|].
  split; [now apply lens_wf|]. auto.
Qed.

Lemma has_conflict b l l' o v : In (o, v) l -> In (o, negb v) l' -> has_pattern b l -> has_pattern b l' -> False.
Proof. intros I1 I2 H1 H2. specialize (H1 _ _ I1). specialize (H2 _ _ I2). rewrite H1 in H2. injection H2. destruct v; discriminate. Qed.

Theorem C21_decode_8k_total : forall b fr0 dir, length b = 160 -> tf_wf fr0 -> ~ has_pattern b pat_67 ->
  (forall ty, line8 b dir ty -> exists fr', osmo_trau_frame_decode_8k fr0 b dir = Some (0%Z, fr') /\ tf_wf fr' /\
      tf_dir fr' = dir /\ tf_ta fr' = 0%Z /\ tf_type fr' = ty) /\
  ((forall ty, ~ line8 b dir ty) -> exists fr', osmo_trau_frame_decode_8k fr0 b dir = Some (EINVAL, fr') /\ tf_wf fr' /\
      tf_dir fr' = dir /\ tf_ta fr' = 0%Z /\ tf_type fr' = FT_NONE).
Proof.
  intros b fr0 dir L W0 N67.
  assert (G : forall ty, good (set_head fr0 ty dir) (decode8_hr (set_head fr0 ty dir) b) /\ good (set_head fr0 ty dir) (decode8_data (set_head fr0 ty dir) b) /\
     good (set_head fr0 ty dir) (decode8_oam (set_head fr0 ty dir) b) /\ good (set_head fr0 ty dir) (decode8_amr_low (set_head fr0 ty dir) b) /\
     good (set_head fr0 ty dir) (decode8_amr_74 (set_head fr0 ty dir) b)).
  { intros ty. destruct (good_all b (set_head fr0 ty dir) L W0) as (A1 & A2 & A3 & A4 & A5 & _). auto. }
  assert (W1 : tf_wf (set_head fr0 FT_NONE dir)) by exact W0.
  unfold osmo_trau_frame_decode_8k.
  destruct (is_hr_spec b L) as (r1 & -> & H1). destruct r1.
  - assert (P8 : has_pattern b pat8) by now apply H1. clear H1.
    assert (X : exists q0 q1 q2 q3 q4, sub b 9 5 = [q0;q1;q2;q3;q4] /\ sub b 9 3 = [q0;q1;q2]).
    { assert (L5 : length (sub b 9 5) = 5) by (apply sub_len; lia).
      destruct (sub b 9 5) as [|q0[|q1[|q2[|q3[|q4[|]]]]]] eqn:E; try discriminate.
      exists q0,q1,q2,q3,q4. split; [reflexivity|].
      assert (sub b 9 3 = firstn 3 (sub b 9 5)) as -> by (unfold sub; now rewrite firstn_firstn). now rewrite E. }
    destruct X as (q0 & q1 & q2 & q3 & q4 & X5 & X3).
    assert (GB : get_bits b 9 5 = Some (fold_left (fun acc (x : bool) => 2 * acc + Nat.b2n x) [q0;q1;q2;q3;q4] 0)).
    { unfold get_bits. rewrite slice_some by lia. fold (sub b 9 5). now rewrite X5. }
    rewrite GB. clear GB.
    assert (NL : ~ has_pattern b pat_low) by (intros P; apply (has_conflict b pat8 pat_low 16 false); cbn; tauto).
    assert (N74 : ~ has_pattern b pat_74) by (intros P; apply (has_conflict b pat8 pat_74 2 false); cbn; tauto).
    assert (INV : forall ty, line8 b dir ty -> match dir with
        | UL => (ty = T8_SPEECH /\ [q0;q1;q2;q3;q4] = [false;false;false;true;false]) \/
                (ty = T8_DATA /\ [q0;q1;q2;q3;q4] = [false;false;true;true;true]) \/
                (ty = T8_OAM /\ [q0;q1;q2;q3;q4] = [false;true;false;true;true])
        | DL => (ty = T8_SPEECH /\ [q0;q1;q2] = [false;false;false]) \/
                (ty = T8_DATA /\ [q0;q1;q2] = [false;false;true]) \/
                (ty = T8_OAM /\ [q0;q1;q2] = [false;true;false]) end).
    { intros ty Hty. destruct Hty as [? C|? C|? C|P|P|P]; try contradiction; rewrite X5, X3 in C; destruct dir; auto. }
    assert (CON : forall ty, match dir with
        | UL => (ty = T8_SPEECH /\ [q0;q1;q2;q3;q4] = [false;false;false;true;false]) \/
                (ty = T8_DATA /\ [q0;q1;q2;q3;q4] = [false;false;true;true;true]) \/
                (ty = T8_OAM /\ [q0;q1;q2;q3;q4] = [false;true;false;true;true])
        | DL => (ty = T8_SPEECH /\ [q0;q1;q2] = [false;false;false]) \/
                (ty = T8_DATA /\ [q0;q1;q2] = [false;false;true]) \/
                (ty = T8_OAM /\ [q0;q1;q2] = [false;true;false]) end -> line8 b dir ty).
    { intros ty Hty. destruct dir; destruct Hty as [[-> C]|[[-> C]|[-> C]]]; constructor; rewrite ?X5, ?X3; assumption. }
    split.
    + intros ty Hty. apply INV in Hty. clear CON INV. destruct dir; destruct Hty as [[-> C]|[[-> C]|[-> C]]];
      first [injection C as -> -> -> -> -> | injection C as -> -> ->; destruct q3, q4]; cbn [fold_left Nat.b2n Nat.mul Nat.add];
      match goal with
      | |- context [decode8_hr] => idtac end;
      cbv beta iota delta [Nat.eqb Nat.div Nat.divmod fst];
      eapply good_ok; apply G.
    + intros HN. exists (set_head fr0 FT_NONE dir).
      split; [|split; [exact W1|split; [reflexivity|split; reflexivity]]].
      destruct dir.
      * destruct q0, q1, q2, q3, q4; try reflexivity; exfalso;
        first [apply (HN T8_SPEECH); apply CON; tauto | apply (HN T8_DATA); apply CON; tauto | apply (HN T8_OAM); apply CON; tauto].
      * destruct q0, q1, q2; try (exfalso; first [apply (HN T8_SPEECH); apply CON; tauto | apply (HN T8_DATA); apply CON; tauto | apply (HN T8_OAM); apply CON; tauto]);
        destruct q3, q4; reflexivity.
  - assert (N8 : ~ has_pattern b pat8) by (intros P; now apply H1 in P). clear H1.
    destruct (is_low_spec b L) as (r2 & -> & H2). destruct r2.
    { assert (PL : has_pattern b pat_low) by now apply H2. split.
      - intros ty Hty. destruct Hty as [P _|P _|P _|P|P|P]; try contradiction; [eapply good_ok; apply G|].
        exfalso. apply (has_conflict b pat_low pat_74 2 false); cbn; tauto.
      - intros HN. exfalso. now apply (HN T8_AMR_LOW); constructor. }
    assert (NL : ~ has_pattern b pat_low) by (intros P; now apply H2 in P).
    destruct (is_67_spec b L) as (r3 & -> & H3). destruct r3; [exfalso; now apply N67, H3|].
    destruct (is_74_spec b L) as (r4 & -> & H4). destruct r4.
    { split.
      - intros ty Hty. destruct Hty as [P _|P _|P _|P|P|P]; try contradiction. eapply good_ok; apply G.
      - intros HN. exfalso. apply (HN T8_AMR_7k4); constructor. now apply H4. }
    assert (N74 : ~ has_pattern b pat_74) by (intros P; now apply H4 in P).
    split.
    + intros ty Hty. destruct Hty as [P _|P _|P _|P|P|P]; contradiction.
    + intros HN. exists (set_head fr0 FT_NONE dir). split; [reflexivity|]. split; [exact W1|]. repeat split.
Qed.

(** The exceptions are real: both decoders read past the end of a frame of
    the documented length. *)
Theorem C21_reads_past_frame_refuted :
  (forall b fr0 dir, length b = 320 -> tf_wf fr0 -> type16 (sub b 17 5) = T16_OAM -> osmo_trau_frame_decode_16k fr0 b dir = None) /\
  (forall b fr0 dir, length b = 160 -> tf_wf fr0 -> has_pattern b pat_67 -> osmo_trau_frame_decode_8k fr0 b dir = None).
Proof.
  split; [|exact C20_amr67_refuted].
  intros b fr0 dir L W0 HO. pose proof (decode16_oam_none b fr0 dir L W0) as H. now rewrite HO in H.
Qed.
(** With one more readable bit the 16k decoder is total for every type. *)
Theorem C21_decode_16k_321 : forall b fr0 dir, length b = 321 -> tf_wf fr0 ->
  exists rc fr', osmo_trau_frame_decode_16k fr0 b dir = Some (rc, fr') /\ tf_wf fr'.
Proof.
  intros b fr0 dir L W0. pose proof (decode16_oam_321 b fr0 dir L W0) as H.
  destruct (osmo_trau_frame_decode_16k fr0 b dir) as [[rc fr']|]; [|contradiction].
  exists rc, fr'. split; [reflexivity|]. now apply lens_wf.
Qed.
Example C21_example : let b := repeat false 8 ++ repeat true 16 ++ [false] ++ repeat true 135 in
  length b = 160 /\ ~ has_pattern b pat_67 /\ line8 b UL T8_AMR_LOW.
Proof.
  split; [reflexivity|]. split.
  - intros H. specialize (H 24 true). cbn in H. assert (Some false = Some true) by (apply H; cbn; tauto). discriminate.
  - constructor. apply pat_has. reflexivity.
Qed.
Print Assumptions C21_decode_16k_total.
Print Assumptions C21_decode_8k_total.
Print Assumptions C21_reads_past_frame_refuted.
Print Assumptions C21_decode_16k_321.

(** C22. Requests found in uplink frames are those of the tables. *)
Lemma six l : length l = 6 -> exists a b c d e f : bool, l = [a;b;c;d;e;f].
Proof. intros L. destruct l as [|a[|b[|c[|d[|e[|f[|]]]]]]]; try discriminate. repeat eexists. Qed.
Lemma three l : length l = 3 -> exists a b c : bool, l = [a;b;c].
Proof. intros L. destruct l as [|a[|b[|c[|]]]]; try discriminate. repeat eexists. Qed.
Lemma two l : length l = 2 -> exists a b : bool, l = [a;b].
Proof. intros L. destruct l as [|a[|b[|]]]; try discriminate. repeat eexists. Qed.
Lemma get_bits_sub (c : bits) o n : o + n <= length c -> get_bits c o n = Some (fold_left (fun acc (x : bool) => 2 * acc + Nat.b2n x) (sub c o n) 0).
Proof. intros. unfold get_bits. now rewrite slice_some. Qed.

Theorem C22_request_tables : forall fr, tf_wf fr ->
  exists v, osmo_trau_frame_dl_ta_us fr = Some v /\
    (tf_dir fr = DL -> v = 0%Z) /\
    (tf_dir fr = UL ->
       match tf_type fr with
       | T16_FR | T16_EFR | T16_HR | T16_AMR => ta_code16 (num (sub (tf_c fr) 5 6)) v
       | T8_SPEECH => v = ta_code8 (num (sub (tf_c fr) 5 3))
       | T8_AMR_LOW => if list_eq_dec bool_dec (sub (tf_c fr) 3 2) [false; false]
                       then ta_code16 (num (sub (tf_c fr) 5 6)) v else v = 0%Z
       | _ => v = 0%Z
       end).
Proof.
  intros fr (Wc & _). unfold osmo_trau_frame_dl_ta_us.
  destruct (six (sub (tf_c fr) 5 6)) as (a & b & c & d & e & f & E6); [apply sub_len; lia|].
  destruct (three (sub (tf_c fr) 5 3)) as (g & h & i & E3); [apply sub_len; lia|].
  destruct (two (sub (tf_c fr) 3 2)) as (j & k & E2); [apply sub_len; lia|].
  rewrite !get_bits_sub by lia. rewrite E6, E3, E2.
  assert (K6 : ta_code16 (num [a;b;c;d;e;f]) (trau_frame_16_ta_us (Z.of_nat (fold_left (fun acc (x : bool) => 2 * acc + Nat.b2n x) [a;b;c;d;e;f] 0)))).
  { unfold ta_code16. destruct a, b, c, d, e, f; vm_compute; intuition (congruence || lia). }
  assert (K3 : trau_frame_8_ta_us (Z.of_nat (fold_left (fun acc (x : bool) => 2 * acc + Nat.b2n x) [g;h;i] 0)) = ta_code8 (num [g;h;i])).
  { destruct g, h, i; reflexivity. }
  destruct (tf_dir fr).
  - destruct (tf_type fr); try (eexists; split; [reflexivity|]; split; [discriminate|]; intros _; (reflexivity || assumption)).
    destruct j, k; cbn [fold_left Nat.b2n Nat.mul Nat.add Nat.eqb];
      (eexists; split; [reflexivity|]; split; [discriminate|]; intros _; cbn; (reflexivity || assumption)).
  - exists 0%Z. split; [reflexivity|]. split; [reflexivity|discriminate].
Qed.

Definition clamp (lo hi x : Z) : Z := Z.max lo (Z.min hi x).

(** Bits added to or removed from a frame: in uplink none; in downlink the
    requested time in units of bits (truncated towards 0), at most 4 (16k) or
    2 (8k) removed and 312 / 158 added; added bits are ones. Requests of more
    than 312 bits on 16k are not covered (see the refutation below). *)
Theorem C22_frame_length : forall st b n_bits fr st' rc b',
  reachable st -> tf_wf fr -> ta_ok fr -> n_bits <= length b ->
  osmo_trau_frame_encode st b n_bits fr = Some (st', (rc, b')) -> (0 <= rc)%Z ->
  let len := Z.of_nat (frame_len (tf_type fr)) in
  (tf_dir fr = UL -> rc = len) /\
  match tf_type fr with
  | T16_FR | T16_EFR | T16_HR | T16_AMR =>
      (len - 4 <= rc <= len + 312)%Z /\
      (tf_dir fr = DL -> (Z.quot (tf_ta fr * 4) 250 <= 312)%Z -> rc = (len + clamp (-4) 312 (Z.quot (tf_ta fr * 4) 250))%Z)
  | T8_SPEECH | T8_AMR_LOW | T8_AMR_6k7 | T8_AMR_7k4 =>
      (len - 2 <= rc <= len + 158)%Z /\
      (tf_dir fr = DL -> rc = (len + clamp (-2) 158 (Z.quot (tf_ta fr * 2) 250))%Z)
  | _ => rc = len
  end /\
  (forall i, frame_len (tf_type fr) <= i < Z.to_nat rc -> nth_error b' i = Some true).
Proof.
  intros st b n_bits fr st' rc b' Hst W HT Hn E Hrc len.
  destruct (encode_inv st b n_bits fr st' rc b' Hst W HT Hn E Hrc) as (R & (r & HR & Hr) & L & _ & P).
  fold len in R. split; [|split].
  - intros HU. rewrite R. unfold ta_bits, ta16, ta8. rewrite HU. destruct (tf_type fr); lia.
  - pose proof (ta16_range fr) as R16. pose proof (ta8_range fr) as R8. unfold ta_bits in R.
    destruct (tf_type fr); try (rewrite R; lia); (split; [lia|]; intros HD).
    1-4: intros HQ; rewrite R; f_equal; unfold ta16, clamp; rewrite HD; cbv zeta;
      set (q := Z.quot (tf_ta fr * 4) 250) in *; destruct (Z.ltb_spec 312 q); [lia|]; destruct (Z.ltb_spec q (-4)); lia.
    all: rewrite R; f_equal; unfold ta8, clamp; rewrite HD; cbv zeta;
      set (q := Z.quot (tf_ta fr * 2) 250) in *; destruct (Z.ltb_spec 158 q); [lia|]; destruct (Z.ltb_spec q (-2)); lia.
  - intros i Hi. set (k := Z.to_nat (ta_bits fr)) in *. set (fl := frame_len (tf_type fr)) in *.
    assert (Hk : i - fl < k) by (unfold k; lia).
    assert (Q : nth_error (sub b' fl k) (i - fl) = Some true).
    { rewrite P. apply nth_error_repeat. exact Hk. }
    unfold sub in Q. rewrite nth_error_firstn in Q by exact Hk. rewrite nth_error_skipn in Q.
    now replace (fl + (i - fl)) with i in Q by lia.
Qed.

(** An uplink request fed back as the downlink offset is carried out exactly:
    code N <= 39 adds 8N bits, 62 adds 4, 63 removes 4, others change nothing. *)
Theorem C22_request_carried_out : forall ful fdl v st b n_bits st' rc b',
  tf_wf ful -> tf_dir ful = UL -> In (tf_type ful) [T16_FR; T16_EFR; T16_HR; T16_AMR] ->
  osmo_trau_frame_dl_ta_us ful = Some v ->
  reachable st -> tf_wf fdl -> tf_dir fdl = DL -> In (tf_type fdl) [T16_FR; T16_EFR; T16_HR; T16_AMR] -> tf_ta fdl = v ->
  n_bits <= length b -> osmo_trau_frame_encode st b n_bits fdl = Some (st', (rc, b')) -> (0 <= rc)%Z ->
  let n := num (sub (tf_c ful) 5 6) in
  ((n <= 39 -> rc = 320 + 8 * n) /\ (n = 62 -> rc = 324) /\ (n = 63 -> rc = 316) /\ (40 <= n <= 61 -> rc = 320))%Z.
Proof.
  intros ful fdl v st b n_bits st' rc b' Wu DU TU EV Hst Wd DD TD HV Hn E Hrc n.
  destruct (C22_request_tables ful Wu) as (v' & EV' & _ & HT). rewrite EV in EV'. injection EV' as <-. specialize (HT DU).
  assert (TC : ta_code16 n v) by (cbn in TU; destruct TU as [T|[T|[T|[T|[]]]]]; rewrite <- T in HT; exact HT).
  assert (OK : ta_ok fdl) by (unfold ta_ok; rewrite HV; destruct TC as [?|[?|[?|?]]]; lia).
  destruct (C22_frame_length st b n_bits fdl st' rc b' Hst Wd OK Hn E Hrc) as (_ & H & _).
  assert (Hq : (Z.quot (v * 4) 250 <= 312)%Z -> rc = (320 + clamp (-4) 312 (Z.quot (v * 4) 250))%Z).
  { rewrite <- HV. cbn in TD. destruct TD as [T|[T|[T|[T|[]]]]]; rewrite <- T in H; destruct H as [_ H]; exact (H DD). }
  unfold clamp in Hq.
  assert (Q : (Z.quot (v * 4) 250 = if n <=? 39 then 8 * n else if n =? 62 then 4 else if n =? 63 then -4 else 0)%Z).
  { destruct TC as [[? ->]|[[? ->]|[[? ->]|[? ->]]]].
    - replace (500 * n * 4)%Z with (8 * n * 250)%Z by lia. rewrite Z.quot_mul by lia. destruct (Z.leb_spec n 39); lia.
    - destruct (Z.leb_spec n 39); [lia|]. destruct (Z.eqb_spec n 62); [lia|]. destruct (Z.eqb_spec n 63); [lia|]. reflexivity.
    - rewrite H0. reflexivity.
    - rewrite H0. reflexivity. }
  rewrite Q in Hq.
  destruct TC as [[? ?]|[[? ?]|[[? ?]|[? ?]]]];
    destruct (Z.leb_spec n 39); try lia; destruct (Z.eqb_spec n 62); try lia; destruct (Z.eqb_spec n 63); try lia;
    repeat split; intros; lia.
Qed.

(** A request beyond 312 bits on 16k is not limited to 312 bits but to 39: a
    larger request lengthens the frame by less than a smaller one. *)
Theorem C22_cap_16k_refuted : forall ty, In ty [T16_FR; T16_EFR; T16_HR; T16_AMR] ->
  exists fr1 fr2 st1 st2 b1 b2 rc1 rc2,
  tf_wf fr1 /\ tf_wf fr2 /\ tf_type fr1 = ty /\ tf_type fr2 = ty /\ (tf_ta fr1 < tf_ta fr2)%Z /\
  osmo_trau_frame_encode idle_initial (repeat false 639) 639 fr1 = Some (st1, (rc1, b1)) /\
  osmo_trau_frame_encode idle_initial (repeat false 639) 639 fr2 = Some (st2, (rc2, b2)) /\
  rc1 = 632%Z /\ rc2 = 359%Z.
Proof.
  intros ty HI. exists (ex_frame ty DL 19500), (ex_frame ty DL 20000).
  assert (W1 : tf_wf (ex_frame ty DL 19500)) by (repeat split). assert (W2 : tf_wf (ex_frame ty DL 20000)) by (repeat split).
  assert (R : required ty = Some 639) by (cbn in HI; destruct HI as [<-|[<-|[<-|[<-|[]]]]]; reflexivity).
  destruct (encode_all idle_initial (repeat false 639) 639 (ex_frame ty DL 19500) 639) as (st1 & b1 & E1 & _);
    [now left|exact W1|cbv; split; discriminate|exact R|lia|rewrite repeat_length; lia|].
  destruct (encode_all idle_initial (repeat false 639) 639 (ex_frame ty DL 20000) 639) as (st2 & b2 & E2 & _);
    [now left|exact W2|cbv; split; discriminate|exact R|lia|rewrite repeat_length; lia|].
  do 6 eexists. split; [exact W1|]. split; [exact W2|]. split; [reflexivity|]. split; [reflexivity|].
  split; [cbn; lia|]. split; [exact E1|]. split; [exact E2|].
  cbn in HI. destruct HI as [<-|[<-|[<-|[<-|[]]]]]; split; reflexivity.
Qed.
(** Offsets from 2^29 us on overflow the int computation. *)
Theorem C22_huge_offset_refuted : exists fr, tf_wf fr /\ (tf_ta fr <= 2147483647)%Z /\
  osmo_trau_frame_encode idle_initial (repeat false 639) 639 fr = None.
Proof. exists (ex_frame T16_FR DL 536870912). split; [repeat split|]. split; [cbn; lia|]. vm_compute. reflexivity. Qed.
Example C22_example : osmo_trau_frame_dl_ta_us
  (mkTf T16_EFR UL 0 (repeat false 5 ++ [false;false;false;false;true;true] ++ repeat true 14) (repeat true 288) (repeat true 4) (repeat false 6)
    (repeat true 2) true (repeat true 3) (repeat false 6)) = Some 1500%Z.
Proof. reflexivity. Qed.
Print Assumptions C22_request_tables.
Print Assumptions C22_frame_length.
Print Assumptions C22_request_carried_out.
Print Assumptions C22_cap_16k_refuted.
Print Assumptions C22_huge_offset_refuted.
