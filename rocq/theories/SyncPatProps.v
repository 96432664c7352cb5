(** C51: the synchroniser's patterns are the published ones, and it locks onto
    what the library's own encoder produces. *)
From Coq Require Import List Arith Lia Bool ZArith.
From Verif Require Import Base TrauSpec TrauModel TrauFields TrauProofs TrauProps RtpSpec SyncModel SyncSpec SyncProofs SyncProps.
From Verif Require ErSpec.
Import ListNotations.

(** V.110 (TS 44.021): octet 0 all zero, then a one at the start of each of
    octets 1..9 *)
Definition pat_v110 := every 0 1 8 false ++ every 8 8 9 true.
(** the octet of value [v] at octet position [k], most significant bit first *)
Definition octet_at (k : nat) (v : Z) : list (nat * bool) :=
  map (fun j => (8 * k + j, Z.testbit v (7 - Z.of_nat j))) (seq 0 8).
(** fixed bits of each pattern of trau_sync.h *)
Definition published (i : pat_id) : list (nat * bool) :=
  match i with
  | PAT_16_FR_EFR => pat16 | PAT_8_HR => pat8 | PAT_8_AMR_LOW => pat_low | PAT_8_AMR_6K7 => pat_67
  | PAT_8_AMR_7K4 => pat_74 | PAT_V110 => pat_v110
  | PAT_16_ER_CCU | PAT_64_ER_CCU_MCS9 => every 0 1 16 false ++ [(16, true)]
  | PAT_64_ER_CCU => every 0 1 64 false ++ [(64, true)]
  | PAT_FA => concat (map (fun x => octet_at (fst x) (snd x))
      (combine (seq 0 8) [0x3e; 0x37; 0x50; 0x96; 0xc1; 0xc8; 0xaf; 0x69]%Z))
  end.

(** fixed bits of a pattern in the synchroniser's table *)
Definition cells_of (p : pattern) : list (nat * bool) :=
  map (fun x => (fst (fst x), snd x))
    (filter (fun x => snd (fst x)) (combine (combine (seq 0 (length (p_mask p))) (p_mask p)) (p_bits p))).

Lemma combine_nth_error {A B} (l : list A) : forall (m : list B) i a b,
  nth_error (combine l m) i = Some (a, b) <-> nth_error l i = Some a /\ nth_error m i = Some b.
Proof.
  induction l as [|x l IH]; intros [|y m] [|i] a b; cbn; try (split; [discriminate|intros [? ?]; discriminate]).
  - split; [intros E; injection E as -> ->; auto|intros [E F]; congruence].
  - apply IH.
Qed.
Lemma seq_nth_error n : forall s i a, nth_error (seq s n) i = Some a <-> i < n /\ a = s + i.
Proof.
  induction n as [|n IH]; intros s [|i] a; cbn.
  1,2: split; [discriminate|intros [? _]; lia].
  - split; [intros E; injection E as <-; lia|intros [_ ->]; f_equal; lia].
  - rewrite IH. split; intros [? ?]; lia.
Qed.
Lemma cells_of_spec p o v : In (o, v) (cells_of p) <-> nth_error (p_mask p) o = Some true /\ nth_error (p_bits p) o = Some v.
Proof.
  unfold cells_of. rewrite in_map_iff. split.
  - intros ([[x m] y] & E & H). cbn in E. injection E as -> ->. apply filter_In in H. destruct H as [H M]. cbn in M. subst m.
    apply In_nth_error in H. destruct H as [n H]. apply combine_nth_error in H. destruct H as [H Hv].
    apply combine_nth_error in H. destruct H as [Hs Hm]. apply seq_nth_error in Hs. destruct Hs as [_ ->]. cbn. auto.
  - intros [Hm Hv]. exists (o, true, v). split; [reflexivity|]. apply filter_In. split; [|reflexivity].
    apply nth_error_In with o. apply combine_nth_error. split; [|exact Hv]. apply combine_nth_error. split; [|exact Hm].
    apply seq_nth_error. split; [|lia]. apply nth_error_Some. congruence.
Qed.

Lemma cells_of_table i : Forall (fun x => In x (published i)) (cells_of (sync_patterns i)) /\
  Forall (fun x => In x (cells_of (sync_patterns i))) (published i).
Proof.
  assert (D : forall a b : nat * bool, {a = b} + {a <> b}) by (intros; decide equality; [apply bool_dec|apply Nat.eq_dec]).
  assert (K : cells_of (sync_patterns i) = published i) by (destruct i; vm_compute; reflexivity).
  rewrite K. split; apply Forall_forall; auto.
Qed.

(** C51. For every pattern identifier and every bit sequence: the
    synchroniser's comparison accepts the sequence exactly when it carries the
    pattern's published fixed bits. *)
Theorem C51_patterns : forall i f, matches (sync_patterns i) f <-> has_pattern f (published i).
Proof.
  intros i f. destruct (cells_of_table i) as [A B]. rewrite Forall_forall in A, B. split.
  - intros M o v H. apply B in H. apply cells_of_spec in H. destruct H. eapply M; eassumption.
  - intros P o v Hm Hv. apply P. apply A. now apply cells_of_spec.
Qed.

(** Ericsson: the three patterns accept exactly what has the sync cells of the
    CCU's data frame figures, and the sync-frame figures are accepted too. *)
Lemma synced_has fig f : ErSpec.synced fig f <->
  has_pattern f (flat_map (fun x => match snd x with ErSpec.T0 => [(fst x, false)] | ErSpec.T1 => [(fst x, true)] | _ => [] end)
                          (combine (seq 0 (length fig)) fig)).
Proof.
  split.
  - intros S o v H. apply in_flat_map in H. destruct H as ([x c] & H & E). apply In_nth_error in H. destruct H as [n H].
    apply combine_nth_error in H. destruct H as [Hs Hc]. apply seq_nth_error in Hs. destruct Hs as [_ ->].
    cbn in E. destruct (S n) as [S0 S1]. destruct c; cbn in E; try contradiction; destruct E as [E|[]]; injection E as <- <-; auto.
  - intros P i. split; intros H; apply P; apply in_flat_map.
    + exists (i, ErSpec.T0). split; [|now left]. apply nth_error_In with i. apply combine_nth_error. split; [|exact H].
      apply seq_nth_error. split; [|lia]. apply nth_error_Some. congruence.
    + exists (i, ErSpec.T1). split; [|now left]. apply nth_error_In with i. apply combine_nth_error. split; [|exact H].
      apply seq_nth_error. split; [|lia]. apply nth_error_Some. congruence.
Qed.
Lemma prefix_in {A} (p l : list A) x : firstn (length p) l = p -> In x p -> In x l.
Proof. intros E H. rewrite <- (firstn_skipn (length p) l), E. apply in_or_app. now left. Qed.
Ltac same_pat := match goal with |- has_pattern _ ?a <-> has_pattern _ ?b =>
  replace b with a by (vm_compute; reflexivity); reflexivity end.
Theorem C51_ericsson : forall f,
  (matches (sync_patterns PAT_16_ER_CCU) f <-> ErSpec.synced ErSpec.fig_ccu_data_16 f) /\
  (matches (sync_patterns PAT_64_ER_CCU) f <-> ErSpec.synced ErSpec.fig_ccu_data_64 f) /\
  (matches (sync_patterns PAT_64_ER_CCU_MCS9) f <-> ErSpec.synced ErSpec.fig_ccu_data9_64 f) /\
  (ErSpec.synced ErSpec.fig_ccu_sync_16 f -> matches (sync_patterns PAT_16_ER_CCU) f) /\
  (ErSpec.synced ErSpec.fig_ccu_sync_64 f -> matches (sync_patterns PAT_64_ER_CCU) f).
Proof.
  intros f. split; [|split; [|split; [|split]]];
    try (pose proof (C51_patterns PAT_16_ER_CCU f) as A); try (pose proof (C51_patterns PAT_64_ER_CCU f) as B);
    try (pose proof (C51_patterns PAT_64_ER_CCU_MCS9 f) as D).
  - etransitivity; [exact A|]. etransitivity; [|symmetry; apply synced_has]. same_pat.
  - etransitivity; [exact B|]. etransitivity; [|symmetry; apply synced_has]. same_pat.
  - etransitivity; [exact D|]. etransitivity; [|symmetry; apply synced_has]. same_pat.
  - intros H. apply A. apply synced_has in H. intros o v HI. apply H. eapply prefix_in; [|exact HI]. vm_compute. reflexivity.
  - intros H. apply B. apply synced_has in H. intros o v HI. apply H. eapply prefix_in; [|exact HI]. vm_compute. reflexivity.
Qed.

(** the frame types a synchroniser set to pattern [i] is meant for *)
Definition carries (i : pat_id) (ty : ftype) : bool :=
  match i with
  | PAT_16_FR_EFR => match ty with T16_FR | T16_EFR | T16_HR | T16_AMR | T16_OAM | T16_IDLE | T16_DATA | T16_DATA_HR | T16_D145_SYNC => true | _ => false end
  | PAT_8_HR => match ty with T8_SPEECH | T8_DATA | T8_OAM => true | _ => false end
  | PAT_8_AMR_LOW => match ty with T8_AMR_LOW => true | _ => false end
  | PAT_8_AMR_7K4 => match ty with T8_AMR_7k4 => true | _ => false end
  | _ => false
  end.
(** [f] is a frame the encoder produced, of a type meant for [i], of nominal length *)
Inductive encoded (i : pat_id) : bits -> Prop :=
| enc st b n_bits fr st' rc b' : reachable st -> tf_wf fr -> ta_ok fr -> n_bits <= length b ->
    carries i (tf_type fr) = true -> osmo_trau_frame_encode st b n_bits fr = Some (st', (rc, b')) ->
    rc = Z.of_nat (SyncSpec.frame_len i) -> encoded i (firstn (SyncSpec.frame_len i) b').

Lemma encoded_matches i f : encoded i f -> length f = SyncSpec.frame_len i /\ matches (sync_patterns i) f.
Proof.
  intros [st b n_bits fr st' rc b' R W T N C E ->].
  assert (G : (0 <= Z.of_nat (SyncSpec.frame_len i))%Z) by lia.
  assert (N67 : tf_type fr <> T8_AMR_6k7) by (intros X; rewrite X in C; destruct i; discriminate C).
  pose proof (C18_sync_pattern st b n_bits fr st' _ b' R W T N N67 E G) as P. rewrite Nat2Z.id in P.
  assert (SP : sync_pattern (tf_type fr) = published i).
  { destruct i; cbn in C; try discriminate C; destruct (tf_type fr); try discriminate C; reflexivity. }
  rewrite SP in P. split.
  - destruct (required (tf_type fr)) as [r|] eqn:HR.
    2:{ destruct i, (tf_type fr); discriminate. }
    destruct (C17_encode_buffer st b n_bits fr R W T N) as (st2 & rc2 & b2 & E2 & L2 & _ & Q).
    rewrite E in E2. injection E2 as <- <- <-. rewrite HR in Q. apply firstn_length_le. rewrite L2.
    destruct (n_bits <? r); [destruct Q as [Q _]; cbv [ENOSPC] in Q; lia|]. lia.
  - apply C51_patterns. exact P.
Qed.

(** C51, locking on. Idle line ones, then any number of frames the encoder
    produced (any types meant for the pattern, any payload, mixed), then part of
    a frame: the synchroniser delivers exactly those frames and reports no loss. *)
Theorem C51_encoder_stream : forall junk i secs s o k fs tail, secs_ok i secs ->
  do_ops junk (osmo_trau_sync_alloc i) (map sec_op secs) = Some (s, o) ->
  Forall (encoded i) fs -> length tail < frame_len i -> fs <> [] ->
  exists s', osmo_trau_sync_rx_ubits junk s (repeat true k ++ concat fs ++ tail) = Some (s', map Frame fs).
Proof.
  intros junk i secs s o k fs tail H E HF HT HN. eapply C30_clean_stream; try eassumption.
  eapply Forall_impl; [|exact HF]. intros f. apply encoded_matches.
Qed.

(** REFUTED for E-TRAU data: no 320-bit TRAU pattern is meant for them; a frame
    the encoder produced from the all-zero payload is not accepted by the
    16 kbit/s TRAU pattern. *)
Theorem C51_edata_refuted : exists fr st' b', tf_wf fr /\ tf_type fr = T16_EDATA /\
  osmo_trau_frame_encode idle_initial (repeat false 320) 320 fr = Some (st', (320%Z, b')) /\
  ~ matches (sync_patterns PAT_16_FR_EFR) (firstn 320 b').
Proof.
  set (fr := mkTf T16_EDATA DL 0 (repeat false 25) (repeat false 288) (repeat false 4) (repeat false 6) (repeat false 2) true (repeat false 3) (repeat false 6)).
  assert (K : match osmo_trau_frame_encode idle_initial (repeat false 320) 320 fr with
              | Some (_, (rc, b')) => rc = 320%Z /\ nth_error (firstn 320 b') 32 = Some false
              | None => False end) by (vm_compute; auto).
  destruct (osmo_trau_frame_encode idle_initial (repeat false 320) 320 fr) as [[st' [rc b']]|] eqn:E; [|contradiction].
  destruct K as [-> K]. exists fr, st', b'. split; [repeat split|]. split; [reflexivity|]. split; [exact E|].
  intros M. specialize (M 32 true eq_refl eq_refl). congruence.
Qed.

(** non-vacuity: a half-rate speech frame, a data frame and an O&M frame as a stream *)
Definition wit8 (ty : ftype) (d : bool) : tframe :=
  mkTf ty UL 0 (repeat d 25) (repeat d 288) (repeat d 4) (repeat d 6) (repeat true 2) true (repeat d 3) (repeat d 6).
Definition out8 (fr : tframe) : bits :=
  match osmo_trau_frame_encode idle_initial (repeat false 320) 319 fr with Some (_, (_, b)) => firstn 160 b | None => [] end.
Example C51_stream_witness : Forall (encoded PAT_8_HR) [out8 (wit8 T8_SPEECH true); out8 (wit8 T8_DATA false); out8 (wit8 T8_OAM true)] /\
  secs_ok PAT_8_HR [(PAT_8_AMR_LOW, 1)] /\ out8 (wit8 T8_SPEECH true) <> out8 (wit8 T8_DATA false).
Proof.
  assert (K : forall fr, tf_wf fr -> ta_ok fr -> carries PAT_8_HR (tf_type fr) = true ->
    match osmo_trau_frame_encode idle_initial (repeat false 320) 319 fr with Some (_, (rc, _)) => rc = 160%Z | None => False end ->
    encoded PAT_8_HR (out8 fr)).
  { intros fr W T C Q. unfold out8. destruct (osmo_trau_frame_encode idle_initial (repeat false 320) 319 fr) as [[st' [rc b']]|] eqn:E; [|contradiction].
    apply (enc PAT_8_HR idle_initial (repeat false 320) 319 fr st' rc b'); try assumption; try constructor. cbn. lia. }
  split; [|split].
  - repeat (apply Forall_cons; [apply K; [repeat split|cbv; intuition congruence|reflexivity|vm_compute; reflexivity]|]). apply Forall_nil.
  - repeat constructor; cbn; lia.
  - vm_compute. discriminate.
Qed.
Print Assumptions C51_patterns.
Print Assumptions C51_ericsson.
Print Assumptions C51_encoder_stream.
