(** Properties C10-C13 (sub-channel multiplexer, src/subchan_demux.c). *)
From Coq Require Import List Arith Lia Bool ZArith.
From Verif Require Import Base Spec RaaModel RaaProps OldTrauModel OldTrauProofs OldTrauProps
  DemuxSpec DemuxModel DemuxProofs DemuxProps MuxProofs.
Import ListNotations.

(** C10. [junk]: previous contents of the 8-bit working buffer. [mop_ok]: the
    entries have even length (channel number 0..3). What sub-channel [c] sends
    is given by the entry-queue specification; if no entry has to be dropped,
    by the flat first-in-first-out specification with idle frames. Only events
    of channel [c] matter. *)
Theorem C10_mux_fifo : forall junk l, length junk = 8 -> Forall mop_ok l ->
  exists m out, mops junk subchan_mux_init l = Some (m, out) /\
    Forall (fun v => (0 <= v < 256)%Z) out /\
    forall c, c < 4 ->
      channel_bits c out = fst (queue_run idle_pattern [] (events c l)) /\
      (no_drop idle_pattern [] (events c l) ->
         channel_bits c out = fst (fifo idle_pattern [] (events c l))).
Proof.
  intros junk l Hj F. destruct (MI_ops junk l _ _ MI_init Hj F) as (m & out & E & R & C & H).
  exists m, out. split; [exact E|]. split; [exact R|]. intros c Hc. split; [now apply C|].
  intros N. rewrite (C c Hc).
  assert (Q : evens (queued (events c l))).
  { clear - F. induction F as [|[c' data|n] l Fo Fl IH]; cbn [events queued flat_map].
    - constructor.
    - unfold queued in *. rewrite flat_map_app. apply Forall_app. split; [|assumption].
      destruct (c' =? c); cbn [flat_map app]; [|constructor]. constructor; [apply Fo|constructor].
    - unfold queued in *. rewrite flat_map_app. apply Forall_app. split; [|assumption].
      clear. induction n as [|n IHn]; [apply Forall_nil|exact IHn]. }
  pose proof (fifo_queue idle_pattern (events c l) [] ltac:(rewrite idle_len; lia) ltac:(exists 160; reflexivity)
     ltac:(constructor) Q N) as X. cbn [concat] in X. rewrite X. reflexivity.
Qed.

(** the idle filler is the frame returned by trau_idle_frame() *)
Theorem C10_idle_filler : exists st, trau_idle_frame idle_initial = Some (st, idle_pattern).
Proof. destruct idle_first as (st & E & _). exists st. exact E. Qed.

Example C10_example : let l := [Enqueue 0 [true; false]; Enqueue 0 [true; true; false; true]; Out 5] in
  Forall mop_ok l /\ no_drop idle_pattern [] (events 0 l) /\
  fst (fifo idle_pattern [] (events 0 l)) = [true;false; true;true; false;true; false;false; false;false].
Proof.
  split; [|split]; [|cbn; lia|reflexivity].
  repeat apply Forall_cons; try apply Forall_nil; cbn; try exact I; (split; [lia|]); [exists 1|exists 2]; reflexivity.
Qed.
Print Assumptions C10_mux_fifo.
Print Assumptions C10_idle_filler.

(** C11. The queue bound holds whatever is enqueued (any lengths). *)
Definition bounded (m : mux) : Prop := Forall (fun q => length q <= 3) (queues m).

Lemma put_Forall {A} (P : A -> Prop) l c v l' : put l c v = Some l' -> Forall P l -> P v -> Forall P l'.
Proof.
  unfold put. destruct (c <? length l); [|discriminate]. intros E. injection E as <-. intros H Hv.
  rewrite Forall_forall in *. intros x Hx. apply in_app_or in Hx. destruct Hx as [Hx|[<-|Hx]]; [|assumption|].
  - apply H. rewrite <- (firstn_skipn c l). apply in_or_app. now left.
  - apply H. rewrite <- (firstn_skipn (S c) l). apply in_or_app. now right.
Qed.

Lemma bounded_enqueue m c data m' : subchan_mux_enqueue m c data = Some m' -> bounded m -> bounded m'.
Proof.
  unfold subchan_mux_enqueue. intros E B. destruct (get (queues m) c) as [q|] eqn:Eq; [|discriminate].
  destruct (put (queues m) c _) as [qs|] eqn:Ep; [|discriminate]. injection E as <-.
  eapply put_Forall; [exact Ep|exact B|]. rewrite app_length. cbn [length]. unfold tx_queue_evict.
  destruct (Nat.ltb_spec 2 (length q)); [rewrite skipn_length|]; lia.
Qed.

Lemma bounded_gsb fuel : forall m c buf off n r m' buf', get_subch_bits fuel m c buf off n r = Some (m', buf') ->
  bounded m -> bounded m'.
Proof.
  induction fuel as [|fuel IH]; intros m c buf off n r m' buf' E B; [discriminate|].
  cbn [get_subch_bits] in E. destruct (n <? r); [|injection E as <- _; exact B].
  destruct (get (queues m) c) as [q0|] eqn:E0; [|discriminate].
  destruct (match q0 with [] => _ | _ => _ end) as [m1|] eqn:E1; [|discriminate].
  assert (B1 : bounded m1).
  { destruct q0; [|injection E1 as <-; exact B]. unfold alloc_add_idle_frame in E1.
    destruct (trau_idle_frame (idle_st m)) as [[st f]|]; [|discriminate].
    destruct (slice f 0 TRAU_FRAME_BITS); [|discriminate].
    eapply bounded_enqueue; [exact E1|exact B]. }
  destruct (get (queues m1) c) as [[|e q]|] eqn:E2; try discriminate. cbn zeta in E.
  destruct (memcpy _ _ _ _ _) as [b|]; [|discriminate].
  destruct (put (queues m1) c _) as [qs|] eqn:Ep; [|discriminate].
  eapply IH; [exact E|]. eapply put_Forall; [exact Ep|exact B1|].
  assert (L : length (e :: q) <= 3).
  { unfold bounded in B1. rewrite Forall_forall in B1. apply B1. eapply nth_error_In. exact E2. }
  cbn [length] in L. destruct (length (tbits e) <=? _); cbn [length]; lia.
Qed.

Theorem C11_mux_queue_bounded : forall junk l m out,
  mops junk subchan_mux_init l = Some (m, out) -> Forall (fun q => length q <= 3) (queues m).
Proof.
  intros junk l. assert (B0 : bounded subchan_mux_init) by (repeat constructor; cbn; lia).
  revert B0. generalize subchan_mux_init as m0.
  induction l as [|[c data|n] l IH]; intros m0 B0 m out E; cbn [mops] in E.
  - injection E as <- _. exact B0.
  - destruct (subchan_mux_enqueue m0 c data) as [m1|] eqn:E1; [|discriminate].
    eapply IH; [|exact E]. eapply bounded_enqueue; eassumption.
  - destruct (subchan_mux_out junk m0 n) as [[m1 o1]|] eqn:E1; [|discriminate].
    destruct (mops junk m1 l) as [[m2 o2]|] eqn:E2; [|discriminate]. injection E as <- _.
    eapply IH; [|exact E2]. clear - E1 B0. revert m0 o1 B0 E1.
    induction n as [|n IH]; intros m0 o1 B0 E; cbn [subchan_mux_out] in E; [injection E as <- _; exact B0|].
    destruct (mux_output_byte junk m0) as [[ma v]|] eqn:Ea; [|discriminate].
    destruct (subchan_mux_out junk ma n) as [[mb o]|] eqn:Eb; [|discriminate]. injection E as <- _.
    eapply IH; [|exact Eb]. unfold mux_output_byte in Ea.
    destruct (get_subch_bits _ m0 0 _ _ _ _) as [[x1 b1]|] eqn:X1; [|discriminate].
    destruct (get_subch_bits _ x1 1 _ _ _ _) as [[x2 b2]|] eqn:X2; [|discriminate].
    destruct (get_subch_bits _ x2 2 _ _ _ _) as [[x3 b3]|] eqn:X3; [|discriminate].
    destruct (get_subch_bits _ x3 3 _ _ _ _) as [[x4 b4]|] eqn:X4; [|discriminate].
    destruct (compact_bits b4); [|discriminate]. injection Ea as <- _.
    eauto using bounded_gsb.
Qed.

(** One enqueue: only entries at the front are dropped, only if there were more
    than two, the new one comes last and the other channels are untouched. *)
Theorem C11_mux_enqueue_evicts_oldest : forall m c data q, nth_error (queues m) c = Some q ->
  exists m' dropped kept, subchan_mux_enqueue m c data = Some m' /\
    q = dropped ++ kept /\ nth_error (queues m') c = Some (kept ++ [mkTxe data 0]) /\
    (length q <= 2 -> dropped = []) /\ (2 < length q -> length kept = 2) /\
    (forall c', c' <> c -> nth_error (queues m') c' = nth_error (queues m) c').
Proof.
  intros m c data q Eq. unfold subchan_mux_enqueue, get. rewrite Eq.
  assert (Hc : c < length (queues m)) by (apply nth_error_Some; congruence).
  rewrite put_splice by assumption. exists (mkMux (splice (queues m) c
     [(if 2 <? length q then tx_queue_evict q (length q - 2) else q) ++ [mkTxe data 0]]) (idle_st m)).
  exists (firstn (length q - 2) q), (skipn (length q - 2) q). split; [reflexivity|].
  split; [symmetry; apply firstn_skipn|]. cbn [queues]. split; [|split; [|split]].
  - rewrite nth_error_splice_same by assumption. f_equal. f_equal. unfold tx_queue_evict.
    destruct (Nat.ltb_spec 2 (length q)); [reflexivity|]. now replace (length q - 2) with 0 by lia.
  - intros H. now replace (length q - 2) with 0 by lia.
  - intros H. rewrite skipn_length. lia.
  - intros c' N. now apply nth_error_splice_other.
Qed.
Example C11_example : let e n := mkTxe (repeat true n) 0 in
  option_map (fun m => nth_error (queues m) 1)
    (subchan_mux_enqueue (mkMux [[]; [e 2; e 4; e 6]; []; []] idle_initial) 1 (repeat true 8)) =
  Some (Some [e 4; e 6; e 8]).
Proof. reflexivity. Qed.
Print Assumptions C11_mux_queue_bounded.
Print Assumptions C11_mux_enqueue_evicts_oldest.

(** What a user might hope on top, "an entry whose transmission has begun is
    sent completely", is false: the oldest entry is dropped even when partly
    sent, here after its first two bits. *)
Theorem C11_evicts_partly_sent_refuted : exists m out,
  mops (repeat false 8) subchan_mux_init
    [Enqueue 0 (repeat true 4); Out 1; Enqueue 0 (repeat false 4); Enqueue 0 (repeat false 4);
     Enqueue 0 (repeat false 4); Out 1] = Some (m, out) /\
  channel_bits 0 out = [true; true; false; false].
Proof. eexists; eexists; split; [vm_compute; reflexivity|reflexivity]. Qed.
Print Assumptions C11_evicts_partly_sent_refuted.

(** C12. With even-length entries no access leaves the working buffer (or any
    other object), for every history. *)
Theorem C12_mux_memory_safe_even : forall junk l, length junk = 8 -> Forall mop_ok l ->
  exists m out, mops junk subchan_mux_init l = Some (m, out).
Proof.
  intros junk l Hj F. destruct (C10_mux_fifo junk l Hj F) as (m & out & E & _). now exists m, out.
Qed.

(** The restriction is necessary: a single odd-length entry on sub-channel 3
    makes the next output byte store past the end of the 8-bit buffer. *)
Theorem C12_odd_length_overflows_refuted : forall junk n, length junk = 8 -> n < 3 ->
  mops junk subchan_mux_init [Enqueue 3 (repeat true (2 * n + 1)); Out (n + 1)] = None.
Proof.
  intros junk n Hj Hn. do 8 (destruct junk as [|? junk]; [discriminate|]). destruct junk; [|discriminate].
  do 3 (destruct n as [|n]; [vm_compute; reflexivity|]). lia.
Qed.
Example C12_example : Forall mop_ok [Enqueue 3 (repeat true 320); Out 200; Enqueue 0 []; Out 1].
Proof. repeat apply Forall_cons; try apply Forall_nil; cbn; try exact I; (split; [lia|]); [exists 160|exists 0]; reflexivity. Qed.
Print Assumptions C12_mux_memory_safe_even.
Print Assumptions C12_odd_length_overflows_refuted.

(** C13. End to end. Frames queued on channel [c] are [clean]; no entry is
    dropped. All output is fed to a demultiplexer with [c] active. Then the
    sub-channel carried a sequence [L] consisting of exactly the queued frames,
    in order, with idle frames in between, the not yet transmitted tail of which
    is what is still queued; and the demultiplexer delivers exactly the frames
    of [L] that were transmitted completely. *)
Theorem C13_mux_demux_end_to_end : forall junk l c, length junk = 8 -> Forall mop_ok l -> c < 4 ->
  Forall clean (queued (events c l)) -> no_drop idle_pattern [] (events c l) ->
  exists m out d tr L q,
    mops junk subchan_mux_init l = Some (m, out) /\
    dops fresh [Activate (Z.of_nat c); In_ out] = Some (d, tr) /\
    fills idle_pattern (queued (events c l)) L /\
    nth_error (queues m) c = Some q /\
    concat L = channel_bits c out ++ concat (map (fun e => skipn (next_bit e) (tbits e)) q) /\
    calls_of c tr = firstn (length out / 160) L.
Proof.
  intros junk l c Hj F Hc HC HN.
  destruct (MI_ops junk l _ _ MI_init Hj F) as (m & out & E & R & C & H).
  assert (Q : evens (queued (events c l))).
  { eapply Forall_impl; [|exact HC]. intros f [Lf _]. rewrite Lf. exists 160. reflexivity. }
  pose proof (fifo_queue idle_pattern (events c l) [] ltac:(rewrite idle_len; lia) ltac:(exists 160; reflexivity)
     ltac:(constructor) Q HN) as X. cbn [concat] in X.
  destruct (fifo_fills idle_pattern (events c l) [] ltac:(rewrite idle_len; lia) Q ltac:(exists 0; reflexivity)
     ltac:(exists 160; reflexivity)) as (L & FL & EL). rewrite X in EL. cbn [fst snd app] in EL.
  rewrite <- (C c Hc) in EL. destruct H as (_ & _ & H). destruct (H c Hc) as (q & Eq & _ & Er).
  assert (CL : Forall clean L).
  { clear - FL HC. induction FL; [constructor|constructor; [apply idle_clean|auto]|].
    inversion HC; subst. constructor; auto. }
  set (s := channel_bits c out) in *.
  assert (Ls : length s = 2 * length out).
  { unfold s, channel_bits. clear. induction out as [|v out IH]; [reflexivity|]. cbn [flat_map app length]. rewrite IH. lia. }
  pose proof (clean_concat_length L CL) as LC.
  assert (Lle : length s <= 320 * length L) by (rewrite <- LC, EL, app_length; lia).
  assert (Es : s = firstn (length s) (concat L)) by (rewrite EL; symmetry; now apply firstn_app_exact).
  assert (G : no_huge_gap s).
  { intros k n En. apply Z.nle_gt. intros Hn.
    assert (Hn' : 1000 <= n) by (apply Nat2Z.inj_le; lia). clear Hn.
    pose proof (f_equal (@length _) En) as Ln. rewrite firstn_length, skipn_length, repeat_length in Ln.
    set (j := k / 320 + 1).
    pose proof (Nat.div_mod k 320 ltac:(lia)) as D. pose proof (Nat.mod_upper_bound k 320 ltac:(lia)) as B.
    assert (J1 : k <= 320 * j /\ 320 * j + 16 < k + 1000) by lia.
    assert (J2 : sync_at (concat L) (320 * j)).
    { apply clean_sync; [assumption|]. exists j. split; [reflexivity|]. lia. }
    apply sync_at_one in J2.
    assert (J3 : nth_error s (320 * j + 16) = Some false).
    { replace (320 * j + 16) with (k + (320 * j + 16 - k)) by lia.
      rewrite <- nth_error_skipn, <- (nth_error_firstn _ n) by lia. rewrite En. apply nth_error_repeat. lia. }
    rewrite Es, nth_error_firstn in J3 by lia. congruence. }
  destruct (C06_demux_delivers_exactly_the_frames [Activate (Z.of_nat c); In_ out] c) as (d & tr & Ed & Et).
  - repeat apply Forall_cons; try apply Forall_nil; cbn; [lia|exact I].
  - assumption.
  - cbn [received]. rewrite Z.eqb_refl, app_nil_r. exact G.
  - cbn [received] in Et. rewrite Z.eqb_refl, app_nil_r in Et.
    exists m, out, d, tr, L, q. repeat split; try assumption.
    + fold s. rewrite EL. f_equal. rewrite <- Er. reflexivity.
    + rewrite Et. fold s. rewrite Es, frames_of_clean by assumption. f_equal. rewrite Ls.
      apply (Nat.div_mul_cancel_l (length out) 160 2); lia.
Qed.

(** Which frames are clean: everything with the 08.60 sync pattern ... *)
Theorem C13_sync_pattern_clean : forall f, length f = 320 -> firstn 17 f = sync_header ->
  map (fun k => nth (16 + 16 * k) f false) (seq 0 19) = repeat true 19 -> clean f.
Proof.
  intros f L S T. split; [assumption|]. intros k. split; [|intros ->; exact S].
  intros Sy. destruct k as [|k]; [reflexivity|]. exfalso.
  pose proof (sync_at_length _ _ Sy) as Lk.
  set (j := (k + 16) / 16). pose proof (Nat.div_mod (k + 16) 16 ltac:(lia)) as D.
  pose proof (Nat.mod_upper_bound (k + 16) 16 ltac:(lia)) as B. fold j in D.
  assert (J : 1 <= j <= 19) by lia.
  assert (X : nth (16 * j) f false = true).
  { assert (Y : nth_error (map (fun k => nth (16 + 16 * k) f false) (seq 0 19)) (j - 1) = Some true)
      by (rewrite T; apply nth_error_repeat; lia).
    rewrite nth_error_map, (nth_error_nth' _ 0) in Y by (rewrite seq_length; lia).
    rewrite seq_nth in Y by lia. cbn [option_map plus] in Y. injection Y as Y.
    replace (16 * j) with (16 + 16 * (j - 1)) by lia. exact Y. }
  assert (Z : nth_error f (16 * j) = Some false).
  { replace (16 * j) with (Datatypes.S k + (16 * j - Datatypes.S k)) by lia.
    apply (sync_at_zeros _ _ _ Sy). lia. }
  apply nth_error_nth with (d := false) in Z. congruence.
Qed.

(** ... in particular every speech/idle frame of the legacy encoder, the idle
    filler and every A-TRAU frame. *)
Theorem C13_encoded_frames_clean :
  (forall buf fr b, length buf = 320 -> dtf_wf fr -> In (frame_type fr) speech_types ->
     encode_trau_frame buf fr = Some (0%Z, b) -> clean b) /\
  (forall f, is_atrau_frame f -> clean f) /\ clean idle_pattern.
Proof.
  split; [|split; [|exact idle_clean]].
  - intros buf fr b Hb W HI E.
    destruct (C14_legacy_roundtrip buf fr fr Hb W W) as [H _]. destruct (H HI) as (b' & fr' & E' & L & S & T & _).
    rewrite E in E'. injection E' as <-. now apply C13_sync_pattern_clean.
  - intros f Hf. pose proof (C03_atrau_no_sync_emulation [f] ltac:(now constructor)) as H.
    cbn [concat length] in H. rewrite app_nil_r in H.
    assert (L : length f = 320).
    { destruct Hf as (out & m & d & c4 & c5 & Ho & Hm & Hd & E).
      destruct m as [|m0[|m1[|]]]; try discriminate.
      destruct (C02_atrau_roundtrip out m0 m1 d c4 c5 d Ho Hd Hd) as (f' & E' & L & _). congruence. }
    split; [assumption|]. intros k. rewrite H. split; [intros (j & Hj & ->); lia|]. intros ->. exists 0. lia.
Qed.

Example C13_example : let f := sync_header ++ repeat true 303 in
  let l := [Enqueue 2 f; Out 10; Enqueue 2 f; Out 400] in
  Forall mop_ok l /\ Forall clean (queued (events 2 l)) /\ queued (events 2 l) = [f; f] /\
  no_drop idle_pattern [] (events 2 l).
Proof.
  cbv zeta. assert (C : clean (sync_header ++ repeat true 303))
    by (apply C13_sync_pattern_clean; vm_compute; reflexivity).
  assert (Q : queued (events 2 [Enqueue 2 (sync_header ++ repeat true 303); Out 10; Enqueue 2 (sync_header ++ repeat true 303); Out 400])
     = [sync_header ++ repeat true 303; sync_header ++ repeat true 303]) by (vm_compute; reflexivity).
  split; [|split; [rewrite Q; repeat constructor; apply C|split; [exact Q|vm_compute; lia]]].
  repeat apply Forall_cons; try apply Forall_nil; cbn; try exact I; (split; [lia|]); exists 160; reflexivity.
Qed.
Print Assumptions C13_mux_demux_end_to_end.
Print Assumptions C13_sync_pattern_clean.
Print Assumptions C13_encoded_frames_clean.
