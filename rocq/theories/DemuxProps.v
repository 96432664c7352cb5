(** Properties C05-C09 (sub-channel demultiplexer, src/subchan_demux.c). *)
From Coq Require Import List Arith Lia Bool ZArith.
From Verif Require Import Base Spec OldTrauModel DemuxSpec DemuxModel DemuxProofs.
Import ListNotations.

(** A demultiplexer just initialised in zeroed memory. *)
Definition fresh : dmx * list call := (subch_demux_init zero_dmx, []).

(** C05. Every history of activate/deactivate/input calls (sub-channel numbers
    not negative) runs without any access outside a buffer ([Some]); the state
    arrays keep their size, and calls are made for channels 0..3 only. *)
Theorem C05_demux_memory_safe : forall l, Forall dop_ok l ->
  exists d tr, dops fresh l = Some (d, tr) /\ length (subch d) = 4 /\
    (forall s, In s (subch d) -> length (out_bitbuf s) = 320 /\ out_idx s < 320) /\
    (forall c f, In (c, f) tr -> c < 4).
Proof.
  intros l F. destruct (dops_DI l _ _ _ F DI_fresh) as (d & tr & E & L & R & H). cbn [fst snd] in *.
  exists d, tr. split; [exact E|]. split; [exact L|]. split; [|intros c f Hx; exact (R _ Hx)].
  intros s Hs. apply In_nth_error in Hs. destruct Hs as [c Hs].
  assert (Hc : c < 4) by (rewrite <- L; apply nth_error_Some; congruence).
  destruct (H c Hc) as (s' & E' & I & _). assert (s' = s) as -> by congruence. now destruct I.
Qed.
Example C05_example : Forall dop_ok [Activate 0; In_ [255; 0]%Z; Deactivate 7].
Proof. repeat apply Forall_cons; try apply Forall_nil; cbn; lia || exact I. Qed.
Print Assumptions C05_demux_memory_safe.

(** C06/C08. [received false c l] is what arrived on sub-channel [c] while it
    was active. The frames delivered for [c] are exactly the aligned frames of
    that bit stream - a function of the channel's own bits only - as long as
    the stream has no run of 2^32 zeros. *)
Theorem C06_demux_delivers_exactly_the_frames : forall l c, Forall dop_ok l -> c < 4 ->
  no_huge_gap (received false c l) ->
  exists d tr, dops fresh l = Some (d, tr) /\ calls_of c tr = frames_of (received false c l).
Proof.
  intros l c F Hc G. destruct (dops_DI l _ _ _ F DI_fresh) as (d & tr & E & L & R & H). cbn [fst snd] in *.
  exists d, tr. split; [exact E|]. destruct (H c Hc) as (s & Es & _ & _ & Q).
  assert (A : active (subch_demux_init zero_dmx) c = false) by (unfold active; apply Z.bits_0).
  rewrite A in Q. now apply Q.
Qed.

(** C06, without the assumption: nothing but aligned frames is ever delivered,
    in order and none twice. *)
Theorem C06_demux_delivers_only_frames : forall l c, Forall dop_ok l -> c < 4 ->
  exists d tr, dops fresh l = Some (d, tr) /\
    sublist (calls_of c tr) (frames_of (received false c l)).
Proof.
  intros l c F Hc. destruct (dops_DI l _ _ _ F DI_fresh) as (d & tr & E & L & R & H). cbn [fst snd] in *.
  exists d, tr. split; [exact E|]. destruct (H c Hc) as (s & Es & _ & Q & _).
  assert (A : active (subch_demux_init zero_dmx) c = false) by (unfold active; apply Z.bits_0).
  rewrite A in Q. exact Q.
Qed.

(** every aligned frame is 320 bits long, starts with the header and is a
    contiguous part of the stream *)
Theorem C06_frames_of_sound : forall s f, In f (frames_of s) ->
  length f = 320 /\ firstn 17 f = sync_header /\ exists p q, s = p ++ f ++ q.
Proof.
  intros s f Hf. unfold frames_of in Hf. apply in_flat_map in Hf. destruct Hf as (t & Ht & Hf).
  destruct (frame_ends_at s t) eqn:E; [|contradiction]. destruct Hf as [<-|[]].
  apply frame_ends_at_spec in E. destruct E as (L & S & _). apply in_seq in Ht.
  assert (LL : length (firstn 320 (skipn (t - 320) s)) = 320) by (rewrite firstn_length, skipn_length; lia).
  split; [exact LL|]. split.
  - rewrite firstn_firstn. exact S.
  - exists (firstn (t - 320) s), (skipn 320 (skipn (t - 320) s)). now rewrite !firstn_skipn.
Qed.

(** a stream with one frame, preceded by noise *)
Definition ex_stream : bits := [true; false] ++ sync_header ++ repeat true 303 ++ [false].
Example C06_example : frames_of ex_stream = [sync_header ++ repeat true 303].
Proof. vm_compute. reflexivity. Qed.
(** streams shorter than 2^32 bits meet the hypothesis *)
Lemma short_no_huge_gap s : (Z.of_nat (length s) < 2 ^ 32)%Z -> no_huge_gap s.
Proof.
  intros H k n E. apply (f_equal (@length _)) in E. rewrite firstn_length, skipn_length, repeat_length in E. lia.
Qed.
Example C06_example_run :
  let l := [Activate 2; Activate 1; In_ (map (fun b : bool => if b then 48 else 0)%Z (repeat false 8 ++ repeat true 152))] in
  no_huge_gap (received false 2 l) /\ exists d, dops fresh l = Some (d, [(2, sync_header ++ repeat true 303)]).
Proof. split; [apply short_no_huge_gap; vm_compute; reflexivity|]. eexists. vm_compute. reflexivity. Qed.
Print Assumptions C06_demux_delivers_exactly_the_frames.
Print Assumptions C06_demux_delivers_only_frames.
Print Assumptions C06_frames_of_sound.

(** The assumption of [C06_demux_delivers_exactly_the_frames] cannot be dropped:
    the zero counter is a 32-bit one. A header completed after exactly 2^32
    zeros is missed and the frame behind it lost. *)
Lemma gap_sig : {n : nat | Z.of_nat (2 * n) = (2 ^ 32)%Z}.
Proof.
  exists (Z.to_nat (2 ^ 31)). rewrite Nat2Z.inj_mul, Z2Nat.id by (apply Z.pow_nonneg; lia). reflexivity.
Qed.
(** 2^31 bytes *)
Definition gap : nat := proj1_sig gap_sig.
Definition gap_history : list dop := [Activate 0; In_ (repeat 0%Z gap); In_ (repeat 255%Z 152)].

Lemma channel_bits_repeat0 n : channel_bits 0 (repeat 0%Z n) = repeat false (2 * n).
Proof.
  induction n as [|n IH]; [reflexivity|]. replace (2 * S n) with (S (S (2 * n))) by lia.
  cbn [repeat]. rewrite <- IH. reflexivity.
Qed.

Definition dull (d : dmx) : Prop := chan_activ d = 1%Z /\ exists s l, subch d = s :: l /\
  length (out_bitbuf s) = 320 /\ out_idx s < 320 /\ consecutive_zeros s = 0%Z /\ in_sync s = false.

Lemma dull_bit d : dull d -> exists d', append_bit_resync_out d 0 true = Some (d', []) /\ dull d'.
Proof.
  intros (A & s & l & E & L & I & Z & S). unfold append_bit_resync_out, get. rewrite E. cbn [nth_error].
  unfold sch_step, append_bit. rewrite put_splice by lia. unfold sync_hdr_complete.
  cbn [out_bitbuf out_idx consecutive_zeros in_sync negb]. rewrite Z, S.
  change (Z.of_nat SYNC_HDR_BITS <=? 0)%Z with false. cbn iota.
  cbn [out_bitbuf out_idx consecutive_zeros in_sync].
  assert (LS : length (splice (out_bitbuf s) (out_idx s) [true]) = 320)
    by (rewrite splice_length; cbn [length]; lia).
  destruct (Nat.leb_spec TRAU_FRAME_BITS (Datatypes.S (out_idx s))) as [H|H]; unfold TRAU_FRAME_BITS in H; unfold put; cbn [length Nat.ltb Nat.leb firstn app skipn];
  (eexists; split; [reflexivity|]; split; [assumption|]; eexists; eexists; split; [reflexivity|];
   cbn [out_bitbuf out_idx consecutive_zeros in_sync]; repeat split; try assumption; lia).
Qed.

Lemma dull_in n : forall d tr, dull d -> exists d', subch_demux_in (d, tr) (repeat 255%Z n) = Some (d', tr).
Proof.
  induction n as [|n IH]; intros d tr H; [eexists; reflexivity|].
  cbn [repeat subch_demux_in]. unfold demux_byte, NR_SUBCH. cbn [forM]. unfold demux_subch at 1.
  assert (A : chan_activ d = 1%Z) by apply H. rewrite A.
  change (Z.testbit 1 (Z.of_nat 0)) with true. cbn [negb].
  change (Z.testbit (Z.shiftr 255 (Z.of_nat (2 * 0))) 0) with true.
  change (Z.testbit (Z.shiftr 255 (Z.of_nat (2 * 0))) 1) with true.
  destruct (dull_bit d H) as (d1 & -> & H1). destruct (dull_bit d1 H1) as (d2 & -> & H2).
  assert (A2 : chan_activ d2 = 1%Z) by apply H2. unfold demux_subch. rewrite !app_nil_r.
  do 3 (rewrite A2; match goal with |- context [Z.testbit 1 (Z.of_nat ?k)] =>
     change (Z.testbit 1 (Z.of_nat k)) with false end; cbn [negb]).
  apply IH, H2.
Qed.

Lemma sync_at_zero h k i : sync_at h k -> i < 16 -> nth_error h (k + i) = Some false.
Proof.
  intros S Hi. rewrite <- nth_error_skipn, <- (nth_error_firstn _ 17) by lia. rewrite S. unfold sync_header.
  rewrite nth_error_app1 by (rewrite repeat_length; lia). now apply nth_error_repeat.
Qed.

Lemma gap_frame n : frames_of (repeat false (16 + n) ++ repeat true 304) <> [].
Proof.
  intros E. set (h := repeat false (16 + n) ++ repeat true 304) in *.
  assert (Lh : length h = n + 320) by (unfold h; rewrite app_length, !repeat_length; lia).
  assert (Hd : h = repeat false n ++ sync_header ++ repeat true 303).
  { unfold h. rewrite Nat.add_comm, repeat_app, <- app_assoc. reflexivity. }
  assert (F : frame_ends_at h (n + 320) = true).
  { apply frame_ends_at_spec. split; [lia|]. replace (n + 320 - 320) with n by lia. split.
    - unfold sync_at. rewrite Hd, skipn_app_exact by apply repeat_length. reflexivity.
    - intros k K1 K2 S. destruct (Nat.le_gt_cases k (n + 16)) as [K|K].
      + apply (sync_at_zero _ _ (n + 16 - k)) in S; [|lia].
        replace (k + (n + 16 - k)) with (n + 16) in S by lia.
        unfold h in S. rewrite nth_error_app2 in S by (rewrite repeat_length; lia).
        rewrite repeat_length in S. replace (n + 16 - (16 + n)) with 0 in S by lia. discriminate.
      + apply (sync_at_zero _ _ 0) in S; [|lia]. unfold h in S.
        rewrite nth_error_app2, nth_error_repeat in S by (rewrite repeat_length; lia). discriminate. }
  unfold frames_of in E.
  assert (X : In (firstn 320 (skipn (n + 320 - 320) h)) []).
  { rewrite <- E. apply in_flat_map. exists (n + 320). split; [apply in_seq; lia|]. rewrite F. now left. }
  contradiction X.
Qed.

Lemma zeros_no_sync n k : ~ sync_at (repeat false n) k.
Proof.
  intros S. pose proof (sync_at_length _ _ S) as LS.
  assert (X : nth_error (repeat false n) (k + 16) = Some true).
  { rewrite <- nth_error_skipn, <- (nth_error_firstn _ 17) by lia. rewrite S. reflexivity. }
  rewrite repeat_length in LS. rewrite nth_error_repeat in X by lia. discriminate.
Qed.
Lemma zeros_tz n : tz (repeat false n) = n.
Proof.
  apply Nat.le_antisymm.
  - destruct (proj1 (tz_spec (repeat false n) _) (le_n _)) as [p E].
    apply (f_equal (@length _)) in E. rewrite app_length, !repeat_length in E. lia.
  - apply tz_spec. now exists [].
Qed.
Lemma zeros_frames n : frames_of (repeat false n) = [].
Proof.
  unfold frames_of. induction (seq _ _) as [|t ts IH]; [reflexivity|]. cbn [flat_map].
  rewrite IH. destruct (frame_ends_at _ t) eqn:E; [|reflexivity].
  apply frame_ends_at_spec in E. destruct E as (_ & S & _). now apply zeros_no_sync in S.
Qed.

Theorem C06_counter_wrap_refuted : Forall dop_ok gap_history /\
  (exists d, dops fresh gap_history = Some (d, [])) /\ frames_of (received false 0 gap_history) <> [].
Proof.
  split; [repeat apply Forall_cons; try apply Forall_nil; cbn; lia || exact I|].
  assert (Eg : Z.of_nat (2 * gap) = (2 ^ 32)%Z).
  { exact (proj2_sig gap_sig). }
  assert (G16 : 16 <= 2 * gap) by (apply Nat2Z.inj_le; rewrite Eg; discriminate).
  split.
  - unfold gap_history. remember (repeat 0%Z gap) as zs eqn:Ez. cbn [dops]. unfold fresh at 1.
    cbn [dop_step]. destruct (activate_spec (subch_demux_init zero_dmx) 0 ltac:(lia)) as (rc & d1 & E1 & S1 & A1).
    assert (C1 : chan_activ d1 = 1%Z) by (injection E1 as _ <-; reflexivity).
    rewrite E1. cbn [snd dop_step].
    assert (H1 : DI (fun _ => []) (d1, [])) by (pose proof DI_fresh as D; unfold DI in *; cbn [fst snd] in *; now rewrite S1).
    destruct (DI_in zs _ d1 [] H1) as (d2 & t2 & -> & C2 & L2 & R2 & H2). cbn [fst snd] in *.
    rewrite C1 in C2. destruct (H2 0 ltac:(lia)) as (s & Es & I & Q & _).
    unfold active in I, Q. rewrite C1 in I, Q. change (Z.testbit 1 (Z.of_nat 0)) with true in I, Q. cbn [app] in I, Q.
    rewrite Ez, channel_bits_repeat0 in I, Q.
    pose proof (zeros_no_sync (2 * gap)) as NS. pose proof (zeros_tz (2 * gap)) as T.
    pose proof (zeros_frames (2 * gap)) as F0.
    rewrite F0 in Q. inversion Q as [Q0| |]. symmetry in Q0.
    assert (t2 = []) as ->.
    { destruct t2 as [|x t2]; [reflexivity|]. exfalso.
      assert (Hx : fst x = 0 \/ fst x <> 0) by lia. destruct Hx as [Hx|Hx].
      - unfold calls_of in Q0. cbn [filter] in Q0. rewrite Hx in Q0. discriminate.
      - assert (Hx4 : fst x < 4) by (apply R2; now left).
        destruct (H2 (fst x) Hx4) as (s' & _ & _ & Q' & _). unfold active in Q'. rewrite C1 in Q'.
        assert (Tb : Z.testbit 1 (Z.of_nat (fst x)) = false).
        { destruct (fst x) as [|[|[|[|]]]]; try reflexivity; lia. }
        rewrite Tb in Q'. unfold calls_of in Q'. cbn [filter] in Q'. rewrite Nat.eqb_refl in Q'.
        cbn [map] in Q'. change (frames_of []) with (@nil bits) in Q'. inversion Q'. }
    destruct I as [Il Ii Iz Iin _]. rewrite T, Eg in Iz. change (2 ^ 32 mod UINT_MOD)%Z with 0%Z in Iz.
    assert (Hs : in_sync s = false).
    { destruct (in_sync s) eqn:X; [|reflexivity]. destruct (Iin eq_refl) as (k & _ & _ & S & _). now apply NS in S. }
    clear - C2 Es Il Ii Iz Hs L2. assert (D2 : dull d2).
    { split; [assumption|]. destruct (subch d2) as [|s0 l]; [discriminate|]. injection Es as ->.
      exists s, l. exact (conj eq_refl (conj Il (conj Ii (conj Iz Hs)))). }
    cbn [dop_step]. destruct (dull_in 152 d2 [] D2) as [d3 ->]. now exists d3.
  - unfold gap_history. cbn [received]. change (0 =? Z.of_nat 0)%Z with true. cbn iota.
    rewrite channel_bits_repeat0. change (channel_bits 0 (repeat 255%Z 152) ++ []) with (repeat true 304).
    replace (2 * gap) with (16 + (2 * gap - 16)) by lia. apply gap_frame.
Qed.
Print Assumptions C06_counter_wrap_refuted.

(** C07. One call with a++b is the same as a call with a followed by one with b,
    in any state and inside any history. *)
Theorem C07_demux_chunking : forall st pre post (chunks : list (list Z)),
  dops st (pre ++ [In_ (concat chunks)] ++ post) = dops st (pre ++ map In_ chunks ++ post).
Proof.
  assert (A : forall l1 l2 st, dops st (l1 ++ l2) = (do st <- dops st l1; dops st l2)).
  { induction l1 as [|o l1 IH]; intros l2 st; cbn [app dops]; [reflexivity|].
    destruct (dop_step st o); [apply IH|reflexivity]. }
  intros st pre post chunks. rewrite !A. destruct (dops st pre) as [[d tr]|]; [|reflexivity].
  rewrite !A. replace (dops (d, tr) [In_ (concat chunks)]) with (dops (d, tr) (map In_ chunks)); [reflexivity|].
  revert d tr. induction chunks as [|a chunks IH]; intros d tr; [reflexivity|].
  cbn [map dops dop_step concat]. rewrite demux_in_app.
  destruct (subch_demux_in (d, tr) a) as [[d' tr']|]; [|reflexivity]. apply IH.
Qed.
Example C07_example : concat [[1]; []; [2; 3]]%Z = [1; 2; 3]%Z. Proof. reflexivity. Qed.
Print Assumptions C07_demux_chunking.

(** C08. Two histories that agree on what sub-channel [c] received while active
    deliver the same frames for [c], whatever they do on the other channels;
    with nothing received there is no callback. *)
Theorem C08_demux_independent : forall l1 l2 c, Forall dop_ok l1 -> Forall dop_ok l2 -> c < 4 ->
  no_huge_gap (received false c l1) ->
  received false c l1 = received false c l2 ->
  exists d1 t1 d2 t2, dops fresh l1 = Some (d1, t1) /\ dops fresh l2 = Some (d2, t2) /\
    calls_of c t1 = calls_of c t2.
Proof.
  intros l1 l2 c F1 F2 Hc G E.
  destruct (C06_demux_delivers_exactly_the_frames l1 c F1 Hc G) as (d1 & t1 & E1 & Q1).
  rewrite E in G. destruct (C06_demux_delivers_exactly_the_frames l2 c F2 Hc G) as (d2 & t2 & E2 & Q2).
  exists d1, t1, d2, t2. repeat split; try assumption. congruence.
Qed.

(** An inactive sub-channel's state is untouched by input and it gets no callback. *)
Theorem C08_inactive_untouched : forall d data c d' tr', c < 4 -> length (subch d) = 4 ->
  Z.testbit (chan_activ d) (Z.of_nat c) = false ->
  subch_demux_in (d, []) data = Some (d', tr') ->
  nth_error (subch d') c = nth_error (subch d) c /\ calls_of c tr' = [].
Proof.
  intros d data c d' tr' Hc HL Ha. 
  assert (G : forall c', c' < 4 -> forall x d tr d' tr',
     Z.testbit (chan_activ d) (Z.of_nat c) = false -> length (subch d) = 4 ->
     demux_subch x c' (d, tr) = Some (d', tr') ->
     chan_activ d' = chan_activ d /\ length (subch d') = 4 /\
     nth_error (subch d') c = nth_error (subch d) c /\ calls_of c tr' = calls_of c tr).
  { clear. intros c' Hc' x d tr d' tr' Ha HL E. unfold demux_subch in E.
    destruct (Z.testbit (chan_activ d) (Z.of_nat c')) eqn:A; cbn [negb] in E; [|injection E as <- <-; auto].
    assert (N : c <> c') by congruence.
    assert (B : forall b d d' t, append_bit_resync_out d c' b = Some (d', t) -> length (subch d) = 4 ->
       chan_activ d' = chan_activ d /\ length (subch d') = 4 /\ nth_error (subch d') c = nth_error (subch d) c /\
       calls_of c t = []).
    { clear - Hc' N. intros b d d' t E HL. unfold append_bit_resync_out in E.
      destruct (get _ _); [|discriminate]. destruct (sch_step s b) as [[s' fr]|]; [|discriminate].
      rewrite put_splice in E by lia. injection E as <- <-. cbn [chan_activ subch].
      split; [reflexivity|]. split; [rewrite splice_length; cbn [length]; lia|].
      split; [apply nth_error_splice_other; [lia|assumption]|now apply calls_of_pair_other]. }
    destruct (append_bit_resync_out d c' _) as [[d1 t1]|] eqn:E1; [|discriminate].
    destruct (append_bit_resync_out d1 c' _) as [[d2 t2]|] eqn:E2; [|discriminate].
    injection E as <- <-. apply B in E1; [|assumption]. destruct E1 as (A1 & L1 & N1 & C1).
    apply B in E2; [|assumption]. destruct E2 as (A2 & L2 & N2 & C2).
    rewrite !calls_of_app, C1, C2. cbn [app]. rewrite app_nil_r. repeat split; congruence. }
  assert (K : forall data d tr, length (subch d) = 4 -> Z.testbit (chan_activ d) (Z.of_nat c) = false ->
    subch_demux_in (d, tr) data = Some (d', tr') ->
    nth_error (subch d') c = nth_error (subch d) c /\ calls_of c tr' = calls_of c tr).
  { clear d data HL Ha. induction data as [|x data IH]; intros d tr HL Ha E; cbn [subch_demux_in] in E.
    - injection E as <- <-. auto.
    - unfold demux_byte, NR_SUBCH in E. cbn [forM] in E.
      destruct (demux_subch x 0 (d, tr)) as [[d1 t1]|] eqn:E1; [|discriminate].
      destruct (demux_subch x 1 (d1, t1)) as [[d2 t2]|] eqn:E2; [|discriminate].
      destruct (demux_subch x 2 (d2, t2)) as [[d3 t3]|] eqn:E3; [|discriminate].
      destruct (demux_subch x 3 (d3, t3)) as [[d4 t4]|] eqn:E4; [|discriminate].
      apply G in E1; [|lia|assumption..]. destruct E1 as (A1 & L1 & N1 & C1).
      apply G in E2; [|lia|congruence|assumption]. destruct E2 as (A2 & L2 & N2 & C2).
      apply G in E3; [|lia|congruence|assumption]. destruct E3 as (A3 & L3 & N3 & C3).
      apply G in E4; [|lia|congruence|assumption]. destruct E4 as (A4 & L4 & N4 & C4).
      apply IH in E; [|assumption|congruence]. destruct E as [E1 E2]. split; congruence. }
  intros E. apply (K data d [] HL Ha E).
Qed.
Example C08_example : let l1 := [Activate 1; In_ [3; 12]%Z] in let l2 := [Activate 0; Activate 1; In_ [0; 255]%Z] in
  Forall dop_ok l1 /\ Forall dop_ok l2 /\ received false 1 l1 = received false 1 l2 /\
  received false 1 l1 = [false; false; true; true].
Proof. repeat split; repeat apply Forall_cons; try apply Forall_nil; cbn; lia || exact I. Qed.
Print Assumptions C08_demux_independent.
Print Assumptions C08_inactive_untouched.

(** C09. Numbers >= 4 are refused with -EINVAL and nothing changes; 0..3 change
    exactly that channel's activity and no receiver state. *)
Theorem C09_activation_contract : forall d n, (0 <= n)%Z ->
  ((4 <= n)%Z -> subch_demux_activate d n = Some (EINVAL, d) /\ subch_demux_deactivate d n = Some (EINVAL, d)) /\
  ((n < 4)%Z -> exists d1 d2,
     subch_demux_activate d n = Some (0%Z, d1) /\ subch_demux_deactivate d n = Some (0%Z, d2) /\
     subch d1 = subch d /\ subch d2 = subch d /\
     forall c, c < 4 ->
       active d1 c = (if Z.eqb n (Z.of_nat c) then true else active d c) /\
       active d2 c = (if Z.eqb n (Z.of_nat c) then false else active d c)).
Proof.
  intros d n Hn. split; intros H.
  - unfold subch_demux_activate, subch_demux_deactivate, NR_SUBCH.
    destruct (Z.leb_spec (Z.of_nat 4) n); [split; reflexivity|lia].
  - destruct (activate_spec d n Hn) as (r1 & d1 & E1 & S1 & A1).
    destruct (deactivate_spec d n Hn) as (r2 & d2 & E2 & S2 & A2).
    exists d1, d2.
    assert (R1 : r1 = 0%Z /\ r2 = 0%Z).
    { unfold subch_demux_activate, subch_demux_deactivate, NR_SUBCH in E1, E2.
      destruct (Z.leb_spec (Z.of_nat 4) n); [lia|]. destruct (Z.ltb_spec n 0); [lia|]. split; congruence. }
    destruct R1 as [-> ->]. repeat split; try assumption; [now apply A1|now apply A2].
Qed.
Example C09_example : exists d1, subch_demux_activate zero_dmx 2 = Some (0%Z, d1) /\ active d1 2 = true /\ active d1 1 = false.
Proof. eexists; repeat split. Qed.
Print Assumptions C09_activation_contract.

(** The stronger reading "(re)activation restarts reception" is false: a frame
    cut in two by a deactivation is still delivered, glued together. *)
Theorem C09_activation_does_not_restart_refuted :
  let bytes l := map (fun b : bool => if b then 3 else 0)%Z l in
  exists d f, dops fresh [Activate 0; In_ (bytes (repeat true 5 ++ repeat false 8 ++ repeat true 10));
                          Deactivate 0; In_ (bytes (repeat false 700)); Activate 0;
                          In_ (bytes (repeat true 142))] = Some (d, [(0, f)]) /\ length f = 320.
Proof. eexists; eexists; split; [vm_compute; reflexivity|reflexivity]. Qed.
Print Assumptions C09_activation_does_not_restart_refuted.

(** Nor does calling subch_demux_init again reset the receiver: in_sync
    survives, so 320 bits without any header are delivered as a frame. *)
Theorem C09_reinit_keeps_sync_refuted :
  let bytes l := map (fun b : bool => if b then 3 else 0)%Z l in
  exists d1 d2 f,
    dops fresh [Activate 0; In_ (bytes (repeat false 8 ++ repeat true 10))] = Some (d1, []) /\
    dops (subch_demux_init d1, []) [Activate 0; In_ (bytes (repeat true 160))] = Some (d2, [(0, f)]) /\
    firstn 17 f <> sync_header.
Proof.
  eexists; eexists; eexists. split; [vm_compute; reflexivity|]. split; [vm_compute; reflexivity|]. discriminate.
Qed.
Print Assumptions C09_reinit_keeps_sync_refuted.
