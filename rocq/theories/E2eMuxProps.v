(** Property C70: a call in a 16k sub-channel of a 64k timeslot, from the payloads of RTP packets
    through the sub-channel multiplexer, the line and the demultiplexer back to payloads
    (see E2eSpec). *)
From Coq Require Import List Arith Lia Bool ZArith.
From Verif Require Import Spec OldTrauModel OldTrauProofs OldTrauProps DemuxSpec DemuxModel DemuxProofs DemuxProps MuxProofs MuxProps.
From Verif Require Import Base RtpSpec TrauSpec TrauModel TrauFields TrauProofs TrauProps
  RtpModel RtpProofs RtpProps RtpHrProps RtpCsdProps RtpBufProps RtpCtlProps SyncModel SyncSpec SyncPatProps E2eSpec E2eProps.
Import ListNotations.

(** [heard cd st dir xs L]: the receiver of the frames [L] gets the packets [xs], in order; the
    other frames are ones it is given no payload for *)
Inductive heard (cd : codec) (st : rtp_state) (dir : fdir) : list packet -> list bits -> Prop :=
| heard_nothing : heard cd st dir [] []
| heard_idle f xs L : (forall fr0 out, tf_wf fr0 -> buffer out (length out) 160 -> rx cd st dir fr0 out f = None) ->
    heard cd st dir xs L -> heard cd st dir xs (f :: L)
| heard_packet x f xs L : (forall fr0 out, tf_wf fr0 -> buffer out (length out) 160 ->
      exists q, rx cd st dir fr0 out f = Some q /\ arrives cd st dir (payload x) q) ->
    heard cd st dir xs L -> heard cd st dir (x :: xs) (f :: L).

Lemma all_sent cd st dir xs : codec_laws cd -> Forall (ready dir) xs -> Forall (fun x => exists q, arrives cd st dir (payload x) q) xs ->
  forall es, reachable es -> exists fs, tx_all cd st es xs = Some fs /\ Forall (encoded (pattern_of st)) fs /\
    Forall2 (fun x f => forall fr0 out, tf_wf fr0 -> buffer out (length out) 160 ->
       exists q, rx cd st dir fr0 out f = Some q /\ arrives cd st dir (payload x) q) xs fs.
Proof.
  intros CL FR FA. induction xs as [|x xs IH]; intros es RE.
  - exists []. split; [reflexivity|]. split; constructor.
  - destruct (Forall_inv FA) as (q & A). destruct (sent cd st dir x q es CL (Forall_inv FR) A RE) as (es' & f & E & RE' & EN & Q).
    destruct (IH (Forall_inv_tail FR) (Forall_inv_tail FA) es' RE') as (fs & E2 & EN2 & Q2).
    exists (f :: fs). split; [cbn [tx_all]; now rewrite E, E2|]. split; constructor; assumption.
Qed.

Lemma pat16_nth f o v : has_pattern f pat16 -> In (o, v) pat16 -> nth o f false = v.
Proof. intros P H. apply P in H. now apply nth_error_nth. Qed.

Lemma nth_error_all {A} (l l' : list A) : (forall i, nth_error l i = nth_error l' i) -> l = l'.
Proof.
  revert l'. induction l as [|a l IH]; intros [|b l'] H; [reflexivity|specialize (H 0); discriminate|specialize (H 0); discriminate|].
  pose proof (H 0) as H0. injection H0 as <-. f_equal. apply IH. intros i. exact (H (S i)).
Qed.
Lemma encoded_clean f : encoded PAT_16_FR_EFR f -> clean f.
Proof.
  intros E. apply encoded_matches in E. destruct E as [L M]. apply C51_patterns in M.
  change (published PAT_16_FR_EFR) with pat16 in M. change (length f = 320) in L.
  apply C13_sync_pattern_clean; [exact L| |].
  - apply nth_error_all. intros i.
    destruct (Nat.lt_ge_cases i 17) as [Hi|Hi].
    + rewrite nth_error_firstn by exact Hi.
      assert (H : forall j, j < 17 -> In (j, nth j sync_header false) pat16).
      { intros j Hj. do 17 (destruct j as [|j]; [vm_compute; tauto|]). lia. }
      rewrite (M i _ (H i Hi)). symmetry. apply nth_error_nth'. exact Hi.
    + transitivity (@None bool); [|symmetry]; apply nth_error_None; [rewrite firstn_length; lia|exact Hi].
  - change (repeat true 19) with (map (fun _ : nat => true) (seq 0 19)). apply map_ext_in. intros k Hk. apply in_seq in Hk.
    apply pat16_nth; [exact M|]. unfold pat16. apply in_or_app. right.
    do 19 (destruct k as [|k]; [vm_compute; tauto|]). lia.
Qed.

Lemma idle_rx cd st dir fr0 out : on8 (st_type st) = false -> tf_wf fr0 -> rx cd st dir fr0 out idle_pattern = None.
Proof.
  intros O W. unfold rx. rewrite O.
  pose proof (decode16_total_m idle_pattern fr0 dir eq_refl W) as D.
  change (type16 (sub idle_pattern 17 5)) with T16_IDLE in D.
  destruct (osmo_trau_frame_decode_16k fr0 idle_pattern dir) as [[rc fr]|]; [|discriminate].
  destruct D as (_ & _ & _ & T & ->). cbn [Z.eqb]. unfold osmo_trau2rtp, trau2rtp_bits. rewrite T. reflexivity.
Qed.

Lemma fills_le {A} (i : A) l L : fills i l L -> length l <= length L.
Proof. induction 1; cbn [length]; lia. Qed.
Lemma fills_firstn {A} (i : A) l L : fills i l L -> forall k, exists n, fills i (firstn n l) (firstn k L) /\ n <= length l /\ length l - n <= length L - k.
Proof.
  induction 1 as [|l L F IH|x l L F IH]; intros k.
  - exists 0. rewrite !firstn_nil. split; [constructor|cbn; lia].
  - destruct k as [|k].
    + exists 0. cbn [firstn]. split; [constructor|]. pose proof (fills_le i l L F). cbn [length]. lia.
    + destruct (IH k) as (n & FF & B). exists n. cbn [firstn length]. split; [now constructor|lia].
  - destruct k as [|k].
    + exists 0. cbn [firstn]. split; [constructor|]. pose proof (fills_le i l L F). cbn [length]. lia.
    + destruct (IH k) as (n & FF & B). exists (S n). cbn [firstn length]. split; [now constructor|lia].
Qed.

Lemma q_tick_small p : Forall (fun f => length f <= 320) p -> Forall (fun f => length f <= 320) (snd (q_tick idle_pattern p)).
Proof.
  induction p as [|f p IH]; intros H.
  - cbn [q_tick snd]. constructor; [|constructor]. vm_compute. lia.
  - pose proof (Forall_inv H) as H1. pose proof (Forall_inv_tail H) as H2.
    destruct f as [|b [|b2 [|b3 f]]]; cbn [q_tick snd skipn length] in *; [now apply IH|exact H2|exact H2|].
    constructor; [cbn [length]; lia|exact H2].
Qed.
Lemma queue_run_small ev : Forall (fun f => length f = 320) (queued ev) -> forall p, Forall (fun f => length f <= 320) p ->
  Forall (fun f => length f <= 320) (snd (queue_run idle_pattern p ev)).
Proof.
  induction ev as [|[f|] ev IH]; intros Q p H; cbn [queue_run].
  - exact H.
  - change (queued (Queue f :: ev)) with (f :: queued ev) in Q. apply IH; [exact (Forall_inv_tail Q)|].
    unfold q_add. apply Forall_app. split.
    + rewrite <- (firstn_skipn (length p - 2) p) in H. apply Forall_app in H. apply H.
    + constructor; [|constructor]. pose proof (Forall_inv Q). cbn in *. lia.
  - pose proof (q_tick_small p H) as H1. destruct (q_tick idle_pattern p) as [o p1]. cbn [snd] in H1.
    specialize (IH Q p1 H1). destruct (queue_run idle_pattern p1 ev) as [o2 p2]. exact IH.
Qed.

Lemma small_concat (p : list bits) : Forall (fun f => length f <= 320) p -> length (concat p) <= 320 * length p.
Proof.
  induction p as [|f p IH]; intros S; [apply Nat.le_0_l|]. cbn [concat length]. rewrite app_length.
  pose proof (Forall_inv S). specialize (IH (Forall_inv_tail S)). cbv beta in *. lia.
Qed.
Lemma heard_fills cd st dir xs fs : on8 (st_type st) = false ->
  Forall2 (fun x f => forall fr0 out, tf_wf fr0 -> buffer out (length out) 160 ->
       exists q, rx cd st dir fr0 out f = Some q /\ arrives cd st dir (payload x) q) xs fs ->
  forall L, fills idle_pattern fs L -> heard cd st dir xs L.
Proof.
  intros O F L FL. revert xs F. induction FL as [|l L FL IH|x l L FL IH]; intros xs F.
  - inversion F; subst. constructor.
  - constructor; [intros; now apply idle_rx|now apply IH].
  - inversion F; subst. constructor; [assumption|now apply IH].
Qed.
Lemma Forall2_firstn {A B} (R : A -> B -> Prop) l m n : Forall2 R l m -> Forall2 R (firstn n l) (firstn n m).
Proof. intros H. revert n. induction H; intros [|n]; cbn [firstn]; constructor; auto. Qed.

(** C70. [l]: the calls of the multiplexer, for all four sub-channels; on sub-channel [c] exactly
    the frames made of the packets [xs] are queued, in time ([no_drop]: never more than three
    waiting).  The output goes over the line in any pieces to a demultiplexer that has [c] active.
    It delivers a frame for every 160 octets; in these frames the packets arrive, in order, with
    nothing in between but frames carrying no payload; what is missing is still queued. *)
Theorem C70_subslot_call : forall cd st dir xs fs junk l c, codec_laws cd ->
  Forall (ready dir) xs -> Forall (fun x => exists q, arrives cd st dir (payload x) q) xs -> on8 (st_type st) = false ->
  tx_all cd st idle_initial xs = Some fs ->
  length junk = 8 -> Forall mop_ok l -> c < 4 -> queued (events c l) = fs -> no_drop idle_pattern [] (events c l) ->
  exists m out q, mops junk subchan_mux_init l = Some (m, out) /\ nth_error (queues m) c = Some q /\
    forall chunks, concat chunks = out ->
      exists d tr n, dops fresh (Activate (Z.of_nat c) :: map In_ chunks) = Some (d, tr) /\
        length (calls_of c tr) = length out / 160 /\
        heard cd st dir (firstn n xs) (calls_of c tr) /\ length xs <= n + length q.
Proof.
  intros cd st dir xs fs junk l c CL FR FA O TX HJ FM HC HQ ND.
  destruct (all_sent cd st dir xs CL FR FA idle_initial reach_start) as (fs' & E & EN & Q).
  rewrite TX in E. injection E as <-.
  assert (PO : pattern_of st = PAT_16_FR_EFR) by (unfold pattern_of; now rewrite O). rewrite PO in EN.
  assert (CF : Forall clean fs) by (eapply Forall_impl; [|exact EN]; apply encoded_clean).
  destruct (C13_mux_demux_end_to_end junk l c HJ FM HC ltac:(rewrite HQ; exact CF) ND) as (m & out & d & tr & L & q & EM & ED & FL & EQ & EL & EC).
  rewrite HQ in FL. exists m, out, q. split; [exact EM|]. split; [exact EQ|].
  intros chunks HCH.
  assert (LL : Forall (fun f => length f = 320) L).
  { clear - FL CF. induction FL; [constructor|constructor; [reflexivity|auto]|]. constructor; [apply (Forall_inv CF)|]. apply IHFL. exact (Forall_inv_tail CF). }
  assert (LC : length (concat L) = 320 * length L).
  { clear - LL. induction L as [|f L IH]; [reflexivity|]. cbn [concat length]. rewrite app_length, IH by exact (Forall_inv_tail LL). rewrite (Forall_inv LL). lia. }
  assert (LO : length (channel_bits c out) = 2 * length out).
  { clear. unfold channel_bits. induction out as [|v out IH]; [reflexivity|]. cbn [flat_map app length]. rewrite IH. lia. }
  assert (SM : length (concat (map (fun e => skipn (next_bit e) (tbits e)) q)) <= 320 * length q).
  { destruct (MI_ops junk l _ _ MI_init HJ FM) as (m2 & out2 & E2 & _ & _ & _ & _ & MM). rewrite EM in E2. injection E2 as <- <-.
    destruct (MM c HC) as (q2 & Eq2 & _ & ER). rewrite EQ in Eq2. injection Eq2 as <-.
    pose proof (queue_run_small (events c l) ltac:(rewrite HQ; eapply Forall_impl; [|exact CF]; intros f H; apply H) [] ltac:(constructor)) as S.
    change (map (fun e => skipn (next_bit e) (tbits e)) q) with (map MuxProofs.rem q).
    rewrite <- (map_length MuxProofs.rem q), ER. exact (small_concat _ S). }
  apply (f_equal (@length bool)) in EL. rewrite app_length, LC, LO in EL.
  pose proof (Nat.div_mod (length out) 160 ltac:(lia)) as DM. pose proof (Nat.mod_upper_bound (length out) 160 ltac:(lia)) as MB.
  set (k := length out / 160) in *.
  destruct (fills_firstn idle_pattern fs L FL k) as (n & FN & NL & NB).
  exists d, tr, n. split; [|split; [|split]].
  - pose proof (C07_demux_chunking fresh [Activate (Z.of_nat c)] [] chunks) as CH. rewrite !app_nil_r in CH. cbn [app] in CH.
    rewrite <- CH, HCH. exact ED.
  - rewrite EC, firstn_length. lia.
  - rewrite EC. eapply heard_fills; [exact O| |exact FN]. now apply Forall2_firstn.
  - assert (LX : length xs = length fs) by (clear - Q; induction Q; cbn [length]; congruence). lia.
Qed.

(** hypotheses are met: the three packets of C69's example, two of them waiting at a time, in
    sub-channel 2, while another sub-channel is in use; with the last of them half sent *)
Example C70_example : exists fs, tx_all ex_codec ex_st idle_initial ex_fr = Some fs /\
  let l := [Out 7; Enqueue 2 (nth 0 fs []); Enqueue 2 (nth 1 fs []); Enqueue 0 (repeat true 320); Out 400; Enqueue 2 (nth 2 fs []); Out 233] in
  Forall mop_ok l /\ queued (events 2 l) = fs /\ no_drop idle_pattern [] (events 2 l).
Proof.
  remember (tx_all ex_codec ex_st idle_initial ex_fr) as t eqn:E. vm_compute in E. subst t. eexists. split; [reflexivity|]. cbv zeta.
  split; [|split].
  - repeat apply Forall_cons; try apply Forall_nil; cbn [mop_ok nth]; try exact Logic.I; (split; [lia|exists 160; reflexivity]).
  - reflexivity.
  - vm_compute. repeat (split; [lia|]). exact Logic.I.
Qed.
Print Assumptions C70_subslot_call.
