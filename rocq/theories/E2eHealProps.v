(** C86, continued: the call of C70 into a demultiplexer with any past. *)
From Coq Require Import List Arith Lia Bool ZArith.
From Verif Require Import Spec OldTrauModel OldTrauProofs OldTrauProps DemuxSpec DemuxModel DemuxProofs DemuxProps MuxProofs MuxProps DemuxHealProps.
From Verif Require Import Base RtpSpec TrauSpec TrauModel TrauFields TrauProofs TrauProps
  RtpModel RtpProofs RtpProps RtpHrProps RtpCsdProps RtpBufProps RtpCtlProps SyncModel SyncSpec SyncPatProps E2eSpec E2eProps E2eMuxProps.
Import ListNotations.

(** The receiving demultiplexer has been through anything - other calls, noise, a frame cut
    in the middle, the sub-channel switched off and on - and ends with sub-channel [c]
    switched on. A new call's packets are all delivered, in order: at most one left-over frame
    comes out before the call's first, and only what is still in the multiplexer's queue is
    missing at the end. *)
Theorem C86_call_after_any_past : forall cd st dir xs fs junk l c past, codec_laws cd ->
  Forall (ready dir) xs -> Forall (fun x => exists q, arrives cd st dir (payload x) q) xs -> on8 (st_type st) = false ->
  tx_all cd st idle_initial xs = Some fs ->
  length junk = 8 -> Forall mop_ok l -> c < 4 -> queued (events c l) = fs -> no_drop idle_pattern [] (events c l) ->
  Forall dop_ok past -> act_after c past = true -> sane_past (received false c past) ->
  exists m out q d0 t0, mops junk subchan_mux_init l = Some (m, out) /\ nth_error (queues m) c = Some q /\
    dops fresh past = Some (d0, t0) /\
    forall chunks, concat chunks = out ->
      exists d tr x frames n, dops fresh (past ++ map In_ chunks) = Some (d, tr) /\
        calls_of c tr = calls_of c t0 ++ x ++ frames /\ length x <= 1 /\
        length frames = length out / 160 /\
        heard cd st dir (firstn n xs) frames /\ length xs <= n + length q.
Proof.
  intros cd st dir xs fs junk l c past CL FR FA O TX HJ FM HC HQ ND FP HA SP.
  destruct (all_sent cd st dir xs CL FR FA idle_initial reach_start) as (fs' & E & EN & Q).
  rewrite TX in E. injection E as <-.
  assert (PO : pattern_of st = PAT_16_FR_EFR) by (unfold pattern_of; now rewrite O). rewrite PO in EN.
  assert (CF : Forall clean fs) by (eapply Forall_impl; [|exact EN]; apply encoded_clean).
  destruct (C86_mux junk l c past HJ FM HC ltac:(rewrite HQ; exact CF) ND FP HA SP) as (m & out & L & q & d0 & t0 & EM & FL & EQ & EL & E0 & EC).
  rewrite HQ in FL. exists m, out, q, d0, t0. split; [exact EM|]. split; [exact EQ|]. split; [exact E0|].
  intros chunks HCH.
  destruct (EC chunks HCH) as (d & tr & x & ED & ET & EX).
  assert (LL : Forall (fun f => length f = 320) L).
  { clear - FL CF. induction FL; [constructor|constructor; [reflexivity|auto]|]. constructor; [apply (Forall_inv CF)|]. apply IHFL. exact (Forall_inv_tail CF). }
  assert (LC : length (concat L) = 320 * length L).
  { clear - LL. induction L as [|f L IH]; [reflexivity|]. cbn [concat length]. rewrite app_length, IH by exact (Forall_inv_tail LL). rewrite (Forall_inv LL). lia. }
  assert (LO : length (channel_bits c out) = 2 * length out).
  { clear. unfold channel_bits. induction out as [|v out IH]; [reflexivity|]. cbn [flat_map app length]. rewrite IH. lia. }
  assert (SM : length (concat (map (fun e => skipn (next_bit e) (tbits e)) q)) <= 320 * length q).
  { destruct (MI_ops junk l _ _ MI_init HJ FM) as (m2 & out2 & E2 & _ & _ & _ & _ & MM). rewrite EM in E2. injection E2 as <- <-.
    destruct (MM c HC) as (q2 & Eq2 & _ & ER). rewrite EQ in Eq2. injection Eq2 as <-.
    pose proof (queue_run_small (events c l) ltac:(rewrite HQ; eapply Forall_impl; [|exact CF]; intros f H; apply H) [] ltac:(constructor)) as S.
    change (map (fun e => skipn (next_bit e) (tbits e)) q) with (map MuxProofs.rem q).
    rewrite <- (map_length MuxProofs.rem q), ER. exact (small_concat _ S). }
  apply (f_equal (@length bool)) in EL. rewrite app_length, LC, LO in EL.
  pose proof (Nat.div_mod (length out) 160 ltac:(lia)) as DM. pose proof (Nat.mod_upper_bound (length out) 160 ltac:(lia)) as MB.
  set (k := length out / 160) in *.
  destruct (fills_firstn idle_pattern fs L FL k) as (n & FN & NL & NB).
  exists d, tr, x, (firstn k L), n. split; [exact ED|]. split; [exact ET|]. split; [exact EX|]. split; [|split].
  - rewrite firstn_length. lia.
  - eapply heard_fills; [exact O| |exact FN]. now apply Forall2_firstn.
  - assert (LX : length xs = length fs) by (clear - Q; induction Q; cbn [length]; congruence). lia.
Qed.
(** hypotheses are met: C70's example call in sub-channel 2, into the demultiplexer C86's example
    leaves in the middle of a frame *)
Theorem C86_call_example : exists fs, tx_all ex_codec ex_st idle_initial ex_fr = Some fs /\
  let l := [Out 7; Enqueue 2 (nth 0 fs []); Enqueue 2 (nth 1 fs []); Enqueue 0 (repeat true 320); Out 400; Enqueue 2 (nth 2 fs []); Out 233] in
  Forall mop_ok l /\ queued (events 2 l) = fs /\ no_drop idle_pattern [] (events 2 l) /\
  Forall dop_ok past86 /\ act_after 2 past86 = true /\ sane_past (received false 2 past86).
Proof.
  destruct C70_example as (fs & E & H). cbv zeta in H. exists fs. split; [exact E|]. cbv zeta.
  destruct H as (H1 & H2 & H3). destruct C86_example as (P1 & P2 & _).
  split; [exact H1|]. split; [exact H2|]. split; [exact H3|]. split; [exact P1|]. split; [exact P2|].
  intros k n Z. apply (f_equal (@length _)) in Z. rewrite firstn_length, skipn_length, repeat_length in Z.
  assert (L : length (received false 2 past86) = 320) by reflexivity.
  rewrite L in Z. lia.
Qed.
Print Assumptions C86_call_after_any_past.
