(** C50 for raw and HDLC timeslots. *)
From Coq Require Import List Arith Lia Bool ZArith String.
From Verif Require Import Base E1Model E1Spec E1Proofs E1LinkProofs E1TsProofs E1WakeProofs E1LinkProps.
Import ListNotations.
Open Scope Z_scope.

Definition queued (t : ts) : Prop := t_type t = TS_RAW \/ t_type t = TS_HDLC.
Definition KR (w : world) (h : history) : Prop := forall a b t, tsv w a b = Some t -> queued t -> t_q t <> [] -> t_wr t = true.
Lemma KR_step w h o w' outs : KAll w h -> KR w h -> step w o = Some (w', outs) -> KR w' (h ++ [(o, outs)]).
Proof.
  intros KA P ST a b x X TY NE. destruct KA as [A K Q H]. pose proof (li_wf _ _ A) as W. apply step_effect in ST; auto.
  inversion ST as [? ? ? S N L QU OO|? ? ? S N L OE OO|? ? ? lid n t t' T M N L TO|lid n ty tei sapi ? t t' T M N L LC|id ? lid n t t' freed outs' T M N L HH LD OE]; subst.
  - eauto.
  - destruct (S _ _ _ X) as [X1|(_ & Z1 & Z2)]; [eauto|]. exfalso. destruct TY; congruence.
  - destruct (M _ _ _ X) as [(-> & -> & ->)|[_ X1]]; [|eauto]. assert (PREV : queued t -> t_q t <> [] -> t_wr t = true) by (intros; eapply P; eauto).
    destruct o; cbn in TO; try contradiction.
    + destruct TO as (-> & -> & -> & ->). unfold e1inp_ts_config in *. destruct (type_eqb _ _); cbn in *; [now apply PREV|]. destruct (cleanup_e1inp_ts t) as [[? ?] ?]. cbn in *. congruence.
    + destruct TO as (HS & -> & ->). unfold ts_send, queued in *. cbn in *. rewrite PREV; auto.
    + destruct TO as (-> & -> & SQ & ->). unfold ts_send_queue in SQ. destruct (type_eqb _ _); [|discriminate]. injection SQ as <-. reflexivity.
    + destruct TO as (-> & -> & res & WR & ->). unfold ts_write_ready in WR. destruct (t_wr t) eqn:WT; cbn [negb] in WR; [|injection WR as <- <-; now discriminate PREV].
      unfold e1inp_tx_ts in WR. cbn [t_type t_links t_q t_i460 t_timer t_wr] in WR.
      destruct (t_type t) eqn:TT; try (injection WR as <- <-; exact WT).
      * destruct (dequeue (t_links t)) as [[[l m] ls]|]; [destruct (osmo_timer_schedule _); [|discriminate]|]; injection WR as <- <-; cbn in TY; destruct TY as [TY|TY]; cbn in TY; congruence.
      * destruct (t_q t) as [|m q] eqn:TQ; injection WR as <- <-; cbn in *; congruence.
      * destruct (t_q t) as [|m q] eqn:TQ; injection WR as <- <-; cbn in *; congruence.
    + destruct TO as (-> & -> & -> & ->). unfold ts_timeout, queued in *. destruct (t_timer t); cbn in *; auto.
  - destruct (M _ _ _ X) as [(-> & -> & ->)|[_ X1]]; [|eauto]. apply link_create_spec in LC as (C1 & C2 & _). destruct TY; congruence.
  - destruct (M _ _ _ X) as [(-> & -> & ->)|[_ X1]]; [|eauto]. unfold ts_link_destroy in LD. destruct (find _ _) as [lk|]; [|discriminate]. destruct (match t_type t with TS_SIGN => _ | _ => _ end) as [tm|] eqn:TMR in LD; [|discriminate]. injection LD as <- _. cbn in *. eapply P; eauto.
Qed.
Lemma KR_run ops w h : run world0 ops = Some (w, h) -> KR w h.
Proof.
  intros R. assert (G : KAll w h /\ KR w h); [|tauto]. revert R. apply (run_inv (fun w h => KAll w h /\ KR w h)).
  - split; [|intros a b t T; discriminate]. constructor; [apply LInv0|apply KS0|apply KQ0|apply KH0].
  - intros w0 h0 o w' outs [I1 I2] S. split; [eapply KAll_step; eauto|eapply KR_step; eauto].
Qed.
Lemma raw_cycle w lid n t : tsv w lid n = Some t -> queued t -> (t_q t <> [] -> t_wr t = true) ->
  exists w' outs t', step w (WriteReady lid n) = Some (w', outs) /\ tsv w' lid n = Some t' /\ queued t' /\ (t_q t' <> [] -> t_wr t' = true) /\
    match t_q t with [] => outs = [] /\ t_q t' = [] | m :: q => outs = [SentRaw m] /\ t_q t' = q end.
Proof.
  intros T TY WR. unfold tsv in T. destruct (find_line w lid) as [l|] eqn:F; [|discriminate].
  assert (X : exists res t', ts_write_ready t = Some (res, t') /\ queued t' /\ (t_q t' <> [] -> t_wr t' = true) /\ match t_q t with [] => res = WrNone /\ t_q t' = [] | m :: q => res = WrQueued m /\ t_q t' = q end).
  { unfold ts_write_ready, queued in *. destruct (t_wr t) eqn:WT; cbn [negb].
    - destruct TY as [TY|TY]; rewrite TY; unfold e1inp_tx_ts; rewrite TY; destruct (t_q t) as [|m q] eqn:TQ; (do 2 eexists; split; [reflexivity|]; cbn; rewrite ?TY; split; [tauto|]; split; [congruence|]; auto).
    - destruct (t_q t) as [|m q] eqn:TQ; [|now discriminate WR]. exists WrNone, t. rewrite TQ. split; [reflexivity|]. split; [exact TY|]. split; [congruence|auto]. }
  destruct X as (res & t' & E & Q' & W' & C). exists (set_line w (put_ts l n t')). eexists. exists t'. split.
  { cbn [step]. unfold get_ts. rewrite F, T, E, (set_ts_eq _ _ _ _ _ T). reflexivity. }
  split; [eapply tsv_set_ts; eauto|]. split; [exact Q'|]. split; [exact W'|]. destruct (t_q t); destruct C as [-> C]; auto.
Qed.
Fixpoint writes (lid n k : nat) : list op := match k with O => [] | S k => WriteReady lid n :: writes lid n k end.
Lemma raw_drain lid n : forall k w t, tsv w lid n = Some t -> queued t -> (t_q t <> [] -> t_wr t = true) -> (List.length (t_q t) <= k)%nat ->
  exists w' h', run w (writes lid n k) = Some (w', h') /\ q_submitted h' lid n = [] /\ q_removed h' lid n = t_q t.
Proof.
  induction k as [|k IH]; intros w t T TY WR LE.
  - exists w, []. destruct (t_q t); [auto|cbn in LE; lia].
  - destruct (raw_cycle w lid n t T TY WR) as (w1 & outs & t1 & S1 & T1 & TY1 & WR1 & C).
    assert (LE1 : (List.length (t_q t1) <= k)%nat) by (destruct (t_q t); destruct C as [_ ->]; cbn in *; lia).
    destruct (IH w1 t1 T1 TY1 WR1 LE1) as (w2 & h2 & R2 & A & B). exists w2, ((WriteReady lid n, outs) :: h2). cbn [writes run]. rewrite S1. cbn [fst snd]. rewrite R2. split; [reflexivity|].
    unfold q_submitted, q_removed in *. cbn [flat_map]. rewrite A, B, !Nat.eqb_refl. cbn. destruct (t_q t); destruct C as [-> ->]; auto.
Qed.

(** every message accepted for a raw or HDLC timeslot goes out, if the descriptor is writable
    often enough and the timeslot is not reconfigured *)
Theorem C50_raw_no_stall : forall ops w h lid n, run world0 ops = Some (w, h) -> type_of h lid n = TS_RAW \/ type_of h lid n = TS_HDLC -> find_line w lid <> None -> (n < 32)%nat ->
  exists K, forall k, (K <= k)%nat -> exists w' h', run w (writes lid n k) = Some (w', h') /\ q_removed (h ++ h') lid n = q_submitted h lid n.
Proof.
  intros ops w h lid n R TY F N. pose proof (KAll_run _ _ _ R) as A. destruct (alive_ts w h lid n A F N) as (l & t & FL & G & T). rewrite <- (kh_type _ _ (ka_h _ _ A) _ _ _ T) in TY.
  exists (List.length (t_q t)). intros k LE. destruct (raw_drain lid n k w t T TY (KR_run _ _ _ R lid n t T TY) LE) as (w' & h' & R' & _ & B). exists w', h'. split; [exact R'|].
  rewrite (kh_q _ _ (ka_h _ _ A) _ _ _ T). unfold q_removed in *. now rewrite flat_map_app, B.
Qed.
Example C50_raw_witness : forall m m', match run world0 [Create 0 true; Config 0 3 TS_RAW; SendQueue 0 3 false m; SendQueue 0 3 false m'] with
  Some (w, h) => type_of h 0 3 = TS_RAW /\ find_line w 0 <> None /\ q_submitted h 0 3 = [m; m'] /\ q_removed h 0 3 = [] | None => False end.
Proof. intros. vm_compute. repeat split; discriminate. Qed.
Print Assumptions C50_raw_no_stall.
