From Coq Require Import List Arith Lia Bool ZArith String.
From Verif Require Import Base E1Model E1Spec E1Proofs E1LinkProofs E1TsProofs.
Import ListNotations.
Open Scope Z_scope.

Definition has_pending (t : ts) : Prop := exists k, In k (t_links t) /\ lk_q k <> [].
Definition awake (t : ts) : Prop := t_wr t = true \/ t_timer t = TPending.
Definition KW (w : world) (h : history) : Prop := careful h -> calm h -> forall a b t,
  tsv w a b = Some t -> was_trau h a b = false -> t_type t = TS_SIGN -> has_pending t -> awake t.

Lemma app_self_nil {A} (l m : list A) : l = l ++ m -> m = [].
Proof. intros H. apply (f_equal (@List.length A)) in H. rewrite app_length in H. destruct m; [reflexivity|cbn in H; lia]. Qed.

Lemma KW_step w h o w' outs : KAll w h -> KW w h -> step w o = Some (w', outs) -> KW w' (h ++ [(o, outs)]).
Proof.
  intros KA KW0 ST CA CM a b x X TR TY PE. rewrite was_trau_snoc in TR. apply careful_snoc in CA. apply calm_snoc in CM.
  destruct CA as [CA CAe]. destruct CM as [CM CMe]. destruct KA as [A K Q H]. pose proof (li_wf _ _ A) as W.
  assert (OLD : tsv w a b = Some x -> other (o, outs) a b -> awake x).
  { intros X1 (_ & _ & _ & _ & O). apply (KW0 CA CM a b x X1); auto. }
  apply step_effect in ST; auto.
  inversion ST as [? ? ? S N L QU OO|? ? ? S N L OE OO|? ? ? lid n t t' T M N L TO|lid n ty tei sapi ? t t' T M N L LC|id ? lid n t t' freed outs' T M N L HH LD OE]; subst.
  - apply OLD; auto. now apply quiet_other.
  - destruct (S _ _ _ X) as [X1|(_ & Z & _)]; [|congruence]. apply OLD; auto. pose proof (tsv_next _ _ _ _ W X1).
    unfold other. destruct o; try contradiction; cbn; repeat split; auto. intros f. destruct (Nat.eqb_spec a (w_next w)); [lia|auto].
  - destruct (M _ _ _ X) as [(-> & -> & ->)|[NE X1]]; [|apply OLD; auto; eapply ts_op_other; eauto].
    assert (PREV : was_trau h lid n = false -> t_type t = TS_SIGN -> has_pending t -> awake t) by (intros; eapply KW0; eauto).
    destruct PE as (k & P1 & P2).
    destruct o; cbn in TO; try contradiction.
    + destruct TO as (-> & -> & -> & ->). pose proof (config_spec t ty) as C. destruct (e1inp_ts_config t ty) as [[rc t'] fr]. cbn in *.
      destruct C as [(C1 & -> & _)|(_ & _ & C & _)]; [|rewrite C in P1; contradiction].
      apply PREV; auto; [|exists k; auto]. destruct ty; auto; rewrite !Nat.eqb_refl in TR; discriminate.
    + destruct TO as (HS & -> & ->). unfold awake. cbn. pose proof (kh_garb _ _ H _ _ _ T TR) as NG.
      destruct (t_timer t); cbn; auto; try congruence. left. apply orb_true_r.
    + destruct TO as (-> & -> & SQ & ->). apply send_queue_spec in SQ. destruct SQ as (S1 & S2 & _). rewrite S2, S1 in TY. destruct hdlc; discriminate.
    + destruct TO as (-> & -> & res & WR & ->). apply write_ready_spec in WR. destruct WR as (S1 & S2 & S3). rewrite S1 in TY.
      destruct res.
      * destruct S3 as (E1 & E2 & E3 & E4 & E5). rewrite E1 in P1.
        destruct E4 as [E4|[_ E4]].
        -- unfold awake. rewrite E3, E4. apply PREV; auto. exists k; auto.
        -- exfalso. specialize (E4 TY). rewrite Forall_forall in E4. apply P2. auto.
      * right. apply S3.
      * destruct S3 as (_ & _ & _ & _ & [Z|Z]); congruence.
    + destruct TO as (-> & -> & -> & ->). destruct (timeout_spec t) as (S1 & S2 & S3). unfold awake, ts_timeout.
      destruct (t_timer t) eqn:TM; cbn; auto; rewrite S1 in TY; rewrite S2 in P1.
      * rewrite TM. rewrite <- TM. apply PREV; auto. exists k; auto.
      * exfalso. eapply (kh_garb _ _ H _ _ _ T TR); auto.
  - destruct (M _ _ _ X) as [(-> & -> & ->)|[NE X1]].
    + pose proof LC as LC'. apply link_create_spec in LC. destruct LC as (C1 & C2 & C3 & C4). destruct PE as (k & P1 & P2).
      rewrite C3 in P1. apply in_app_or in P1. destruct P1 as [P1|[<-|[]]]; [|cbn in P2; congruence].
      unfold ts_link_create in LC'. rewrite C1 in LC'. inversion LC'; subst. unfold awake. cbn.
      apply (KW0 CA CM lid n t T TR C1). exists k; auto.
    + apply OLD; auto. unfold other. cbn. rewrite eqb_and_false by auto. repeat split; auto.
  - destruct (M _ _ _ X) as [(-> & -> & ->)|[NE X1]].
    + exfalso. apply link_destroy_spec in LD. destruct LD as (C1 & C2 & C3 & k0 & K1 & K2 & ->). destruct PE as (k & P1 & P2).
      rewrite C3 in P1. apply filter_In in P1. destruct P1 as [P1 P3]. cbn in CMe.
      destruct (Nat.eqb_spec (lk_id k) id) as [E|E]; [discriminate|].
      pose proof (kh_links _ _ H _ _ _ CA T) as LI.
      apply (CMe lid n) with (x := info k); auto.
      * rewrite <- LI, map_map. apply in_map_iff. exists k0. auto.
      * rewrite <- LI. now apply in_map.
      * unfold waiting. cbn. intros SU. apply P2.
        destruct (kq_q _ _ Q k) as (Q1 & _); [exists lid, n, t; auto|]. rewrite SU in Q1. now apply app_self_nil in Q1.
    + apply OLD; auto. unfold other. repeat split; auto. intros acc G. cbn. eapply (gone_filter (LinkDestroy id, LinkGone id lid freed :: outs')); [reflexivity|exact G].
Qed.
Lemma KW_run ops w h : run world0 ops = Some (w, h) -> KW w h.
Proof.
  intros R. assert (G : KAll w h /\ KW w h); [|tauto]. revert R. apply (run_inv (fun w h => KAll w h /\ KW w h)).
  - split; [|intros _ _ a b t T; discriminate]. constructor; [apply LInv0|apply KS0|apply KQ0|apply KH0].
  - intros w0 h0 o w' outs [I1 I2] S. split; [eapply KAll_step; eauto|eapply KW_step; eauto].
Qed.

(** ** the write cycle drains a timeslot *)
Definition pend (t : ts) : nat := fold_right (fun k acc => List.length (lk_q k) + acc)%nat O (t_links t).
Lemma pend_zero t : pend t = O -> forall k, In k (t_links t) -> lk_q k = [].
Proof.
  unfold pend. induction (t_links t) as [|a l IH]; cbn; [contradiction|]. intros H k [->|I].
  - destruct (lk_q k); [reflexivity|cbn in H; lia].
  - apply IH; auto. lia.
Qed.
Lemma pend_pos t : pend t <> O -> has_pending t.
Proof.
  unfold pend, has_pending. induction (t_links t) as [|a l IH]; cbn; [congruence|]. intros H.
  destruct (lk_q a) as [|m q] eqn:E.
  - destruct IH as (k & K1 & K2); [cbn in H; exact H|]. exists k. auto.
  - exists a. split; [auto|congruence].
Qed.
Lemma tsv_set_ts w lid n t t' l : find_line w lid = Some l -> get (ln_ts l) n = Some t ->
  tsv (set_line w (put_ts l n t')) lid n = Some t'.
Proof.
  intros F G. pose proof (find_self _ _ _ F) as S. rewrite (tsv_set w l) by (cbn; congruence). cbn [ln_id put_ts with_ts].
  rewrite S, Nat.eqb_refl, (get_put_ts l n t) by auto. now rewrite Nat.eqb_refl.
Qed.
Definition no_io (h : history) : Prop := Forall (fun e => match fst e with WriteReady _ _ | Timeout _ _ => True | _ => False end) h.
Definition rank (t : ts) : nat := 2 * pend t + (if t_wr t then 0 else 1).
Lemma pend_after t l m t' : ts_write_ready t = Some (WrSign l m, t') -> pend t = S (pend t').
Proof.
  intros W. apply write_ready_spec in W. destruct W as (_ & _ & _ & _ & _ & _ & _ & A & B & q & E1 & _ & E3 & E4).
  unfold pend. rewrite E1, E4. clear -E3. induction A as [|a A IH]; cbn.
  - rewrite E3. reflexivity.
  - rewrite IH. lia.
Qed.
Lemma wr_none_wr t t' : t_type t = TS_SIGN -> ts_write_ready t = Some (WrNone, t') ->
  t_links t' = t_links t /\ t_wr t' = false /\ t_timer t' = t_timer t /\ (t_wr t = true -> pend t = O).
Proof.
  unfold ts_write_ready. intros TY. destruct (t_wr t) eqn:WR; cbn [negb].
  - rewrite TY. unfold e1inp_tx_ts. cbn [t_type t_links t_q t_i460 t_timer t_wr].
    pose proof (dequeue_spec (t_links t)) as D. destruct (dequeue (t_links t)) as [[[l m] ls]|].
    + destruct (osmo_timer_schedule _); discriminate.
    + intros E; inversion E; subst. cbn. repeat split; auto. intros _. unfold pend. clear -D. induction D as [|a l H D IH]; cbn; [reflexivity|]. now rewrite H, IH.
  - intros E; inversion E; subst. repeat split; auto. discriminate.
Qed.
Lemma write_ready_defined t : t_timer t <> TGarbage -> exists r, ts_write_ready t = Some r.
Proof.
  intros NG. unfold ts_write_ready. destruct (t_wr t); cbn [negb]; [|eauto].
  destruct (t_type t) eqn:TY; eauto; unfold e1inp_tx_ts; cbn [t_type t_links t_q t_i460 t_timer t_wr]; try rewrite TY.
  - destruct (dequeue (t_links t)) as [[[l m] ls]|]; cbn [t_timer]; [|eauto]. unfold osmo_timer_schedule.
    destruct (t_timer t); cbn; eauto. congruence.
  - destruct (t_q t); eauto.
  - destruct (t_q t); eauto.
Qed.
Lemma one_cycle w lid n t : tsv w lid n = Some t -> t_type t = TS_SIGN -> t_timer t <> TGarbage ->
  (pend t = O \/ awake t) ->
  exists w' h' t', run w (cycle lid n) = Some (w', h') /\ no_io h' /\ tsv w' lid n = Some t' /\ t_type t' = TS_SIGN /\
    t_timer t' <> TGarbage /\ (pend t' = O \/ awake t') /\ (pend t' = O \/ rank t' < rank t)%nat /\ (pend t' <= pend t)%nat /\
    map info (t_links t') = map info (t_links t).
Proof.
  intros T TY NG AW. unfold tsv in T. destruct (find_line w lid) as [l|] eqn:F; [|discriminate].
  destruct (write_ready_defined t NG) as [[res t1] WR].
  set (w1 := set_line w (put_ts l n t1)).
  assert (F1 : find_line w1 lid = Some (put_ts l n t1)).
  { unfold w1. pose proof (find_self _ _ _ F). rewrite (find_set_line w l) by (cbn; congruence). unfold updf. cbn. subst. now rewrite Nat.eqb_refl. }
  assert (G1 : get (ln_ts (put_ts l n t1)) n = Some t1) by (rewrite (get_put_ts l n t) by auto; now rewrite Nat.eqb_refl).
  set (t2 := ts_timeout t1). set (w2 := set_line w1 (put_ts (put_ts l n t1) n t2)).
  exists w2. eexists. exists t2. split.
  { unfold cycle. cbn [run step]. unfold get_ts. rewrite F, T, WR, (set_ts_eq _ _ _ _ _ T). fold w1. cbn [fst snd].
    rewrite F1, G1, (set_ts_eq _ _ _ _ _ G1). fold t2. fold w2. cbn [fst snd]. reflexivity. }
  split; [repeat constructor|]. split; [eapply tsv_set_ts; eauto|].
  pose proof (write_ready_spec _ _ _ WR) as (S1 & S2 & S3).
  destruct (timeout_spec t1) as (U1 & U2 & U3). fold t2 in U1, U2, U3.
  assert (PE2 : pend t2 = pend t1) by (unfold pend; now rewrite U2).
  split; [congruence|]. rewrite PE2, U2, S2.
  assert (TT : t_timer t1 = TPending -> t_wr t2 = true /\ t_timer t2 = TIdle) by (unfold t2, ts_timeout; intros ->; auto).
  assert (TN : t_timer t1 <> TPending -> t2 = t1) by (unfold t2, ts_timeout; destruct (t_timer t1); congruence).
  destruct res as [|lk m|m].
  - destruct (wr_none_wr t t1 TY WR) as (X1 & X2 & X3 & X4). assert (PE1 : pend t1 = pend t) by (unfold pend; now rewrite X1).
    destruct (t_timer t1) eqn:TM.
    + rewrite TN by congruence. rewrite TM. split; [congruence|].
      destruct AW as [AW|[AW|AW]]; [| |congruence].
      * rewrite PE1. repeat split; auto.
      * rewrite PE1, X4 by auto. repeat split; auto.
    + destruct (TT eq_refl) as [T1 T2]. rewrite T2. split; [discriminate|]. unfold awake. rewrite T1. split; [auto|]. split; [|split; [lia|auto]].
      destruct AW as [AW|AW]; [left; congruence|]. destruct (t_wr t) eqn:WRT.
      * left. rewrite PE1. apply X4. reflexivity.
      * right. unfold rank. rewrite PE2, PE1, T1, WRT. lia.
    + congruence.
  - destruct S3 as (_ & _ & W1 & TM & _ & _). destruct (TT TM) as [T1 T2]. rewrite T2. split; [discriminate|]. unfold awake. rewrite T1.
    pose proof (pend_after _ _ _ _ WR).
    split; [auto|]. split; [|split; [lia|auto]]. right. unfold rank. rewrite PE2, T1, W1. lia.
  - destruct S3 as (_ & _ & _ & _ & [Z|Z]); congruence.
Qed.

Lemma drain lid n : forall k w t, tsv w lid n = Some t -> t_type t = TS_SIGN -> t_timer t <> TGarbage ->
  (pend t = O \/ awake t) -> (pend t = O \/ rank t <= k)%nat ->
  exists w' h' t', run w (cycles lid n k) = Some (w', h') /\ no_io h' /\ tsv w' lid n = Some t' /\
    pend t' = O /\ map info (t_links t') = map info (t_links t).
Proof.
  induction k as [|k IH]; intros w t T TY NG AW RK.
  - exists w, [], t. cbn [cycles run]. repeat split; auto; [constructor|]. destruct RK as [RK|RK]; [auto|]. unfold rank in RK. destruct (t_wr t); lia.
  - destruct (one_cycle w lid n t T TY NG AW) as (w1 & h1 & t1 & R1 & N1 & T1 & TY1 & NG1 & AW1 & RK1 & PE1 & I1).
    destruct (IH w1 t1 T1 TY1 NG1 AW1) as (w2 & h2 & t2 & R2 & N2 & T2 & P2 & I2).
    { destruct RK1; [auto|]. destruct RK; [left; lia|right; lia]. }
    exists w2, (h1 ++ h2), t2. cbn [cycles]. rewrite run_app, R1. cbn [fst snd]. rewrite R2. cbn [fst snd].
    repeat split; auto; [|congruence]. apply Forall_app. auto.
Qed.
Lemma no_io_submitted h' id : no_io h' -> submitted h' id = [].
Proof. induction 1 as [|[o outs] h' E _ IH]; [reflexivity|]. unfold submitted. cbn in *. destruct o; try contradiction; cbn; exact IH. Qed.
Lemma no_io_careful h h' : careful h -> no_io h' -> careful (h ++ h').
Proof.
  intros C N. induction h' as [|e h' IH] using rev_ind; [now rewrite app_nil_r|].
  apply Forall_app in N. destruct N as [N1 N2]. inversion N2; subst. rewrite app_assoc. apply careful_snoc. split; [auto|].
  destruct e as [[] ?]; cbn in *; auto; contradiction.
Qed.
