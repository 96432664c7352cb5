From Coq Require Import List Arith Lia Bool ZArith String.
From Verif Require Import Base E1Model E1Spec E1Proofs E1LinkProofs.
Import ListNotations.
Open Scope Z_scope.

Lemma links_of_snoc h e a b : links_of (h ++ [e]) a b = link_ev a b (links_of h a b) e.
Proof. unfold links_of. now rewrite fold_left_app. Qed.
Lemma type_of_snoc h e a b : type_of (h ++ [e]) a b = type_ev a b (type_of h a b) e.
Proof. unfold type_of. now rewrite fold_left_app. Qed.
Lemma was_trau_snoc h e : was_trau (h ++ [e]) = taint_ev (was_trau h) e.
Proof. unfold was_trau. now rewrite fold_left_app. Qed.
Lemma careful_snoc h e : careful (h ++ [e]) <-> careful h /\
  match fst e with Config lid n ty => ty = TS_SIGN \/ links_of h lid n = [] | _ => True end.
Proof.
  unfold careful. enough (G : forall b, careful_from b (h ++ [e]) <-> careful_from b h /\
    match fst e with Config lid n ty => ty = TS_SIGN \/ links_of (b ++ h) lid n = [] | _ => True end) by apply G.
  induction h as [|x h IH]; intros b; cbn.
  - rewrite app_nil_r. tauto.
  - rewrite IH, <- app_assoc. cbn. tauto.
Qed.
Lemma calm_snoc h e : calm (h ++ [e]) <-> calm h /\
  match fst e with
    | LinkDestroy id => forall lid n, In id (map li_id (links_of h lid n)) ->
        forall x, In x (links_of h lid n) -> li_id x <> id -> ~ waiting h (li_id x)
    | _ => True end.
Proof.
  unfold calm. enough (G : forall b, calm_from b (h ++ [e]) <-> calm_from b h /\
    match fst e with
    | LinkDestroy id => forall lid n, In id (map li_id (links_of (b ++ h) lid n)) ->
        forall x, In x (links_of (b ++ h) lid n) -> li_id x <> id -> ~ waiting (b ++ h) (li_id x)
    | _ => True end) by apply G.
  induction h as [|x h IH]; intros b; cbn.
  - rewrite app_nil_r. tauto.
  - rewrite IH, <- app_assoc. cbn. tauto.
Qed.
Lemma tsv_next w a b t : WF w -> tsv w a b = Some t -> (a < w_next w)%nat.
Proof. unfold tsv. intros W. destruct (find_line w a) as [l|] eqn:F; [|discriminate]. intros _. eapply find_next; eauto. Qed.

(** ** links of a timeslot, its type and its queue, from the history *)
Definition q_sub1 (e : op * list out) (a b : nat) : list msg := match e with
    | (SendQueue l k _ m, _) => if Nat.eqb l a && Nat.eqb k b then [m] else [] | _ => [] end.
Definition q_rem1 (e : op * list out) (a b : nat) : list msg := match e with
    | (WriteReady l k, [SentRaw m]) => if Nat.eqb l a && Nat.eqb k b then [m] else []
    | (Config l k _, MsgsFreed ms :: _) => if Nat.eqb l a && Nat.eqb k b then ms else []
    | _ => [] end.
Lemma q_submitted_snoc h e a b : q_submitted (h ++ [e]) a b = q_submitted h a b ++ q_sub1 e a b.
Proof. unfold q_submitted. rewrite flat_map_app. cbn. now rewrite app_nil_r. Qed.
Lemma q_removed_snoc h e a b : q_removed (h ++ [e]) a b = q_removed h a b ++ q_rem1 e a b.
Proof. unfold q_removed. rewrite flat_map_app. cbn. now rewrite app_nil_r. Qed.

Record KH (w : world) (h : history) : Prop := {
  kh_links : forall a b t, careful h -> tsv w a b = Some t -> map info (t_links t) = links_of h a b;
  kh_type : forall a b t, tsv w a b = Some t -> t_type t = type_of h a b;
  kh_q : forall a b t, tsv w a b = Some t -> q_submitted h a b = q_removed h a b ++ t_q t;
  kh_garb : forall a b t, tsv w a b = Some t -> was_trau h a b = false -> t_timer t <> TGarbage;
  kh_new : forall a b, (w_next w <= a)%nat -> links_of h a b = [] /\ type_of h a b = TS_NONE /\
     q_submitted h a b = [] /\ q_removed h a b = [] /\ was_trau h a b = false }.

(** an event that is not about timeslot (a,b) *)
Definition other (e : op * list out) (a b : nat) : Prop :=
  (forall acc, (forall id x, gone1 e id -> In x acc -> li_id x <> id) -> link_ev a b acc e = acc) /\
  (forall ty, type_ev a b ty e = ty) /\ q_sub1 e a b = [] /\ q_rem1 e a b = [] /\
  (forall f, taint_ev f e a b = false -> f a b = false).
Lemma eqb_and_false l a k b : (a <> l \/ b <> k) -> Nat.eqb l a && Nat.eqb k b = false.
Proof. intros H. destruct (Nat.eqb_spec l a), (Nat.eqb_spec k b); cbn; try reflexivity. subst. tauto. Qed.
Lemma filter_same {A} (p : A -> bool) l : (forall x, In x l -> p x = true) -> filter p l = l.
Proof. induction l; cbn; intros H; [reflexivity|]. rewrite H by auto. f_equal. auto. Qed.
Lemma gone_filter e acc id lid ms r : snd e = LinkGone id lid ms :: r -> (forall id x, gone1 e id -> In x acc -> li_id x <> id) ->
  filter (fun x => negb (Nat.eqb (li_id x) id)) acc = acc.
Proof.
  intros E H. apply filter_same. intros x Hx. destruct (Nat.eqb_spec (li_id x) id) as [Q|Q]; [|reflexivity].
  exfalso. apply (H id x); auto. unfold gone1. rewrite E. eauto.
Qed.
Lemma quiet_other o outs a b : quiet outs -> match o with Create _ _ | Get _ _ | Put _ _ | LinkCreate _ _ _ _ _ | SendNull _ | Rx _ _ _ _ _ _ => True | _ => False end -> other (o, outs) a b.
Proof.
  intros Q O. repeat split.
  - intros acc _. destruct Q as [|x l H Q]; destruct o; try reflexivity; try contradiction; destruct x; try reflexivity; contradiction.
  - intros ty. destruct o; try reflexivity; contradiction.
  - destruct o; try reflexivity; contradiction.
  - destruct o; try reflexivity; contradiction.
  - intros f. destruct o; try (intros H; exact H); contradiction.
Qed.
Lemma ts_op_other o lid n t t' outs a b : ts_op o lid n t t' outs -> (a <> lid \/ b <> n) -> other (o, outs) a b.
Proof.
  intros T N. destruct o; cbn in T; try contradiction.
  - destruct T as (-> & -> & _ & ->). unfold other; cbn. rewrite eqb_and_false by auto. repeat split; auto.
    intros f. destruct ty; auto; rewrite (Nat.eqb_sym a), (Nat.eqb_sym b), eqb_and_false by auto; auto.
  - destruct T as (_ & _ & ->). unfold other; cbn. repeat split; auto.
  - destruct T as (-> & -> & _ & ->). unfold other; cbn. rewrite eqb_and_false by auto. repeat split; auto.
  - destruct T as (-> & -> & res & _ & ->). unfold other; cbn. destruct res; cbn; rewrite ?eqb_and_false by auto; repeat split; auto.
  - destruct T as (-> & -> & _ & ->). unfold other; cbn. repeat split; auto.
Qed.
Lemma ts_op_careful o lid n t t' outs h : ts_op o lid n t t' outs -> careful (h ++ [(o, outs)]) -> careful h.
Proof. intros _ C. now apply careful_snoc in C. Qed.

Lemma KH_step w h o w' outs : WF w -> KS w -> KQ w h -> KH w h -> step w o = Some (w', outs) -> KH w' (h ++ [(o, outs)]).
Proof.
  intros W K Q [HL HT HQ HG HN] ST. apply step_effect in ST; auto.
  (* timeslots the event is not about *)
  assert (OTH : forall a b x, tsv w a b = Some x -> other (o, outs) a b -> (forall id k, gone1 (o, outs) id -> In k (t_links x) -> lk_id k <> id) ->
    (careful (h ++ [(o, outs)]) -> map info (t_links x) = links_of (h ++ [(o, outs)]) a b) /\
    t_type x = type_of (h ++ [(o, outs)]) a b /\
    q_submitted (h ++ [(o, outs)]) a b = q_removed (h ++ [(o, outs)]) a b ++ t_q x /\
    (was_trau (h ++ [(o, outs)]) a b = false -> t_timer x <> TGarbage)).
  { intros a b x X (O1 & O2 & O3 & O4 & O5) G. repeat split.
    - intros C. apply careful_snoc in C. rewrite links_of_snoc, (HL a b x (proj1 C) X). symmetry. apply O1.
      intros id y G1 Hy. rewrite <- (HL a b x (proj1 C) X) in Hy. apply in_map_iff in Hy. destruct Hy as (k & <- & Hk). apply (G id k); auto.
    - rewrite type_of_snoc, O2. auto.
    - rewrite q_submitted_snoc, q_removed_snoc, O3, O4, !app_nil_r. auto.
    - rewrite was_trau_snoc. intros H. apply O5 in H. eauto. }
  assert (NEWO : forall a b, (w_next w <= a)%nat -> other (o, outs) a b -> links_of (h ++ [(o, outs)]) a b = [] /\ type_of (h ++ [(o, outs)]) a b = TS_NONE /\
     q_submitted (h ++ [(o, outs)]) a b = [] /\ q_removed (h ++ [(o, outs)]) a b = []).
  { intros a b L (O1 & O2 & O3 & O4 & O5). destruct (HN a b L) as (N1 & N2 & N3 & N4 & N5).
    rewrite links_of_snoc, type_of_snoc, q_submitted_snoc, q_removed_snoc, N1, N2, N3, N4, O2, O3, O4. repeat split; auto. }
  inversion ST as [? ? ? S N L QU OO|? ? ? S N L OE OO|? ? ? lid n t t' T M N L TO|lid n ty tei sapi ? t t' T M N L LC|id ? lid n t t' freed outs' T M N L HH LD OE]; subst.
  - (* nothing *)
    assert (OT : forall a b, other (o, outs) a b) by (intros; now apply quiet_other).
    assert (NG : forall id, ~ gone1 (o, outs) id) by (intros id; now apply (quiet_nil outs o id QU)).
    constructor.
    1-4: intros a b x; intros; refine (_ (OTH a b x ltac:(eauto) (OT a b) _)); [tauto|intros id k G; now apply NG in G].
    intros a b LE. destruct (NEWO a b ltac:(lia) (OT a b)) as (N1 & N2 & N3 & N4). repeat split; auto.
    rewrite was_trau_snoc. destruct (HN a b) as (_ & _ & _ & _ & N5); [lia|].
    destruct o; try contradiction; exact N5.
  - (* new line *)
    assert (OT : forall a b, (a < w_next w)%nat -> other (o, [Created (w_next w)]) a b).
    { intros a b A. unfold other. destruct o; try contradiction; cbn; repeat split; auto.
      intros f. destruct (Nat.eqb_spec a (w_next w)); [lia|auto]. }
    assert (OL : forall a b, links_of (h ++ [(o, [Created (w_next w)])]) a b = links_of h a b /\ type_of (h ++ [(o, [Created (w_next w)])]) a b = type_of h a b /\
      q_submitted (h ++ [(o, [Created (w_next w)])]) a b = q_submitted h a b /\ q_removed (h ++ [(o, [Created (w_next w)])]) a b = q_removed h a b).
    { intros a b. rewrite links_of_snoc, type_of_snoc, q_submitted_snoc, q_removed_snoc. destruct o; try contradiction; cbn; rewrite !app_nil_r; auto. }
    assert (FR : forall a b x, tsv w' a b = Some x -> (a < w_next w)%nat /\ tsv w a b = Some x \/
       a = w_next w /\ t_type x = TS_NONE /\ t_links x = [] /\ t_q x = [] /\ (was_trau (h ++ [(o, [Created (w_next w)])]) a b = false -> t_timer x <> TGarbage)).
    { intros a b x X. destruct (S _ _ _ X) as [X1|(-> & TY & X1)]; [|destruct o as [num drv|lid nm| | | | | | | | | | |]; try contradiction; cbn [src_of] in X1].
      - left. split; [eapply tsv_next; eauto|auto].
      - right. subst x. repeat split; auto. cbn. discriminate.
      - right. destruct (type_none_empty x (ks_ok w K _ _ _ X1) TY). repeat split; auto.
        (* a clone inherits the state of the timer *)
        rewrite was_trau_snoc. cbn. rewrite Nat.eqb_refl. eauto. }
    constructor.
    + intros a b x C X. destruct (FR _ _ _ X) as [[A X1]|(-> & _ & E & _)].
      * apply (OTH a b x X1); auto. intros id k (? & ? & ? & G). discriminate.
      * rewrite E. destruct (OL (w_next w) b) as (-> & _). symmetry. now apply HN.
    + intros a b x X. destruct (FR _ _ _ X) as [[A X1]|(-> & E & _)].
      * apply (OTH a b x X1); auto. intros id k (? & ? & ? & G). discriminate.
      * rewrite E. destruct (OL (w_next w) b) as (_ & -> & _). symmetry. now apply HN.
    + intros a b x X. destruct (FR _ _ _ X) as [[A X1]|(-> & _ & _ & E & _)].
      * apply (OTH a b x X1); auto. intros id k (? & ? & ? & G). discriminate.
      * rewrite E. destruct (OL (w_next w) b) as (_ & _ & -> & ->). destruct (HN (w_next w) b (le_n _)) as (_ & _ & -> & -> & _). reflexivity.
    + intros a b x X C. destruct (FR _ _ _ X) as [[A X1]|(-> & _ & _ & _ & E)]; [|auto].
      refine (proj2 (proj2 (proj2 (OTH a b x X1 (OT a b A) _))) C). intros id k (? & ? & ? & G). discriminate.
    + intros a b A. rewrite N in A. destruct (OL a b) as (-> & -> & -> & ->). destruct (HN a b ltac:(lia)) as (N1 & N2 & N3 & N4 & N5). repeat split; auto.
      rewrite was_trau_snoc. destruct o; try contradiction; cbn; [exact N5|]. destruct (Nat.eqb_spec a (w_next w)); [lia|exact N5].
  - (* timeslot operation *)
    pose proof (tsv_next _ _ _ _ W T) as LT.
    assert (NG : forall id, ~ gone1 (o, outs) id).
    { intros id (a & b & c & G). cbn in G. destruct (ts_op_outs _ _ _ _ _ _ TO) as (_ & _ & _ & X). apply (X id a b). rewrite G. now left. }
    assert (ME : (careful (h ++ [(o, outs)]) -> map info (t_links t') = links_of (h ++ [(o, outs)]) lid n) /\
      t_type t' = type_of (h ++ [(o, outs)]) lid n /\
      q_submitted (h ++ [(o, outs)]) lid n = q_removed (h ++ [(o, outs)]) lid n ++ t_q t' /\
      (was_trau (h ++ [(o, outs)]) lid n = false -> t_timer t' <> TGarbage)).
    { rewrite links_of_snoc, type_of_snoc, q_submitted_snoc, q_removed_snoc, was_trau_snoc, careful_snoc, (HQ _ _ _ T), <- (HT _ _ _ T).
      pose proof (fun C => HL lid n t C T) as HL'. pose proof (HG _ _ _ T) as HG'. destruct (ts_op_links _ _ _ _ _ _ (ks_ok w K _ _ _ T) TO) as (_ & _ & LI).
      destruct o; cbn in TO; try contradiction.
      - destruct TO as (-> & -> & -> & ->). pose proof (config_spec t ty) as C. pose proof (config_rc t ty) as RC. destruct (e1inp_ts_config t ty) as [[rc t'] fr]. cbn in *. subst rc.
        rewrite !Nat.eqb_refl. cbn. destruct C as [(C1 & -> & ->)|(C1 & C2 & C3 & C4 & C5 & C6 & C7)].
        + rewrite !app_nil_r. repeat split; auto; [intros [CC _]; auto|]. intros H. apply HG'. destruct ty; auto; rewrite ?Nat.eqb_refl in H; discriminate.
        + repeat split.
          * intros [CC [->|CE]]; rewrite C3.
            -- rewrite <- (HL' CC). destruct (ks_ok w K _ _ _ T) as (A & _). destruct (t_links t); [reflexivity|]. exfalso. apply C1. apply A. discriminate.
            -- now rewrite CE.
          * exact C2.
          * rewrite C4, C7. rewrite !app_nil_r. destruct (ks_ok w K _ _ _ T) as (_ & _ & B).
            destruct (t_q t) as [|m q]; [destruct (t_type t); reflexivity|]. destruct B as [B|B]; [discriminate| |]; rewrite B; reflexivity.
          * intros H. rewrite C6. destruct ty; auto; rewrite ?Nat.eqb_refl in H; discriminate.
      - destruct TO as (_ & -> & ->). cbn [link_ev type_ev q_sub1 q_rem1 taint_ev]. rewrite !app_nil_r. repeat split; auto.
        intros [CC _]. rewrite LI. auto.
      - destruct TO as (-> & -> & SQ & ->). pose proof SQ as SQ'. apply send_queue_spec in SQ. destruct SQ as (S1 & S2 & S3 & S4).
        cbn [link_ev type_ev q_sub1 q_rem1 taint_ev]. rewrite !Nat.eqb_refl. cbn. rewrite app_nil_r, S2, S4, app_assoc. repeat split; auto.
        + intros [CC _]. rewrite S3. auto.
        + intros H. unfold ts_send_queue in SQ'. destruct (type_eqb _ _); [|discriminate]. inversion SQ'; subst. cbn. auto.
      - destruct TO as (-> & -> & res & WR & ->). apply write_ready_spec in WR. destruct WR as (S1 & S2 & S3). rewrite S1, S2.
        destruct res; cbn [link_ev type_ev q_sub1 q_rem1 taint_ev]; rewrite ?Nat.eqb_refl; cbn [andb]; rewrite ?app_nil_r.
        + destruct S3 as (_ & -> & -> & _). repeat split; auto. intros [CC _]; auto.
        + destruct S3 as (_ & -> & _ & -> & _). repeat split; auto; [intros [CC _]; auto|discriminate].
        + destruct S3 as (_ & -> & -> & _). rewrite <- app_assoc. repeat split; auto. intros [CC _]; auto.
      - destruct TO as (-> & -> & -> & ->). destruct (timeout_spec t) as (-> & -> & ->). cbn [link_ev type_ev q_sub1 q_rem1 taint_ev]. rewrite !app_nil_r. repeat split; auto.
        + intros [CC _]. auto.
        + intros H. unfold ts_timeout. destruct (t_timer t) eqn:TM; cbn; try congruence. rewrite TM. apply HG'. exact H. }
    assert (OT : forall a b, (a <> lid \/ b <> n) -> other (o, outs) a b) by (intros; eapply ts_op_other; eauto).
    assert (ALL : forall a b x, tsv w' a b = Some x ->
      (careful (h ++ [(o, outs)]) -> map info (t_links x) = links_of (h ++ [(o, outs)]) a b) /\
      t_type x = type_of (h ++ [(o, outs)]) a b /\
      q_submitted (h ++ [(o, outs)]) a b = q_removed (h ++ [(o, outs)]) a b ++ t_q x /\
      (was_trau (h ++ [(o, outs)]) a b = false -> t_timer x <> TGarbage)).
    { intros a b x X. destruct (M _ _ _ X) as [(-> & -> & ->)|[NE X1]]; [exact ME|]. apply OTH; auto. intros id k G. now apply NG in G. }
    constructor.
    { intros a b x C X. exact (proj1 (ALL a b x X) C). }
    { intros a b x X. exact (proj1 (proj2 (ALL a b x X))). }
    { intros a b x X. exact (proj1 (proj2 (proj2 (ALL a b x X)))). }
    { intros a b x X C. exact (proj2 (proj2 (proj2 (ALL a b x X))) C). }
    intros a b A. rewrite N in A. assert (NE : a <> lid \/ b <> n) by lia. destruct (NEWO a b A (OT a b NE)) as (N1 & N2 & N3 & N4). repeat split; auto.
    rewrite was_trau_snoc. destruct (HN a b A) as (_ & _ & _ & _ & N5). destruct o; cbn in TO; try contradiction; try exact N5.
    destruct TO as (-> & -> & _). cbn. destruct ty; try exact N5; rewrite (Nat.eqb_sym a), (Nat.eqb_sym b), eqb_and_false by auto; exact N5.
  - (* LinkCreate *)
    pose proof (tsv_next _ _ _ _ W T) as LT. pose proof LC as LC'. apply link_create_spec in LC. destruct LC as (C1 & C2 & C3 & C4).
    assert (C5 : t_timer t' = t_timer t) by (unfold ts_link_create in LC'; rewrite C1 in LC'; inversion LC'; reflexivity).
    assert (OT : forall a b, (a <> lid \/ b <> n) -> other (LinkCreate lid n ty tei sapi, [LinkMade (w_next_link w)]) a b).
    { intros a b NE. unfold other. cbn. rewrite eqb_and_false by auto. repeat split; auto. }
    assert (ALL : forall a b x, tsv w' a b = Some x ->
      (careful (h ++ [(LinkCreate lid n ty tei sapi, [LinkMade (w_next_link w)])]) -> map info (t_links x) = links_of (h ++ [(LinkCreate lid n ty tei sapi, [LinkMade (w_next_link w)])]) a b) /\
      t_type x = type_of (h ++ [(LinkCreate lid n ty tei sapi, [LinkMade (w_next_link w)])]) a b /\
      q_submitted (h ++ [(LinkCreate lid n ty tei sapi, [LinkMade (w_next_link w)])]) a b = q_removed (h ++ [(LinkCreate lid n ty tei sapi, [LinkMade (w_next_link w)])]) a b ++ t_q x /\
      (was_trau (h ++ [(LinkCreate lid n ty tei sapi, [LinkMade (w_next_link w)])]) a b = false -> t_timer x <> TGarbage)).
    { intros a b x X. destruct (M _ _ _ X) as [(-> & -> & ->)|[NE X1]].
      - rewrite links_of_snoc, type_of_snoc, q_submitted_snoc, q_removed_snoc, was_trau_snoc, careful_snoc, (HQ _ _ _ T), <- (HT _ _ _ T).
        cbn [link_ev type_ev q_sub1 q_rem1 taint_ev]. rewrite !Nat.eqb_refl. cbn [andb]. rewrite !app_nil_r, C2, C3, C4, C5. repeat split; auto; [|apply HG; auto].
        intros [CC _]. rewrite map_app, (HL _ _ _ CC T). reflexivity.
      - apply OTH; auto. intros id k (? & ? & ? & G). discriminate. }
    constructor.
    { intros a b x C X. exact (proj1 (ALL a b x X) C). }
    { intros a b x X. exact (proj1 (proj2 (ALL a b x X))). }
    { intros a b x X. exact (proj1 (proj2 (proj2 (ALL a b x X)))). }
    { intros a b x X C. exact (proj2 (proj2 (proj2 (ALL a b x X))) C). }
    intros a b A. rewrite N in A. assert (NE : a <> lid \/ b <> n) by lia. destruct (NEWO a b A (OT a b NE)) as (N1 & N2 & N3 & N4). repeat split; auto.
    rewrite was_trau_snoc. apply HN; auto.
  - (* LinkDestroy *)
    pose proof (tsv_next _ _ _ _ W T) as LT. pose proof LD as LD'. apply link_destroy_spec in LD. destruct LD as (C1 & C2 & C3 & k0 & K1 & K2 & ->).
    assert (C5 : t_timer t <> TGarbage -> t_timer t' <> TGarbage).
    { unfold ts_link_destroy in LD'. destruct (find _ (t_links t)); [|discriminate]. destruct (t_type t), (t_timer t); cbn in LD'; try discriminate; inversion LD'; cbn; congruence. }
    set (e := (LinkDestroy id, LinkGone id lid (lk_q k0) :: outs')) in *.
    assert (OT : forall a b, other e a b).
    { intros a b. unfold other. repeat split; auto. intros acc H. cbn. apply (gone_filter e acc id lid (lk_q k0) outs'); auto. }
    assert (ALL : forall a b x, tsv w' a b = Some x ->
      (careful (h ++ [e]) -> map info (t_links x) = links_of (h ++ [e]) a b) /\
      t_type x = type_of (h ++ [e]) a b /\
      q_submitted (h ++ [e]) a b = q_removed (h ++ [e]) a b ++ t_q x /\
      (was_trau (h ++ [e]) a b = false -> t_timer x <> TGarbage)).
    { intros a b x X. destruct (M _ _ _ X) as [(-> & -> & ->)|[NE X1]].
      - rewrite links_of_snoc, type_of_snoc, q_submitted_snoc, q_removed_snoc, was_trau_snoc, careful_snoc, (HQ _ _ _ T), <- (HT _ _ _ T).
        cbn [link_ev type_ev q_sub1 q_rem1 taint_ev e]. rewrite !app_nil_r, C1, C2, C3. repeat split; auto; [|intros H; apply C5; eapply HG; eauto].
        intros [CC _]. rewrite <- (HL _ _ _ CC T). clear. induction (t_links t) as [|k ls IH]; cbn; [reflexivity|].
        destruct (Nat.eqb (lk_id k) id); cbn; [exact IH|now rewrite IH].
      - apply OTH; auto. intros i k (? & ? & ? & G) Hk E. inversion G; subst i.
        destruct (ks_uni w K _ _ _ _ _ _ _ _ X1 Hk T K1); [congruence|]. subst. tauto. }
    constructor.
    { intros a b x C X. exact (proj1 (ALL a b x X) C). }
    { intros a b x X. exact (proj1 (proj2 (ALL a b x X))). }
    { intros a b x X. exact (proj1 (proj2 (proj2 (ALL a b x X)))). }
    { intros a b x X C. exact (proj2 (proj2 (proj2 (ALL a b x X))) C). }
    intros a b A. rewrite N in A. destruct (NEWO a b A (OT a b)) as (N1 & N2 & N3 & N4). repeat split; auto.
    rewrite was_trau_snoc. apply HN; auto.
Qed.
Lemma KH0 : KH world0 [].
Proof. constructor; intros; try discriminate. repeat split. Qed.

Record KAll (w : world) (h : history) : Prop := { ka_l : LInv w h; ka_s : KS w; ka_q : KQ w h; ka_h : KH w h }.
Lemma KAll_step w h o w' outs : KAll w h -> step w o = Some (w', outs) -> KAll w' (h ++ [(o, outs)]).
Proof.
  intros [A B C D] S. pose proof (li_wf _ _ A) as W. constructor.
  - eapply LInv_step; eauto.
  - eapply KS_step; eauto.
  - eapply KQ_step; eauto.
  - eapply KH_step; eauto.
Qed.
Lemma KAll_run ops w h : run world0 ops = Some (w, h) -> KAll w h.
Proof. apply run_inv; [|exact KAll_step]. constructor; [apply LInv0|apply KS0|apply KQ0|apply KH0]. Qed.
