(** C37: life of E1 lines. *)
From Coq Require Import List Arith Lia Bool ZArith String.
From Verif Require Import Base E1Model E1Spec E1Proofs.
Import ListNotations.
Open Scope Z_scope.

(** C37: in every history a line object exists exactly while more references to it
    were handed out than returned, and the count never goes negative *)
Theorem C37_alive_iff_referenced : forall ops w h, run world0 ops = Some (w, h) ->
  forall lid, (find_line w lid <> None <-> 0 < refs h lid) /\ 0 <= refs h lid.
Proof.
  intros ops w h R lid. pose proof (LInv_run _ _ _ R) as I. split; [now apply alive_refs|].
  rewrite (li_refs _ _ I). destruct (find_line w lid) as [l|] eqn:F; [|lia].
  pose proof (wf_pos w (li_wf _ _ I) l (proj1 (find_id_in _ _ _ F))). lia.
Qed.
(** ... it is freed by exactly the call that returns the last reference *)
Theorem C37_freed_by_last_put : forall ops w h o w' outs, run world0 ops = Some (w, h) -> step w o = Some (w', outs) ->
  forall lid, In (LineFreed lid) outs <-> 0 < refs h lid /\ refs (h ++ [(o, outs)]) lid = 0.
Proof.
  intros ops w h o w' outs R S lid. pose proof (LInv_run _ _ _ R) as I. pose proof (LInv_step _ _ _ _ _ I S) as I'.
  destruct (frees_step _ _ _ _ _ I S) as [X _]. rewrite X, (alive_refs _ _ _ I).
  rewrite (li_refs _ _ I'). destruct (find_line w' lid) as [l|] eqn:F.
  - pose proof (wf_pos w' (li_wf _ _ I') l (proj1 (find_id_in _ _ _ F))).
    split; [intros [_ Q]; discriminate|lia].
  - tauto.
Qed.
(** ... and a freed line never comes back *)
Theorem C37_freed_is_final : forall ops w h, run world0 ops = Some (w, h) -> forall o outs lid,
  In (o, outs) h -> In (LineFreed lid) outs -> find_line w lid = None /\ refs h lid = 0.
Proof.
  intros ops w h R.
  assert (G : LInv w h /\ forall o outs lid, In (o, outs) h -> In (LineFreed lid) outs -> (lid < w_next w)%nat /\ find_line w lid = None).
  { revert R. apply (run_inv (fun w h => LInv w h /\ forall o outs lid, In (o, outs) h -> In (LineFreed lid) outs -> (lid < w_next w)%nat /\ find_line w lid = None)).
    - split; [exact LInv0|]. intros; contradiction.
    - intros w0 h0 o w' outs [I H] S. pose proof (LInv_step _ _ _ _ _ I S) as I'. split; [exact I'|].
      destruct (frees_step _ _ _ _ _ I S) as [X _].
      assert (MONO : (w_next w0 <= w_next w')%nat /\ forall lid, (lid < w_next w0)%nat -> find_line w0 lid = None -> find_line w' lid = None).
      { pose proof (li_wf _ _ I) as W. pose proof (step_shape _ _ _ _ W S) as SH. clear S X.
        assert (UR : forall l l' w1 outs1, find_line w0 (ln_id l') = Some l -> use_res w0 l' w1 outs1 ->
          (w_next w0 <= w_next w1)%nat /\ forall lid, (lid < w_next w0)%nat -> find_line w0 lid = None -> find_line w1 lid = None).
        { intros l l' w1 outs1 F U. split; [destruct U as [[_ [-> _]]|[_ [-> _]]]; cbn; lia|].
          intros lid _ Q. rewrite (find_use_res _ _ _ _ _ F U). unfold updf. destruct (Nat.eqb_spec lid (ln_id l')); [congruence|exact Q]. }
        assert (SL : forall l l', find_line w0 (ln_id l') = Some l ->
          (w_next w0 <= w_next (set_line w0 l'))%nat /\ forall lid, (lid < w_next w0)%nat -> find_line w0 lid = None -> find_line (set_line w0 l') lid = None).
        { intros l l' F. split; [cbn; lia|]. intros lid _ Q. rewrite (find_set_line _ _ _ F). unfold updf. destruct (Nat.eqb_spec lid (ln_id l')); [congruence|exact Q]. }
        destruct o; unfold shape in SH.
        - destruct SH as [[-> _]|[_ [_ [-> _]]]]; [auto|]. split; [cbn; lia|]. intros lid L Q. rewrite find_add_line by auto. unfold updf.
          destruct (Nat.eqb_spec lid (w_next w0)); [lia|exact Q].
        - destruct SH as (l & _ & -> & _). split; [cbn; lia|]. intros i L Q. rewrite find_add_clone by auto. unfold updf.
          destruct (Nat.eqb_spec i (w_next w0)); [lia|exact Q].
        - destruct SH as (l & F & -> & _). apply SL with (l := l). cbn. now rewrite (find_self _ _ _ F).
        - destruct SH as (l & F & U). eapply UR; [|exact U]. cbn. rewrite (find_self _ _ _ F). exact F.
        - destruct SH as (lid' & n' & l & t & t' & F & G & T & ->). apply SL with (l := l). cbn. now rewrite (find_self _ _ _ F).
        - destruct SH as (l & t & F & G & [[_ [-> ->]]|(t' & T & -> & ->)]); [auto|].
          destruct (SL l (with_uses (put_ts l n t') (use_add (ln_uses l) SIGN_LINK 1))) as [A B]; [cbn; now rewrite (find_self _ _ _ F)|].
          split; [exact A|exact B].
        - destruct SH as (lid & n & l & t & t' & fr & outs' & F & G & HH & D & U & ->). eapply UR; [|exact U]. cbn. rewrite (find_self _ _ _ F). exact F.
        - destruct SH as (lid' & n' & l & t & t' & F & G & T & ->). apply SL with (l := l). cbn. now rewrite (find_self _ _ _ F).
        - destruct SH as [-> _]. auto.
        - destruct SH as (lid' & n' & l & t & t' & F & G & T & ->). apply SL with (l := l). cbn. now rewrite (find_self _ _ _ F).
        - destruct SH as (lid' & n' & l & t & t' & F & G & T & ->). apply SL with (l := l). cbn. now rewrite (find_self _ _ _ F).
        - destruct SH as (lid' & n' & l & t & t' & F & G & T & ->). apply SL with (l := l). cbn. now rewrite (find_self _ _ _ F).
        - destruct SH as [-> _]. auto. }
      intros o1 outs1 lid H1 H2. apply in_app_or in H1. destruct H1 as [H1|[H1|[]]].
      + destruct (H _ _ _ H1 H2) as [Y1 Y2]. destruct MONO as [M1 M2]. split; [lia|auto].
      + inversion H1; subst. apply X in H2. destruct H2 as [H2 H3]. split; [|exact H3].
        destruct (find_line w0 lid) as [l|] eqn:F; [|congruence]. pose proof (find_next _ _ _ (li_wf _ _ I) F). lia. }
  destruct G as [I G]. intros o outs lid H1 H2. destruct (G _ _ _ H1 H2) as [_ G2]. split; [exact G2|].
  now rewrite (li_refs _ _ I), G2.
Qed.
(** a live line may always be referenced and released; a dead one is undefined behaviour *)
Theorem C37_get_put_defined : forall ops w h lid name, run world0 ops = Some (w, h) ->
  (0 < refs h lid <-> step w (Get lid name) <> None) /\ (0 < refs h lid <-> step w (Put lid name) <> None).
Proof.
  intros ops w h lid name R. pose proof (LInv_run _ _ _ R) as I. rewrite <- (alive_refs _ _ _ I).
  cbn. unfold use_get_put. destruct (find_line w lid); split; split; congruence.
Qed.
(** e1inp_line_find returns exactly the live line created under the number (never a clone) *)
Theorem C37_find : forall ops w h, run world0 ops = Some (w, h) -> forall num lid,
  e1inp_line_find w num = Some lid <-> created_as h num lid /\ 0 < refs h lid.
Proof.
  intros ops w h R num lid. pose proof (LInv_run _ _ _ R) as I. pose proof (li_wf _ _ I) as W.
  rewrite <- (alive_refs _ _ _ I), line_find_some by auto. split.
  - intros (l & H1 & H2 & H3). subst. split; [now apply I|].
    assert (F : find_line w (ln_id l) = Some l) by (apply find_in; auto; split; [apply in_or_app|]; auto). congruence.
  - intros [H1 H2]. destruct (find_line w lid) as [l|] eqn:F; [|congruence].
    destruct (li_cr2 _ _ I _ _ _ H1 F). exists l. repeat split; auto. eapply find_self; eauto.
Qed.
(** line numbers are unique among live created lines *)
Theorem C37_numbers_unique : forall ops w h, run world0 ops = Some (w, h) -> forall num a b,
  created_as h num a -> 0 < refs h a -> created_as h num b -> 0 < refs h b -> a = b.
Proof.
  intros ops w h R num a b A1 A2 B1 B2. pose proof (proj2 (C37_find _ _ _ R num a) (conj A1 A2)).
  pose proof (proj2 (C37_find _ _ _ R num b) (conj B1 B2)). congruence.
Qed.
(** creation fails exactly when the number is in use or the driver is unusable; otherwise
    the new object is distinct from every line ever created *)
Theorem C37_create : forall ops w h num drv w' outs, run world0 ops = Some (w, h) -> step w (Create num drv) = Some (w', outs) ->
  (outs = [Refused] /\ w' = w /\ (drv = false \/ exists lid, created_as h num lid /\ 0 < refs h lid)) \/
  (exists lid, outs = [Created lid] /\ drv = true /\ (forall lid', ~ (created_as h num lid' /\ 0 < refs h lid')) /\
     refs h lid = 0 /\ (forall o, ~ In (o, [Created lid]) h) /\ e1inp_line_find w' num = Some lid).
Proof.
  intros ops w h num drv w' outs R S. pose proof (LInv_run _ _ _ R) as I. pose proof (LInv_step _ _ _ _ _ I S) as I'.
  pose proof (step_shape _ _ _ _ (li_wf _ _ I) S) as SH. cbn in SH. destruct SH as [(-> & -> & H)|(-> & F & E & ->)].
  - left. repeat split; auto. destruct H as [H|H]; [auto|right].
    destruct (e1inp_line_find w num) as [lid|] eqn:F; [|congruence]. exists lid. now apply (C37_find _ _ _ R).
  - right. exists (w_next w). repeat split; auto.
    + intros lid' H. apply (C37_find _ _ _ R) in H. congruence.
    + rewrite (li_refs _ _ I), find_fresh; auto. apply I.
    + intros o H. apply (li_new _ _ I) in H. lia.
    + assert (R' : run world0 (ops ++ [Create num true]) = Some (w', h ++ [(Create num true, [Created (w_next w)])])).
      { rewrite run_app, R. cbn [fst snd]. cbn [run]. rewrite S. reflexivity. }
      apply (C37_find _ _ _ R'). split; [apply created_snoc; auto|].
      rewrite refs_snoc, (li_refs _ _ I), find_fresh by (auto; apply I). cbn. rewrite Nat.eqb_refl. lia.
Qed.
(** the counter group shared by a line and its clones exists while one of them does *)
Theorem C37_counters : forall ops w h, run world0 ops = Some (w, h) ->
  (forall c, In c (w_ctrs w) <-> exists lid, family h lid = Some c /\ 0 < refs h lid) /\
  (forall o w' outs c, step w o = Some (w', outs) ->
     (In (CtrFreed c) outs <->
      (exists lid, family h lid = Some c /\ 0 < refs h lid) /\
      ~ (exists lid, family (h ++ [(o, outs)]) lid = Some c /\ 0 < refs (h ++ [(o, outs)]) lid))).
Proof.
  assert (X : forall w h, LInv w h -> forall c, In c (w_ctrs w) <-> exists lid, family h lid = Some c /\ 0 < refs h lid).
  { intros w h I c. rewrite (li_ctr _ _ I). split.
    - intros (l & H1 & H2). exists (ln_id l). rewrite (li_fam _ _ I l H1). split; [congruence|].
      apply (alive_refs _ _ _ I). assert (F : find_line w (ln_id l) = Some l) by (apply find_in; auto; apply I). congruence.
    - intros (lid & H1 & H2). apply (alive_refs _ _ _ I) in H2. destruct (find_line w lid) as [l|] eqn:F; [|congruence].
      apply find_id_in in F. destruct F as [F1 F2]. exists l. split; [exact F1|].
      pose proof (li_fam _ _ I l F1). congruence. }
  intros ops w h R. pose proof (LInv_run _ _ _ R) as I. split; [now apply X|].
  intros o w' outs c S. pose proof (LInv_step _ _ _ _ _ I S) as I'.
  rewrite <- (X _ _ I), <- (X _ _ I'). now apply (frees_step _ _ _ _ _ I S).
Qed.
(** not a theorem of the code: that a user can only give back what it took.  A put
    under a name that holds nothing frees the line under the creator's reference *)
Theorem C37_put_without_get_frees_refuted : exists ops w h,
  run world0 ops = Some (w, h) /\ In (Create 5 true, [Created 0]) h /\ ~ In (Get 0 "trx"%string, []) h /\
  ~ (exists outs, In (Put 0 "ctor"%string, outs) h) /\ find_line w 0 = None.
Proof.
  exists [Create 5 true; Put 0 "trx"%string]. do 2 eexists. split; [reflexivity|]. cbn. repeat split; auto.
  - intuition discriminate.
  - intros [outs [H|[H|[]]]]; discriminate.
Qed.
Example C37_witness :
  match run world0 [Create 5 true; Get 0 "trx"; Create 5 true; Clone 0 "oml"; Put 0 "ctor"; Put 0 "trx"; Create 5 true; Put 1 "oml"]%string with
  | Some (w, h) => map snd h = [[Created 0]; []; [Refused]; [Created 1]; []; [LineFreed 0]; [Created 2]; [CtrFreed 0; LineFreed 1]]%nat /\
                   e1inp_line_find w 5 = Some 2%nat
  | None => False end.
Proof. vm_compute. split; reflexivity. Qed.
Print Assumptions C37_alive_iff_referenced.
Print Assumptions C37_freed_by_last_put.
Print Assumptions C37_freed_is_final.
Print Assumptions C37_get_put_defined.
Print Assumptions C37_find.
Print Assumptions C37_numbers_unique.
Print Assumptions C37_create.
Print Assumptions C37_counters.
Print Assumptions C37_put_without_get_frees_refuted.
