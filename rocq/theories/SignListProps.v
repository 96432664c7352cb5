(** C83: the lists of signalling links of the timeslots. *)
From Coq Require Import List Arith Lia Bool ZArith.
From Verif Require Import Base SignListModel SignListSpec SignListProofs.
Import ListNotations.
Open Scope Z_scope.

(** Whatever lines are made, copied and freed, timeslots typed, links made, destroyed (also while
    another is being destroyed, and again while it is itself) and looked up in: as long as no line
    with a signalling timeslot is copied and no timeslot with links gets another type, every access
    to the lists is to a live cell, no loop over a list is endless, and the answers are those of
    plain lists. *)
Theorem C83_lists ops a : a_run a_init ops = Some a -> exists s, run init ops = Ok s /\ out s = a_out a.
Proof. intros E. destruct (lists_right ops a E) as (s & E2 & H). exists s. split; [exact E2|apply (r_out _ _ H)]. Qed.

(** *** every link is freed once *)
Lemma alive_snoc u e k : alive (u ++ [e]) k = match e with Made j => if Nat.eqb j k then true else alive u k | Freed j => if Nat.eqb j k then false else alive u k | _ => alive u k end.
Proof. unfold alive. rewrite fold_left_app. reflexivity. Qed.
Lemma proper_snoc u e : proper u -> may u e -> proper (u ++ [e]).
Proof.
  intros P M v f w E. destruct w as [|g w].
  - apply app_inj_tail in E as [-> ->]. exact M.
  - apply (P v f (removelast (g :: w))). assert (Q : exists w' x, g :: w = w' ++ [x]) by (destruct (@exists_last _ (g :: w)) as (w' & x & Q); [discriminate|now exists w', x]). destruct Q as (w' & x & Q). rewrite Q in *.
    rewrite removelast_last. change (v ++ f :: w' ++ [x]) with (v ++ (f :: w') ++ [x]) in E. rewrite app_assoc in E. apply app_inj_tail in E as [-> _]. reflexivity.
Qed.
Record Hist (a : ast) : Prop := { h_key : forall k, alive (a_out a) k = true <-> In k (map fst (a_lks a ++ a_end a)); h_ok : proper (a_out a) }.
Lemma hist_emit a e : Hist a -> may (a_out a) e -> (forall k, alive (a_out a ++ [e]) k = alive (a_out a) k) -> Hist (a_emit a e).
Proof. intros [K P] M E. unfold a_emit. constructor; cbn [a_out a_lks a_end]; [intros k; rewrite E; apply K|now apply proper_snoc]. Qed.
Lemma hist_same a b : Hist a -> a_out b = a_out a -> (forall k, In k (map fst (a_lks b ++ a_end b)) <-> In k (map fst (a_lks a ++ a_end a))) -> Hist b.
Proof. intros [K P] E M. constructor; rewrite E; [intros k; rewrite K; symmetry; apply M|exact P]. Qed.
Definition good_hist (o : op) : Prop := forall a a' s, a_step a o = Some a' -> R a s -> Hist a -> Hist a'.
Lemma run_hist os : Forall good_hist os -> forall a a' s, a_run a os = Some a' -> R a s -> Hist a -> Hist a'.
Proof.
  induction 1 as [|o os G F IH]; cbn [a_run]; intros a a' s E H I; [injection E as <-; exact I|]. destruct (a_step a o) as [b|] eqn:E1; [|discriminate E].
  destruct (proj2 (all_good o a b E1) s H) as (s' & _ & H'). exact (IH b a' s' E H' (G a b s E1 H I)).
Qed.
Lemma all_hist o : good_hist o.
Proof.
  induction o using op_all; intros a a' s E Hs HH.
  - cbn in E. injection E as <-. destruct (a_line a l); [exact HH|]. now apply (hist_same a).
  - cbn [a_step] in E. destruct (a_line a l && negb (a_line a m)); [destruct (existsb (a_sign a l) (seq 0 32)); [discriminate E|]|]; injection E as <-; [|exact HH]. now apply (hist_same a).
  - cbn [a_step] in E. destruct (a_line a l && negb (existsb (on_line l) (a_lks a ++ a_end a))); injection E as <-; [|exact HH]. now apply (hist_same a).
  - cbn [a_step] in E. injection E as <-. destruct (a_ts a l t); [|exact HH]. now apply (hist_same a).
  - cbn [a_step] in E. destruct (a_ts a l t); [destruct (existsb (at_ts l t) (a_lks a)); [discriminate E|]|]; injection E as <-; [|exact HH]. now apply (hist_same a).
  - cbn [a_step] in E. injection E as <-. destruct (a_ts a l t); [|exact HH]. destruct (a_sign a l t); [|apply hist_emit; [exact HH|exact Logic.I|intros; apply alive_snoc]]. destruct (existsb (is_k k) (a_lks a ++ a_end a)) eqn:U; [exact HH|].
    destruct HH as [K P]. constructor; cbn [a_out a_lks a_end].
    + intros j. rewrite alive_snoc, <- app_assoc, map_app. cbn [app map fst]. rewrite in_app_iff. cbn [In]. specialize (K j). rewrite map_app, in_app_iff in K. destruct (Nat.eqb_spec k j) as [->|N]; [tauto|]. rewrite K. tauto.
    + apply proper_snoc; [exact P|]. cbn. destruct (alive (a_out a) k) eqn:A; [|easy]. apply K, has_k in A. congruence.
  - rewrite a_destroy in E. destruct (existsb (is_k k) (a_end a)) eqn:X.
    { injection E as <-. apply hist_emit; [exact HH| |intros; apply alive_snoc]. cbn. apply (h_key _ HH). rewrite map_app. apply in_or_app. right. now apply has_k. }
    destruct (find (is_k k) (a_lks a)) as [p|] eqn:F; [|injection E as <-; exact HH].
    destruct (a_run (mkA (a_lns a) (a_sign a) (gone k (a_lks a)) (p :: a_end a) (a_out a)) os) as [b|] eqn:RN; [|discriminate E]. injection E as <-.
    destruct (sim_unlink a s k p Hs F) as (_ & s1 & _ & H1). destruct (find_is _ _ _ F) as (u & v & EQ & PK).
    assert (HB : Hist b).
    { refine (run_hist os H _ _ s1 RN H1 _). apply (hist_same a); [exact HH|reflexivity|]. cbn [a_lks a_end]. intros j. rewrite (gone_split k _ u p v (r_nd_lks _ _ Hs) EQ PK), EQ, !map_app, !in_app_iff. cbn [map]. rewrite ?in_app_iff. cbn [In]. tauto. }
    pose proof (good_run os (proj2 (Forall_forall good_op os) (fun o _ => all_good o)) _ _ RN) as [GE GS]. cbn [a_end] in GE. destruct (GS s1 H1) as (s2 & _ & H2).
    assert (IE : In k (map fst (a_end b))) by (rewrite GE; left; exact PK). pose proof (r_nd2 _ _ H2) as ND. rewrite map_app in ND.
    destruct HB as [K P]. constructor; cbn [a_out a_lks a_end].
    + intros j. rewrite alive_snoc, map_app, in_app_iff. specialize (K j). rewrite map_app, in_app_iff in K. destruct (Nat.eqb_spec k j) as [<-|N].
      * split; [discriminate|]. intros [J|J]; [exfalso; exact (nodup_apart _ _ k ND J IE)|]. apply in_map_iff in J as (q & Q & J). apply gone_in in J as [_ J]. now contradiction J.
      * rewrite K. assert (G : In j (map fst (gone k (a_end b))) <-> In j (map fst (a_end b))); [|tauto]. split; intros J; apply in_map_iff in J as (q & <- & J); apply in_map; [now apply gone_in in J|]. apply gone_in. split; [exact J|congruence].
    + apply proper_snoc; [exact P|]. cbn. apply K. rewrite map_app. apply in_or_app. now right.
  - cbn [a_step] in E. injection E as <-. destruct (a_ts a l t && a_sign a l t); [|exact HH]. apply hist_emit; [exact HH| |intros; apply alive_snoc]. cbn. destruct (a_find a l t tei sapi) as [j|] eqn:FD; [|exact Logic.I].
    unfold a_find in FD. destruct (find _ (a_lks a)) as [q|] eqn:FF in FD; [|discriminate FD]. injection FD as <-. apply (h_key _ HH). apply in_map. apply in_or_app. left. exact (proj1 (find_some _ _ FF)).
Qed.
(** A link is found, or reported twice, only between its making and its freeing, and freed once. *)
Theorem C83_once ops a : a_run a_init ops = Some a -> exists s, run init ops = Ok s /\ proper (out s).
Proof.
  intros E. destruct (C83_lists ops a E) as (s & E2 & EO). exists s. split; [exact E2|]. rewrite EO. apply h_ok. refine (run_hist ops (proj2 (Forall_forall good_hist ops) (fun o _ => all_hist o)) _ _ init E r_init _).
  constructor; cbn; [easy|]. intros v e w Q. destruct v; discriminate Q.
Qed.

(** *** both rules are needed *)
(** A line whose signalling timeslot has no link is copied (e1inp_line_clone copies the list head, and
    e1inp_ts_config_sign finds the copy already configured): to look up in the copy is to take the
    other line's list head for a link ... *)
Theorem C83_clone_lookup : run init [Line 0; Sign 0 1; Clone 0 1; Sign 1 1; Lookup 1 1 5 6] = Fault.
Proof. vm_compute. reflexivity. Qed.
(** ... a link made on the copy is found on the other line, and not on its own; *)
Theorem C83_clone_create : (exists s, run init [Line 0; Sign 0 1; Clone 0 1; Create 9 1 1 5 6; Lookup 0 1 5 6] = Ok s /\ out s = [Made 9; Found 0 1 5 6 (Some 9%nat)]) /\
  run init [Line 0; Sign 0 1; Clone 0 1; Create 9 1 1 5 6; Lookup 1 1 5 6] = Fault /\
  run init [Line 0; Sign 0 1; Clone 0 1; Create 9 1 1 5 6; Lookup 0 1 5 7] = Fault.
Proof. split; [eexists; split; vm_compute; reflexivity|]. split; vm_compute; reflexivity. Qed.
(** the copy of a line with a link loses its list when the link goes. *)
Theorem C83_clone_linked : run init [Line 0; Sign 0 1; Create 9 0 1 5 6; Clone 0 1; Destroy 9 []; Lookup 1 1 5 6] = Fault.
Proof. vm_compute. reflexivity. Qed.
(** A timeslot with links gets another type: destroying a link then writes into what is there now. *)
Theorem C83_retyped : run init [Line 0; Sign 0 1; Create 9 0 1 5 6; Other 0 1; Destroy 9 []] = Fault.
Proof. vm_compute. reflexivity. Qed.
(** And back to signalling: the link is not found any more, and destroying it writes into the list. *)
Theorem C83_retyped_back : exists s, run init [Line 0; Sign 0 1; Create 9 0 1 5 6; Other 0 1; Sign 0 1; Lookup 0 1 5 6] = Ok s /\ out s = [Made 9; Found 0 1 5 6 None].
Proof. eexists. split; vm_compute; reflexivity. Qed.

(** Three links on two timeslots, found by address; the middle one is destroyed, during which it is
    destroyed again, another is destroyed and a fourth made; the line is not freed before its last
    link. *)
Theorem C83_example :
  let ops := [Line 0; Sign 0 1; Sign 0 2; Create 1 0 1 10 0; Create 2 0 1 11 0; Create 3 0 1 12 62; Create 4 0 2 11 0; Lookup 0 1 11 0; Lookup 0 2 11 0; Lookup 0 1 10 62;
    Destroy 2 [Destroy 2 []; Lookup 0 1 11 0; Destroy 1 []; Create 5 0 1 11 0; Free 0]; Lookup 0 1 11 0; Lookup 0 1 12 62; Destroy 3 []; Destroy 4 []; Destroy 5 []; Free 0; Create 6 0 1 1 1] in
  let rep := [Made 1; Made 2; Made 3; Made 4; Found 0 1 11 0 (Some 2%nat); Found 0 2 11 0 (Some 4%nat); Found 0 1 10 62 None;
    Twice 2; Found 0 1 11 0 None; Freed 1; Made 5; Freed 2; Found 0 1 11 0 (Some 5%nat); Found 0 1 12 62 (Some 3%nat); Freed 3; Freed 4; Freed 5] in
  (exists a, a_run a_init ops = Some a /\ a_out a = rep) /\ exists s, run init ops = Ok s /\ out s = rep /\ lns s = [].
Proof. cbn zeta. split; eexists; (split; [vm_compute; reflexivity|]); vm_compute; easy. Qed.
