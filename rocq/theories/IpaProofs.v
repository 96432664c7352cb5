From Coq Require Import List Arith Lia Bool ZArith.
From Verif Require Import Base IpaModel IpaSpec.
Import ListNotations.
Open Scope Z_scope.

Lemma accepted_app a b : accepted (a ++ b) = accepted a ++ accepted b. Proof. apply flat_map_app. Qed.
Lemma removed_app a b : removed (a ++ b) = removed a ++ removed b. Proof. apply flat_map_app. Qed.
Lemma tried_app a b : tried (a ++ b) = tried a ++ tried b. Proof. apply flat_map_app. Qed.
Lemma follow_app p a b : follow p (a ++ b) = do q <- follow p a; follow q b.
Proof. revert p; induction a as [|o a IH]; intros p; cbn; [reflexivity|]. destruct (next p o); [apply IH|reflexivity]. Qed.

(** ** the queue *)
Definition qrel (q : list msg) (o : list out) (q' : list msg) : Prop := q ++ accepted o = removed o ++ q'.
Lemma qrel_trans q o q1 o1 q2 : qrel q o q1 -> qrel q1 o1 q2 -> qrel q (o ++ o1) q2.
Proof.
  unfold qrel. intros A B. rewrite accepted_app, removed_app, app_assoc, A, <- app_assoc, B. now rewrite app_assoc.
Qed.
Lemma act_q c a c' o : client_act c a = Some (c', o) -> qrel (c_q c) o (c_q c').
Proof.
  unfold client_act. destruct (negb (c_alive c)); [discriminate|]. intros E; inversion E as [E1]; clear E. unfold qrel.
  destruct a; cbn in E1.
  - destruct (c_fd c); inversion E1; subst; cbn; now rewrite ?app_nil_r.
  - unfold ipa_client_conn_open2 in E1. destruct (c_fd c); [inversion E1; subst; cbn; now rewrite app_nil_r|].
    destruct (sock_rc <? 0); [inversion E1; subst; cbn; now rewrite app_nil_r|].
    destruct (negb reg); inversion E1; subst; cbn; now rewrite app_nil_r.
  - inversion E1; subst; reflexivity.
  - inversion E1; subst; cbn. now rewrite !app_nil_r.
  - inversion E1; subst; cbn. now rewrite app_nil_r.
Qed.
Lemma acts_q l : forall c c' o, client_acts c l = Some (c', o) -> qrel (c_q c) o (c_q c').
Proof.
  induction l as [|a l IH]; cbn; intros c c' o E.
  - inversion E; subst. unfold qrel. cbn. now rewrite app_nil_r.
  - destruct (client_act c a) as [[c1 o1]|] eqn:A; [|discriminate]. cbn in E.
    destruct (client_acts c1 l) as [[c2 o2]|] eqn:B; [|discriminate]. inversion E; subst. cbn.
    eapply qrel_trans; [eapply act_q|]; eauto.
Qed.
Lemma qrel_pre q o o' q' : accepted o = [] -> removed o = [] -> qrel q o' q' -> qrel q (o ++ o') q'.
Proof. unfold qrel. intros A B C. now rewrite accepted_app, removed_app, A, B. Qed.
Lemma down_q c u c' o : go_down c u = Some (c', o) -> qrel (c_q c) o (c_q c').
Proof.
  unfold go_down, ipa_client_conn_close. destruct (client_acts _ u) as [[c1 o1]|] eqn:A; [|discriminate].
  intros E; inversion E; subst. apply acts_q in A. apply qrel_pre; [now destruct (c_fd c)|now destruct (c_fd c)|]. cbn.
  apply (qrel_pre _ [Down]); auto.
Qed.
Lemma write_q c s u c' o : ipa_client_write c s u = Some (c', o) -> qrel (c_q c) o (c_q c').
Proof.
  unfold ipa_client_write. destruct (negb (c_alive c)); [discriminate|]. destruct (c_q c) as [|m q].
  - intros E; inversion E; subst. reflexivity.
  - cbn [c_fd]. destruct (if c_fd c then s else SErr); [| |destruct (go_down _ u) as [[c1 o1]|] eqn:G; [|discriminate]|].
    1,2,4: intros E; inversion E; subst; unfold qrel; cbn; now rewrite app_nil_r.
    cbn. destruct (negb (c_alive c1)); [discriminate|]. intros E; inversion E; subst. apply down_q in G. cbn in G.
    unfold qrel in *. cbn. f_equal. exact G.
Qed.
Lemma qrel_refl q : qrel q [] q.
Proof. unfold qrel. cbn. now rewrite app_nil_r. Qed.
Lemma step_q c op c' o : step c op = Some (c', o) -> qrel (c_q c) o (c_q c').
Proof.
  destruct op as [l|rd wr e r ra rret s u|u]; cbn [step].
  - apply acts_q.
  - unfold ipa_client_fd_cb. destruct (negb (c_fd c)); [intros E; inversion E; subst; apply qrel_refl|].
    destruct (negb (rd || wr && c_wr c)); [intros E; inversion E; subst; apply qrel_refl|].
    destruct (negb (c_alive c)); [discriminate|]. destruct (negb (c_conn c)).
    + destruct e; [apply down_q|]. destruct (client_acts _ u) as [[c1 o1]|] eqn:A; [|discriminate].
      intros E; inversion E; subst. apply acts_q in A. cbn in *. apply (qrel_pre _ [Up]); auto.
    + assert (RD : forall c1 o1 ret, (if rd then ipa_client_read c r ra rret u else Some (c, [], 0)) = Some (c1, o1, ret) -> qrel (c_q c) o1 (c_q c1)).
      { intros c1 o1 ret. destruct rd; [|intros E; inversion E; subst; apply qrel_refl]. destruct r; cbn [ipa_client_read].
        - destruct (client_acts c ra) as [[c2 o2]|] eqn:A; [|discriminate]. intros E; inversion E; subst.
          apply (qrel_pre _ [Rx m]); auto. cbn. now apply acts_q in A.
        - intros E; inversion E; subst; apply qrel_refl.
        - destruct (go_down c u) as [[c2 o2]|] eqn:G; [|discriminate]. intros E; inversion E; subst. now apply down_q in G. }
      destruct (if rd then _ else _) as [[[c1 o1] ret]|]; [|discriminate]. specialize (RD _ _ _ eq_refl).
      destruct (negb (ret =? EBADF) && (wr && c_wr c)); [|intros E; inversion E; subst; exact RD].
      destruct (ipa_client_write c1 s u) as [[c2 o2]|] eqn:W; [|discriminate]. intros E; inversion E; subst.
      eapply qrel_trans; eauto. eapply write_q; eauto.
  - unfold ipa_connect_timeout_cb. destruct (negb (c_timer c)); [intros E; inversion E; subst; apply qrel_refl|].
    destruct (negb (c_alive c)); [discriminate|]. intros E. apply down_q in E. exact E.
Qed.
Lemma run_app a b c : run c (a ++ b) = do x <- run c a; do y <- run (fst x) b; Some (fst y, snd x ++ snd y).
Proof.
  revert c; induction a as [|o a IH]; intros c; cbn.
  - destruct (run c b) as [[? ?]|]; reflexivity.
  - destruct (step c o) as [[c1 o1]|]; [|reflexivity]. cbn. rewrite IH.
    destruct (run c1 a) as [[c2 o2]|]; [|reflexivity]. cbn. destruct (run c2 b) as [[c3 o3]|]; [|reflexivity]. cbn. now rewrite app_assoc.
Qed.
Lemma run_q ops : forall c c' o, run c ops = Some (c', o) -> qrel (c_q c) o (c_q c').
Proof.
  induction ops as [|op ops IH]; cbn; intros c c' o E.
  - inversion E; subst. apply qrel_refl.
  - destruct (step c op) as [[c1 o1]|] eqn:A; [|discriminate]. cbn in E.
    destruct (run c1 ops) as [[c2 o2]|] eqn:B; [|discriminate]. inversion E; subst. cbn.
    eapply qrel_trans; [eapply step_q|]; eauto.
Qed.

(** ** phases *)
Definition view (c : client) : phase := if c_fd c then if c_conn c then Connected else Connecting else Idle.
Definition CI (c : client) : Prop := (c_timer c = true -> c_fd c = true /\ c_conn c = false) /\
  (c_alive c = false -> c_fd c = false).
Definition prel (c : client) (o : list out) (c' : client) : Prop := follow (view c) o = Some (view c').
Lemma prel_trans c o c1 o1 c2 : prel c o c1 -> prel c1 o1 c2 -> prel c (o ++ o1) c2.
Proof. unfold prel. intros A B. now rewrite follow_app, A. Qed.
Lemma prel_refl c : prel c [] c. Proof. reflexivity. Qed.

Lemma act_ok c a : CI c -> c_alive c = true -> a <> ADestroy -> exists c' o, client_act c a = Some (c', o) /\
  CI c' /\ c_alive c' = true /\ prel c o c' /\ (a <> AClose -> c_fd c = true -> c_fd c' = true /\ c_conn c' = c_conn c) /\
  (a = AClose -> c_fd c' = false).
Proof.
  intros [T A] AL ND. unfold client_act. rewrite AL. cbn [negb]. destruct a; try congruence.
  - do 2 eexists. split; [reflexivity|]. unfold CI, prel, view. cbn. repeat split; auto; try discriminate; try congruence.
    destruct (c_fd c); [destruct (c_conn c)|]; reflexivity.
  - unfold ipa_client_conn_open2, CI, prel, view. destruct (c_fd c) eqn:FD.
    + do 2 eexists. split; [reflexivity|]. rewrite FD. repeat split; auto; try congruence; try apply T; auto.
      destruct (c_conn c); reflexivity.
    + assert (TF : c_timer c = false) by (destruct (c_timer c); [destruct T; [reflexivity|congruence]|reflexivity]).
      destruct (sock_rc <? 0); [|destruct (negb reg)]; do 2 eexists; (split; [reflexivity|]); cbn; rewrite ?TF; repeat split; auto; try discriminate; try congruence.
  - do 2 eexists. split; [reflexivity|]. unfold CI, prel, view. cbn. repeat split; auto; try discriminate; try congruence; try (apply T; auto).
    destruct (c_fd c); [destruct (c_conn c)|]; reflexivity.
  - do 2 eexists. split; [reflexivity|]. unfold CI, prel, view. cbn. repeat split; auto; try discriminate; try congruence; try (apply T; auto).
    destruct (c_fd c); [destruct (c_conn c)|]; reflexivity.
Qed.
Ltac sp := repeat match goal with |- CI _ => assumption | |- _ /\ _ => split end.
Lemma acts_nd l : forall c, CI c -> c_alive c = true -> no_destroy l -> exists c' o, client_acts c l = Some (c', o) /\
  CI c' /\ c_alive c' = true /\ prel c o c' /\ (~ In AClose l -> c_fd c = true -> c_fd c' = true /\ c_conn c' = c_conn c).
Proof.
  induction l as [|a l IH]; intros c I AL ND; cbn.
  - exists c, []. sp; auto; try apply I. reflexivity.
  - destruct (act_ok c a I AL) as (c1 & o1 & E1 & I1 & A1 & P1 & F1 & _); [intros ->; apply ND; now left|].
    destruct (IH c1 I1 A1) as (c2 & o2 & E2 & I2 & A2 & P2 & F2); [intros H; apply ND; now right|].
    rewrite E1. cbn. rewrite E2. exists c2, (o1 ++ o2). sp; auto; try apply I2.
    + eapply prel_trans; eauto.
    + intros NC FD. assert (NA : a <> AClose) by (intros ->; apply NC; now left). destruct (F1 NA FD) as [X Y]. rewrite <- Y. apply F2; auto.
Qed.
Lemma acts_good l c : CI c -> c_alive c = true -> acts_ok l -> exists c' o, client_acts c l = Some (c', o) /\
  CI c' /\ prel c o c' /\ (~ In AClose l -> c_fd c = true -> c_fd c' = true /\ c_conn c' = c_conn c) /\ (no_destroy l -> c_alive c' = true) /\
  (In ADestroy l -> In AClose l).
Proof.
  intros I AL [ND|(l' & -> & ND)].
  - destruct (acts_nd l c I AL ND) as (c' & o & E & I' & A' & P & F). exists c', o. sp; auto; try apply I'; try (apply F; auto). contradiction.
  - destruct (acts_nd l' c I AL ND) as (c1 & o1 & E1 & I1 & A1 & P1 & _).
    assert (AP : forall x y c, client_acts c (x ++ y) = do a <- client_acts c x; do b <- client_acts (fst a) y; Some (fst b, snd a ++ snd b)).
    { clear. induction x as [|a x IH]; intros y c; cbn; [destruct (client_acts c y) as [[? ?]|]; reflexivity|].
      destruct (client_act c a) as [[c1 o1]|]; [|reflexivity]. cbn. rewrite IH. destruct (client_acts c1 x) as [[c2 o2]|]; [|reflexivity].
      cbn. destruct (client_acts c2 y) as [[c3 o3]|]; [|reflexivity]. cbn. now rewrite app_assoc. }
    rewrite AP, E1. cbn. unfold client_act at 1. rewrite A1. cbn. unfold client_act. cbn [c_alive]. rewrite A1. cbn.
    do 2 eexists. split; [reflexivity|]. sp; cbn; auto; try discriminate.
    + split; cbn; auto; discriminate.
    + unfold prel in *. rewrite follow_app, P1. rewrite !app_nil_r. unfold view. cbn. destruct (c_fd c1); [destruct (c_conn c1)|]; reflexivity.
    + intros H. exfalso. apply H. apply in_or_app. right. now left.
    + intros H. exfalso. apply H. apply in_or_app. right. right. now left.
    + intros _. apply in_or_app. right. now left.
Qed.
Lemma down_good c u : CI c -> c_alive c = true -> c_fd c = true -> acts_ok u -> exists c' o, go_down c u = Some (c', o) /\
  CI c' /\ prel c o c' /\ (no_destroy u -> c_alive c' = true).
Proof.
  intros [T A] AL FD U. unfold go_down, ipa_client_conn_close.
  destruct (acts_good u (mkC (c_alive c) false (c_conn c) (c_wr c) false (c_q c))) as (c' & o & E & I' & P & _ & ND & _); auto.
  { split; cbn; auto; discriminate. }
  rewrite E. do 2 eexists. split; [reflexivity|]. cbn [fst snd]. sp; auto; try apply I'.
  unfold prel in *. rewrite FD. unfold view at 1. rewrite FD. cbn [app follow].
  destruct (c_conn c); cbn [next]; exact P.
Qed.
Lemma step_good c op : CI c -> c_alive c = true -> op_ok op -> exists c' o, step c op = Some (c', o) /\ CI c' /\ prel c o c'.
Proof.
  intros I AL OK. destruct op as [l|rd wr e r ra rret s u|u]; cbn [step op_ok] in *.
  - destruct (acts_good l c I AL OK) as (c' & o & E & I' & P & _). exists c', o. auto.
  - destruct OK as (RA & U & RC & SP). unfold ipa_client_fd_cb. destruct (c_fd c) eqn:FD; cbn [negb]; [|exists c, []; sp; auto; reflexivity].
    destruct (negb (rd || wr && c_wr c)); [exists c, []; sp; auto; reflexivity|]. rewrite AL. cbn [negb].
    destruct (c_conn c) eqn:CN; cbn [negb].
    + assert (RD : exists c1 o1 ret, (if rd then ipa_client_read c r ra rret u else Some (c, [], 0)) = Some (c1, o1, ret) /\ CI c1 /\ prel c o1 c1 /\
        (ret <> EBADF -> c_alive c1 = true /\ c_fd c1 = true /\ c_conn c1 = true)).
      { destruct rd; [|exists c, [], 0; sp; auto; reflexivity]. destruct r; cbn [ipa_client_read].
        - destruct (acts_good ra c I AL RA) as (c1 & o1 & E & I1 & P & F & ND & DC). rewrite E. cbn. exists c1, (Rx m :: o1), rret.
          split; [reflexivity|]. split; [exact I1|]. split.
          + unfold prel in *. cbn [follow]. unfold view at 1. rewrite FD, CN. cbn [next]. rewrite <- P. unfold view. now rewrite FD, CN.
          + intros NE. assert (NC : ~ In AClose ra) by (intros H; apply NE; auto). split; [apply ND; intros H; apply NC; auto|].
            destruct (F NC FD) as [X Y]. split; congruence.
        - exists c, [], 0. sp; auto; reflexivity.
        - destruct (down_good c u I AL FD U) as (c1 & o1 & E & I1 & P & _). rewrite E. cbn. exists c1, o1, EBADF. sp; auto; congruence. }
      destruct RD as (c1 & o1 & ret & E1 & I1 & P1 & G1). rewrite E1.
      destruct (Z.eqb_spec ret EBADF) as [NE|NE]; cbn [negb andb]; [exists c1, o1; auto|].
      destruct (G1 NE) as (A1 & F1 & C1). destruct (wr && c_wr c); [|exists c1, o1; auto].
      unfold ipa_client_write. rewrite A1. cbn [negb]. destruct (c_q c1) as [|m q].
      * cbn. do 2 eexists. split; [reflexivity|]. split.
        -- split; cbn; [apply I1|congruence].
        -- unfold prel in *. rewrite app_nil_r, P1. unfold view. cbn. reflexivity.
      * cbn [c_fd]. rewrite F1. set (c2 := mkC true true (c_conn c1) (c_wr c1) (c_timer c1) q).
        assert (I2 : CI c2) by (split; cbn; [intros H; split; auto; apply I1; auto|discriminate]).
        assert (V : view c1 = Connected) by (unfold view; now rewrite F1, C1).
        assert (V2 : view c2 = Connected) by (unfold view, c2; cbn; now rewrite C1).
        destruct s; [| |destruct (down_good c2 u I2 eq_refl eq_refl U) as (c3 & o3 & E3 & I3 & P3 & ND); rewrite E3; cbn; rewrite (ND (SP eq_refl)); cbn|].
        1,2,4: cbn; do 2 eexists; split; [reflexivity|]; split; [exact I2|]; unfold prel in *; rewrite follow_app, P1, V, V2; reflexivity.
        do 2 eexists. split; [reflexivity|]. split; [exact I3|]. unfold prel in *. rewrite follow_app, P1, V. cbn [follow next]. rewrite <- V2. exact P3.
    + destruct e.
      * unfold ipa_connect_failure. destruct (down_good c u I AL FD U) as (c1 & o1 & E & I1 & P & _). exists c1, o1. auto.
      * destruct (acts_good u (mkC true true true false false (c_q c))) as (c1 & o1 & E & I1 & P & _); auto.
        { split; cbn; discriminate. }
        rewrite E. do 2 eexists. split; [reflexivity|]. split; [exact I1|]. unfold prel in *. cbn [follow fst snd]. unfold view at 1. rewrite FD, CN.
        cbn [next]. exact P.
  - unfold ipa_connect_timeout_cb. destruct (c_timer c) eqn:TM; cbn [negb]; [|exists c, []; sp; auto; reflexivity]. rewrite AL. cbn [negb].
    destruct I as [T A]. destruct (T TM) as [FD CN].
    destruct (down_good (mkC true (c_fd c) (c_conn c) (c_wr c) false (c_q c)) u) as (c1 & o1 & E & I1 & P & _); auto.
    { split; cbn; discriminate. }
    exists c1, o1. sp; auto.
Qed.
Lemma dead_event c o : CI c -> c_alive c = false -> is_event o -> step c o = Some (c, []).
Proof.
  intros [T A] D E. specialize (A D). destruct o; try contradiction; cbn.
  - unfold ipa_client_fd_cb. now rewrite A.
  - unfold ipa_connect_timeout_cb. destruct (c_timer c); [destruct T; auto; congruence|reflexivity].
Qed.
Lemma run_good ops : forall c c' o, CI c -> Forall op_ok ops -> run c ops = Some (c', o) -> CI c' /\ prel c o c'.
Proof.
  induction ops as [|op ops IH]; intros c c' o I F E; cbn in E.
  - inversion E; subst. split; [exact I|reflexivity].
  - inversion F; subst. destruct (step c op) as [[c1 o1]|] eqn:S; [|discriminate]. cbn in E.
    destruct (run c1 ops) as [[c2 o2]|] eqn:R; [|discriminate]. inversion E; subst. cbn.
    assert (G : CI c1 /\ prel c o1 c1).
    { destruct (c_alive c) eqn:AL.
      - destruct (step_good c op I AL) as (c1' & o1' & E1 & I1 & P1); auto. rewrite S in E1. inversion E1; subst. auto.
      - destruct op as [l| |].
        + cbn in S. destruct l as [|a l]; [inversion S; subst; split; [auto|reflexivity]|]. cbn in S. unfold client_act in S. rewrite AL in S. discriminate.
        + rewrite (dead_event c) in S by (auto; exact Logic.I). inversion S; subst. split; [auto|reflexivity].
        + rewrite (dead_event c) in S by (auto; exact Logic.I). inversion S; subst. split; [auto|reflexivity]. }
    destruct G as [I1 P1]. destruct (IH c1 c' o2 I1) as [I2 P2]; auto. split; [exact I2|]. eapply prel_trans; eauto.
Qed.
