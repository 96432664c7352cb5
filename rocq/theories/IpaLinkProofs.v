(** Proofs about the listening IPA link. *)
From Coq Require Import List Bool ZArith Lia.
From Verif Require Import Base IpaLinkModel IpaLinkSpec.
Import ListNotations.
Open Scope Z_scope.

Lemma inb_In f l : inb f l = true <-> In f l.
Proof. unfold inb. rewrite existsb_exists. split; [intros (x & H & E); apply Z.eqb_eq in E; now subst|intros H; exists f; split; [easy|apply Z.eqb_refl]]. Qed.
Lemma drop_In f g l : In g (drop f l) <-> In g l /\ g <> f.
Proof. unfold drop. rewrite filter_In, negb_true_iff, Z.eqb_neq. easy. Qed.
Lemma oeq_eq a f : oeq a f = true <-> a = Some f.
Proof. destruct a as [g|]; cbn; [rewrite Z.eqb_eq; split; congruence|easy]. Qed.
Lemma used_iff g f : used g f = true <-> g_lst g = Some f \/ g_pend g = Some f \/ In f (g_mine g).
Proof. unfold used. rewrite !orb_true_iff, !oeq_eq, inb_In. tauto. Qed.

Lemma judge_app g a b : judge g (a ++ b) = match judge g a with Fine g => judge g b | v => v end.
Proof. revert g; induction a as [|x a IH]; intros g; [reflexivity|]. cbn. destruct (judge1 g x); auto. Qed.

Record R (s : st) (g : game) : Prop := mkR {
  r_dead : g_dead g = negb (l_alive s);
  r_lst : g_lst g = l_fd s;
  r_reg : g_reg g = l_fd s;
  r_regb : l_reg s = negb (isN (l_fd s));
  r_live : l_alive s = false -> l_fd s = None;
  r_k : forall f, In f (k s) <-> used g f = true;
  r_d1 : forall f, g_lst g = Some f -> g_pend g <> Some f /\ ~ In f (g_mine g);
  r_d2 : forall f, g_pend g = Some f -> ~ In f (g_mine g);
  r_pos : forall f, In f (k s) -> 0 <= f;
  r_w : forall f, In f (g_watch g) -> g_pend g = Some f \/ In f (g_mine g) }.

(** the pending descriptor stays, or goes away *)
Definition pk (g g' : game) : Prop := g_ref g' = false /\ (g_pend g' = g_pend g \/ g_pend g' = None).
Definition good (s : st) (g : game) (r : list out * option st) : Prop :=
  judge g (fst r) = UserFault \/ exists s' g', judge g (fst r) = Fine g' /\ snd r = Some s' /\ R s' g' /\ pk g g'.

Lemma notused s g f : R s g -> inb f (k s) = false -> used g f = false.
Proof. intros H N. apply not_true_is_false. intros U. apply (r_k _ _ H) in U. apply inb_In in U. congruence. Qed.
Lemma used_false g f : used g f = false -> g_lst g <> Some f /\ g_pend g <> Some f /\ ~ In f (g_mine g).
Proof. intros U. assert (N : ~ (g_lst g = Some f \/ g_pend g = Some f \/ In f (g_mine g))) by (rewrite <- used_iff; congruence). tauto. Qed.

Lemma act_good s g a : R s g -> g_ref g = false -> good s g (do_act s a).
Proof.
  intros H RF. pose proof H as [D L RG RB LV K D1 D2 PS W]. destruct a as [sock reg| | |f|f|f]; cbn [do_act].
  - destruct (inb sock (k s)) eqn:IN.
    { right. exists s, g. cbn. (split; [easy|]; split; [easy|]; split; [exact H|]; split; auto). }
    destruct (l_alive s) eqn:AL; cbn [negb].
    2:{ left. cbn. rewrite D. reflexivity. }
    pose proof (notused _ _ _ H IN) as US. destruct (used_false _ _ US) as (U1 & U2 & U3).
    destruct (l_fd s) as [f0|] eqn:FD.
    { left. unfold link_open. assert (judge1 g CallOpen = UserFault) as J by (cbn; rewrite D, L; reflexivity). destruct (sock <? 0), reg; cbn [fst negb judge]; now rewrite J. }
    assert (judge1 g CallOpen = Fine g) as J by (cbn; rewrite D, L; reflexivity). unfold link_open.
    destruct (Z.ltb_spec sock 0) as [LT|GE].
    { right. exists s, g. cbn [fst snd judge]. rewrite J. cbn. destruct (Z.eqb_spec sock 0); [lia|]. assert (sock <? 0 = true) as -> by (apply Z.ltb_lt; lia). rewrite L, RG. cbn. (split; [easy|]; split; [easy|]; split; [exact H|]; split; auto). }
    destruct reg; cbn [negb].
    + right. exists (mk true (Some sock) true (l_addr s) (sock :: k s)), (G false (Some sock) (Some sock) (g_pend g) (g_ref g) (g_mine g) (g_watch g)).
      cbn [fst snd judge]. rewrite J. cbn. rewrite US, L. cbn. rewrite !Z.eqb_refl, RG. cbn. rewrite Z.eqb_refl, D. rewrite ?AL. cbn. split; [reflexivity|]. split; [reflexivity|]. split; [|split; [easy|now left]].
      constructor; cbn; auto.
      * easy.
      * intros f. rewrite used_iff. cbn. rewrite K, used_iff, L. split; [intros [-> | [E|[E|E]]]|intros [E|[E|E]]]; auto; try easy. injection E as ->. auto.
      * intros f E. injection E as <-. split; auto.
      * intros f [<- | I]; auto.
    + right. exists (mk true None (l_reg s) (l_addr s) (k s)), (G false None (g_reg g) (g_pend g) (g_ref g) (g_mine g) (g_watch g)).
      cbn [fst snd judge]. rewrite J. cbn. rewrite US, L. cbn. rewrite !Z.eqb_refl, RG. cbn. rewrite D. split; [reflexivity|]. split; [now rewrite AL|]. split; [|split; [easy|now left]].
      constructor; cbn; auto.
      * intros f. rewrite K, !used_iff, L. cbn. easy.
      * easy.
  - destruct (l_alive s) eqn:AL; cbn [negb]; [|left; cbn; now rewrite D].
    unfold link_close. destruct (l_fd s) as [f|] eqn:FD.
    + right. exists (mk true None false (l_addr s) (drop f (k s))), (G false None None (g_pend g) (g_ref g) (g_mine g) (g_watch g)).
      cbn. rewrite D. cbn. rewrite RG. cbn. rewrite Z.eqb_refl. cbn. rewrite L. cbn. rewrite Z.eqb_refl. cbn. split; [now rewrite D|]. split; [now rewrite AL|]. split; [|split; [easy|now left]].
      constructor; cbn; auto.
      * intros h. rewrite drop_In, K, !used_iff, L. cbn. destruct (D1 _ L) as [E1 E2]. split; [intros [[E|[E|E]] N]|intros [E|[E|E]]]; auto; try easy; [congruence| |]; split; auto; congruence.
      * easy.
      * intros h I. apply drop_In in I. now apply PS.
    + right. exists s, g. cbn. rewrite D. cbn. rewrite L, RG. cbn. (split; [easy|]; split; [easy|]; split; [exact H|]; split; auto).
  - destruct (l_alive s) eqn:AL; cbn [negb]; [|left; cbn; now rewrite D].
    unfold link_destroy. destruct (l_fd s) as [f|] eqn:FD; [left; cbn; now rewrite D, L|].
    right. exists (mk false None (l_reg s) (l_addr s) (k s)), (G true (g_lst g) (g_reg g) (g_pend g) (g_ref g) (g_mine g) (g_watch g)).
    cbn. rewrite D, L. cbn. split; [now rewrite ?L|]. split; [now rewrite ?FD|]. split; [|split; [easy|now left]].
    constructor; cbn; auto.
    + intros f. rewrite K, !used_iff, L. cbn. easy.
    + easy.
  - destruct ((f <? 0) || inb f (k s)) eqn:IN.
    { right. exists s, g. cbn. (split; [easy|]; split; [easy|]; split; [exact H|]; split; auto). }
    apply orb_false_iff in IN as [GE IN]. apply Z.ltb_ge in GE. pose proof (notused _ _ _ H IN) as US. destruct (used_false _ _ US) as (U1 & U2 & U3).
    right. eexists _, (G (g_dead g) (g_lst g) (g_reg g) (g_pend g) (g_ref g) (f :: g_mine g) (g_watch g)). cbn. rewrite US. split; [reflexivity|]. split; [reflexivity|]. split; [|split; [easy|now left]].
    constructor; cbn; auto.
    + intros h. rewrite used_iff, K, used_iff. cbn. tauto.
    + intros h E. destruct (D1 _ E). split; [easy|]. intros [-> | I]; auto.
    + intros h E [-> | I]; [auto|]. now apply (D2 _ E).
    + intros h [<- | I]; auto.
    + intros h I. destruct (W _ I); auto.
  - cbn [fst judge judge1]. destruct (oeq (g_pend g) f) eqn:E1.
    + right. eexists _, (G _ _ _ _ _ _ _). cbn. rewrite E1. split; [reflexivity|]. split; [reflexivity|]. split; [|split; [easy|now right]].
      apply oeq_eq in E1. constructor; cbn; auto.
      * intros h. rewrite drop_In, K, !used_iff. cbn. split; [intros [[E|[E|E]] N]|intros [E|[E|E]]]; auto; try easy; [congruence| |].
        -- split; [auto|]. intros ->. now destruct (D1 _ E).
        -- split; [auto|]. intros ->. now apply (D2 _ E1).
      * intros h E. destruct (D1 _ E). split; auto. easy.
      * easy.
      * intros h I. apply drop_In in I. now apply PS.
      * intros h I. apply drop_In in I as [I N]. destruct (W _ I) as [E|E]; [congruence|auto].
    + destruct (inb f (g_mine g)) eqn:E2; [|left; cbn; now rewrite E1, E2].
      right. eexists _, (G _ _ _ _ _ _ _). cbn. rewrite E1, E2. split; [reflexivity|]. split; [reflexivity|]. split; [|split; [easy|now left]].
      apply inb_In in E2. constructor; cbn; auto.
      * intros h. rewrite drop_In, K, !used_iff. cbn. rewrite drop_In. split; [intros [[E|[E|E]] N]|intros [E|[E|E]]]; auto; try easy.
        -- split; [auto|]. intros ->. now destruct (D1 _ E).
        -- split; [auto|]. intros ->. now apply (D2 _ E).
        -- split; [tauto|easy].
      * intros h E. destruct (D1 _ E). split; auto. rewrite drop_In. tauto.
      * intros h E. rewrite drop_In. intros [I _]. now apply (D2 _ E).
      * intros h I. apply drop_In in I. now apply PS.
      * intros h I. apply drop_In in I as [I N]. destruct (W _ I) as [E|E]; [auto|]. right. now apply drop_In.
  - cbn [fst judge judge1]. destruct (oeq (g_pend g) f || inb f (g_mine g)) eqn:E1; [|left; cbn; now rewrite E1].
    right. eexists _, (G _ _ _ _ _ _ _). cbn. rewrite E1. split; [reflexivity|]. split; [reflexivity|]. split; [|split; [easy|now left]].
    constructor; cbn; auto.
    apply orb_true_iff in E1. rewrite oeq_eq, inb_In in E1. intros h [<- | I]; auto.
Qed.

Lemma acts_good l : forall s g, R s g -> g_ref g = false -> good s g (acts s l).
Proof.
  induction l as [|a l IH]; intros s g H RF; cbn [acts].
  - right. exists s, g. cbn. split; [easy|]. split; [easy|]. split; [easy|]. split; auto.
  - pose proof (act_good s g a H RF) as A. destruct (do_act s a) as [o [s1|]].
    + destruct A as [A|(s' & g' & J & E & H' & P1 & P2)]; cbn [fst snd] in *.
      * destruct (acts s1 l) as [o' s2]. left. cbn [fst]. now rewrite judge_app, A.
      * injection E as <-. specialize (IH s1 g' H' P1). destruct (acts s1 l) as [o' s2]. destruct IH as [B|(s3 & g3 & J3 & E3 & H3 & Q1 & Q2)]; cbn [fst snd] in *.
        -- left. cbn [fst]. now rewrite judge_app, J.
        -- right. exists s3, g3. cbn [fst snd]. rewrite judge_app, J. split; [easy|]. split; [easy|]. split; [easy|]. split; [easy|]. destruct Q2 as [-> | ->]; tauto.
    + destruct A as [A|(s' & g' & J & E & _)]; [left; exact A|discriminate].
Qed.

Lemma step_good s g p : R s g -> g_pend g = None -> g_ref g = false -> good s g (step s p).
Proof.
  intros H PN RF. destruct p as [a|ac ip cb ret]; cbn [step].
  - exact (act_good s g a H RF).
  - destruct (l_reg s && negb (inb ac (k s))) eqn:E.
    2:{ right. exists s, g. cbn. split; [easy|]. split; [easy|]. split; [easy|]. split; auto. }
    apply andb_true_iff in E as [RGB IN]. apply negb_true_iff in IN. pose proof H as [D L RG RB LV K D1 D2 PS W].
    unfold server_fd_cb. destruct (l_alive s) eqn:AL; cbn [negb].
    2:{ rewrite RB, LV in RGB by easy. discriminate RGB. }
    destruct (Z.ltb_spec ac 0) as [LT|GE].
    { right. exists s, g. cbn. rewrite PN. cbn. split; [easy|]. split; [easy|]. split; [easy|]. split; auto. }
    pose proof (notused _ _ _ H IN) as US. destruct (used_false _ _ US) as (U1 & U2 & U3).
    set (m := match l_addr s with None => match ip with Some a => _ | None => _ end | Some _ => _ end).
    destruct m as [o1 s1] eqn:M.
    assert (HH : exists a', s1 = mk true (l_fd s) (l_reg s) a' (ac :: k s) /\ (o1 = [] \/ exists b, o1 = [LocalIp b])).
    { subst m. destruct (l_addr s); [|destruct ip]; injection M as <- <-; eexists; (split; [reflexivity|]); [now left|right; eauto|now left]. }
    clear M m. destruct HH as (a' & -> & O1).
    set (g1 := G (g_dead g) (g_lst g) (g_reg g) (Some ac) false (g_mine g) (g_watch g)).
    assert (J1 : judge g (Accepted ac :: o1 ++ [CbStart ac]) = Fine g1).
    { cbn. rewrite D, RG, PN, US. assert (isN (l_fd s) = false) as -> by (rewrite RGB in RB; now destruct (isN (l_fd s))). cbn. destruct O1 as [-> | [b ->]]; cbn; rewrite Z.eqb_refl; unfold g1; now rewrite ?D, ?RG. }
    assert (H1 : R (mk true (l_fd s) (l_reg s) a' (ac :: k s)) g1).
    { constructor; cbn; auto.
      - intros f. rewrite K, !used_iff. cbn. rewrite PN. split; [intros [E|[E|[E|E]]]|intros [E|[E|E]]]; subst; auto; try easy. injection E as ->. auto.
      - intros f E. destruct (D1 _ E). split; [|easy]. congruence.
      - intros f E. injection E as <-. easy.
      - intros f [<- | I]; auto.
      - intros f I. destruct (W _ I); [congruence|auto]. }
    pose proof (acts_good cb _ g1 H1 eq_refl) as A. destruct (acts _ cb) as [o2 s2]. destruct A as [A|(s3 & g3 & J3 & E3 & H3 & Q1 & Q2)]; cbn [fst snd] in *.
    + left. assert (JJ : forall t, judge g ([Accepted ac] ++ o1 ++ [CbStart ac] ++ o2 ++ t) = UserFault).
      { intros t. replace ([Accepted ac] ++ o1 ++ [CbStart ac] ++ o2 ++ t) with ((Accepted ac :: o1 ++ [CbStart ac]) ++ o2 ++ t) by (cbn; now rewrite <- app_assoc).
        now rewrite judge_app, J1, judge_app, A. }
      destruct s2; [destruct (ret <? 0)|]; cbn [fst]; [apply JJ|apply JJ|]. specialize (JJ []). now rewrite app_nil_r in JJ.
    + subst s2. assert (JJ : forall t, judge g ([Accepted ac] ++ o1 ++ [CbStart ac] ++ o2 ++ t) = judge g3 t).
      { intros t. replace ([Accepted ac] ++ o1 ++ [CbStart ac] ++ o2 ++ t) with ((Accepted ac :: o1 ++ [CbStart ac]) ++ o2 ++ t) by (cbn; now rewrite <- app_assoc).
        now rewrite judge_app, J1, judge_app, J3. }
      pose proof H3 as [D' L' RG' RB' LV' K' D1' D2' PS' W']. destruct (Z.ltb_spec ret 0) as [LR|GR]; cbn [fst].
      * destruct (oeq (g_pend g3) ac && negb (inb ac (g_watch g3))) eqn:RJ.
        2:{ left. cbn [fst]. rewrite JJ. cbn. assert (ret <? 0 = true) as -> by now apply Z.ltb_lt. now rewrite RJ. }
        right. exists (mk (l_alive s3) (l_fd s3) (l_reg s3) (l_addr s3) (drop ac (k s3))), (G (g_dead g3) (g_lst g3) (g_reg g3) None false (g_mine g3) (g_watch g3)). cbn [fst snd]. rewrite JJ.
        pose proof RJ as RJ'. apply andb_true_iff in RJ' as [PE NW]. split; [|split; [reflexivity|]].
        { cbn. assert (ret <? 0 = true) as -> by now apply Z.ltb_lt. rewrite RJ. cbn. rewrite PE. cbn.
          assert (oeq (g_lst g3) ac = false) as ->; [|reflexivity]. apply not_true_is_false. intros X. apply oeq_eq in X, PE. now destruct (D1' _ X). }
        apply oeq_eq in PE. split; [|split; [easy|now right]]. constructor; cbn; auto.
        -- intros h. rewrite drop_In, K', !used_iff. cbn. split; [intros [[E|[E|E]] N]|intros [E|[E|E]]]; auto; try easy; [congruence| |].
           ++ split; [auto|]. intros ->. now destruct (D1' _ E).
           ++ split; [auto|]. intros ->. now apply (D2' _ PE).
        -- intros h E. destruct (D1' _ E). split; auto. easy.
        -- easy.
        -- intros h I. apply drop_In in I. now apply PS'.
        -- intros h I. right. destruct (W' _ I) as [E|E]; [|easy]. exfalso. assert (h = ac) by congruence. subst h. apply inb_In in I. rewrite I in NW. discriminate NW.
      * assert (ret <? 0 = false) as RE by (apply Z.ltb_ge; lia). destruct (g_pend g3) as [h|] eqn:PE.
        -- assert (h = ac) as -> by (cbn in Q2; destruct Q2; congruence).
           right. eexists s3, (G (g_dead g3) (g_lst g3) (g_reg g3) None false (ac :: g_mine g3) (g_watch g3)). cbn [fst snd]. rewrite JJ. split; [|split; [reflexivity|split; [|split; [easy|now right]]]].
           { cbn. rewrite RE, PE, Z.eqb_refl. reflexivity. }
           constructor; cbn; auto.
           ++ intros f. rewrite K', !used_iff. cbn. rewrite PE. split; [intros [E|[E|E]]|intros [E|[E|[E|E]]]]; subst; auto; [injection E as ->; auto|easy].
           ++ intros f E. destruct (D1' _ E) as [X Y]. split; [easy|]. intros [-> | I]; auto.
           ++ easy.
           ++ intros f I. right. destruct (W' _ I) as [E|E]; [left; congruence|auto].
        -- right. exists s3, g3. cbn [fst snd]. rewrite JJ. split; [|split; [reflexivity|split; [exact H3|split; [easy|now right]]]]. cbn. rewrite RE, PE. cbn. rewrite PE. reflexivity.
Qed.

Lemma run_good ps : forall s g, R s g -> g_pend g = None -> g_ref g = false -> good s g (run s ps).
Proof.
  induction ps as [|p ps IH]; intros s g H PN RF; cbn [run].
  - right. exists s, g. cbn. split; [easy|]. split; [easy|]. split; [easy|]. split; auto.
  - pose proof (step_good s g p H PN RF) as A. destruct (step s p) as [o [s1|]].
    + destruct A as [A|(s' & g' & J & E & H' & P1 & P2)]; cbn [fst snd] in *.
      * destruct (run s1 ps) as [o' s2]. left. cbn [fst]. now rewrite judge_app, A.
      * injection E as <-. assert (PN' : g_pend g' = None) by (destruct P2; congruence). specialize (IH s1 g' H' PN' P1). destruct (run s1 ps) as [o' s2]. destruct IH as [B|(s3 & g3 & J3 & E3 & H3 & Q1 & Q2)]; cbn [fst snd] in *.
        -- left. cbn [fst]. now rewrite judge_app, J.
        -- right. exists s3, g3. cbn [fst snd]. rewrite judge_app, J. split; [easy|]. split; [easy|]. split; [easy|]. split; [easy|]. destruct Q2 as [-> | ->]; [rewrite PN'|]; now right.
    + destruct A as [A|(s' & g' & J & E & _)]; [left; exact A|discriminate].
Qed.
Lemma R0 a : R (link_create a) game0.
Proof. constructor; cbn; easy. Qed.
