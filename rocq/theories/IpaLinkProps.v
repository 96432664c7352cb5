(** C72: the listening IPA link. *)
From Coq Require Import List Bool ZArith Lia.
From Verif Require Import Base IpaLinkModel IpaLinkSpec IpaLinkProofs.
Import ListNotations.
Open Scope Z_scope.

Lemma reach a ps o s : run (link_create a) ps = (o, s) ->
  judge game0 o = UserFault \/ exists s' g, judge game0 o = Fine g /\ s = Some s' /\ R s' g /\ g_pend g = None /\ g_ref g = false.
Proof.
  intros E. pose proof (run_good ps (link_create a) game0 (R0 a) eq_refl eq_refl) as A. rewrite E in A. destruct A as [A|(s' & g & J & S1 & H & P1 & P2)]; [now left|].
  right. exists s', g. cbn in *. split; [easy|]. split; [easy|]. split; [easy|]. split; [|easy]. destruct P2; congruence.
Qed.

(** whatever the application, the peers and the kernel do, the library is never the first to
    do something wrong: it listens with at most one socket, watched exactly while it is open,
    closes nothing it does not own, and leaves no accepted descriptor without an owner *)
Theorem C72_never_at_fault a ps o s : run (link_create a) ps = (o, s) -> judge game0 o <> LibFault.
Proof. intros E. destruct (reach _ _ _ _ E) as [-> |(s' & g & -> & _)]; easy. Qed.
(** and as long as the application is not at fault, no freed memory is touched, also when
    accept_cb closes and destroys the listener *)
Theorem C72_no_dangling a ps o s : run (link_create a) ps = (o, s) -> judge game0 o <> UserFault -> exists s', s = Some s'.
Proof. intros E N. destruct (reach _ _ _ _ E) as [X|(s' & g & _ & -> & _)]; [congruence|eauto]. Qed.
(** then the open descriptors are those of the listener and those of the program, without
    overlap *)
Theorem C72_descriptors a ps o s g : run (link_create a) ps = (o, Some s) -> judge game0 o = Fine g ->
  g_pend g = None /\ (forall f, In f (k s) <-> g_lst g = Some f \/ In f (g_mine g)) /\ (forall f, g_lst g = Some f -> ~ In f (g_mine g)).
Proof.
  intros E J. destruct (reach _ _ _ _ E) as [X|(s' & g' & J' & S1 & H & P & _)]; [congruence|]. rewrite J in J'. injection J' as <-. injection S1 as <-.
  split; [easy|]. split; [|intros f F; now apply (r_d1 _ _ H f F)]. intros f. rewrite (r_k _ _ H), used_iff, P. split; [intros [X|[X|X]]; auto; discriminate|tauto].
Qed.

(** each accepted connection is offered to the application once, in order *)
Lemma acts_offer l : forall s, offered (fst (acts s l)) = [] /\ accepted (fst (acts s l)) = [].
Proof.
  assert (OA : forall s a, offered (fst (do_act s a)) = [] /\ accepted (fst (do_act s a)) = []).
  { intros s a. destruct a; cbn [do_act]; unfold link_open, link_close, link_destroy.
    - destruct (inb sock (k s)), (negb (l_alive s)), (sock <? 0), (negb reg); easy.
    - destruct (negb (l_alive s)), (l_fd s); easy.
    - destruct (negb _); easy.
    - destruct ((f <? 0) || inb f (k s)); easy.
    - easy.
    - easy. }
  induction l as [|a l IH]; intros s; cbn [acts]; [easy|]. specialize (OA s a). destruct (do_act s a) as [o [s1|]]; [|exact OA].
  specialize (IH s1). destruct (acts s1 l) as [o' s2]. cbn [fst] in *. unfold offered, accepted in *. rewrite !flat_map_app. destruct OA as [-> ->], IH as [-> ->]. easy.
Qed.
Lemma offered_app a b : offered (a ++ b) = offered a ++ offered b. Proof. apply flat_map_app. Qed.
Lemma accepted_app a b : accepted (a ++ b) = accepted a ++ accepted b. Proof. apply flat_map_app. Qed.
Theorem C72_offered : forall ps s, offered (fst (run s ps)) = accepted (fst (run s ps)).
Proof.
  assert (ST : forall s p, offered (fst (step s p)) = accepted (fst (step s p))).
  { intros s p. destruct p as [a|ac ip cb ret]; cbn [step].
    - destruct (acts_offer [a] s) as [E1 E2]. cbn [acts] in E1, E2. destruct (do_act s a) as [o [s1|]]; cbn [fst] in *; [rewrite app_nil_r in E1, E2|]; congruence.
    - destruct (l_reg s && _); [|easy]. unfold server_fd_cb. destruct (negb _); [easy|]. destruct (ac <? 0); [easy|].
      set (m := match l_addr s with None => match ip with Some a => _ | None => _ end | Some _ => _ end).
      assert (M : offered (fst m) = [] /\ accepted (fst m) = []) by (subst m; destruct (l_addr s), ip; easy). destruct m as [o1 s1]. cbn [fst] in M.
      destruct (acts_offer cb s1) as [E1 E2]. destruct (acts s1 cb) as [o2 [s2|]]; cbn [fst] in E1, E2; [destruct (ret <? 0)|]; cbn [fst];
        rewrite !offered_app, !accepted_app, E1, E2; destruct M as [-> ->]; reflexivity. }
  induction ps as [|p ps IH]; intros s; cbn [run]; [easy|]. specialize (ST s p). destruct (step s p) as [o [s1|]]; [|exact ST].
  specialize (IH s1). destruct (run s1 ps) as [o' s2]. cbn [fst] in *. now rewrite offered_app, accepted_app, ST, IH.
Qed.

(** every listening socket is bound to the configured address; without one, to any address,
    or, once a connection was accepted, to the address that one came in on *)
Lemma bound_app a x y : bound_right a (x ++ y) <-> bound_right a x /\ bound_right (address a x) y.
Proof.
  revert a; induction x as [|e x IH]; intros a; cbn [app bound_right address]; [tauto|]. destruct e; try apply IH.
  - rewrite IH. tauto.
  - split; [intros [-> B]|intros [[-> B] C]].
    + apply IH in B. cbn. tauto.
    + split; [easy|]. apply IH. cbn in C. tauto.
Qed.
Lemma address_app a x y : address a (x ++ y) = address (address a x) y.
Proof. revert a; induction x as [|e x IH]; intros a; [reflexivity|]. destruct e; apply IH. Qed.
Lemma bnd_act s a : bound_right (l_addr s) (fst (do_act s a)) /\ match snd (do_act s a) with Some s' => address (l_addr s) (fst (do_act s a)) = l_addr s' | None => True end.
Proof.
  destruct a; cbn [do_act]; unfold link_open, link_close, link_destroy.
  - destruct (inb sock (k s)), (negb (l_alive s)), (sock <? 0), (negb reg); cbn; auto.
  - destruct (negb (l_alive s)), (l_fd s); cbn; auto.
  - destruct (negb _); cbn; auto.
  - destruct ((f <? 0) || inb f (k s)); cbn; auto.
  - cbn; auto.
  - cbn; auto.
Qed.
Lemma bnd_acts l : forall s, bound_right (l_addr s) (fst (acts s l)) /\ match snd (acts s l) with Some s' => address (l_addr s) (fst (acts s l)) = l_addr s' | None => True end.
Proof.
  induction l as [|a l IH]; intros s; cbn [acts]; [cbn; auto|]. pose proof (bnd_act s a) as A. destruct (do_act s a) as [o [s1|]]; [|exact A]. cbn [fst snd] in A. destruct A as [A1 A2].
  specialize (IH s1). destruct (acts s1 l) as [o' s2]. cbn [fst snd] in *. destruct IH as [B1 B2]. rewrite bound_app, address_app, A2. auto.
Qed.
Lemma bnd_step s p : bound_right (l_addr s) (fst (step s p)) /\ match snd (step s p) with Some s' => address (l_addr s) (fst (step s p)) = l_addr s' | None => True end.
Proof.
  destruct p as [a|ac ip cb ret]; cbn [step]; [apply bnd_act|]. destruct (l_reg s && _); [|cbn; auto].
  unfold server_fd_cb. destruct (negb _); [cbn; auto|]. destruct (ac <? 0); [cbn; auto|].
  set (m := match l_addr s with None => match ip with Some a => _ | None => _ end | Some _ => _ end).
  assert (M : bound_right (l_addr s) (fst m) /\ address (l_addr s) (fst m) = l_addr (snd m)) by (subst m; destruct (l_addr s) eqn:E, ip; cbn; auto).
  destruct m as [o1 s1]. cbn [fst snd] in M. destruct M as [M1 M2]. pose proof (bnd_acts cb s1) as B. destruct (acts s1 cb) as [o2 [s2|]]; cbn [fst snd] in B; destruct B as [B1 B2]; [destruct (ret <? 0)|]; cbn [fst snd];
    repeat rewrite bound_app; repeat rewrite address_app; change (address (l_addr s) [Accepted ac]) with (l_addr s); rewrite M2; change (address (l_addr s1) [CbStart ac]) with (l_addr s1); rewrite ?B2; cbn [bound_right address l_addr]; auto 10.
Qed.
Lemma bnd_run ps : forall s, bound_right (l_addr s) (fst (run s ps)) /\ match snd (run s ps) with Some s' => address (l_addr s) (fst (run s ps)) = l_addr s' | None => True end.
Proof.
  induction ps as [|p ps IH]; intros s; cbn [run]; [cbn; auto|]. pose proof (bnd_step s p) as A. destruct (step s p) as [o [s1|]]; [|exact A]. cbn [fst snd] in A. destruct A as [A1 A2].
  specialize (IH s1). destruct (run s1 ps) as [o' s2]. cbn [fst snd] in *. destruct IH as [B1 B2]. rewrite bound_app, address_app, A2. auto.
Qed.
Theorem C72_address a ps : bound_right a (fst (run (link_create a) ps)).
Proof. exact (proj1 (bnd_run ps (link_create a))). Qed.

(** a link that exists and does not listen can be opened, however often that failed before;
    a failure says so and leaves no socket behind *)
Theorem C72_open a ps o s g sock reg : run (link_create a) ps = (o, Some s) -> judge game0 o = Fine g ->
  g_dead g = false -> g_lst g = None -> ~ In sock (k s) ->
  exists s', step s (Do (AOpen sock reg)) = (if sock <? 0 then [CallOpen; RetOpen sock] else if reg then [CallOpen; Listen sock (address a o); Reg sock; RetOpen 0]
      else [CallOpen; Listen sock (address a o); LibClose sock; RetOpen (-5)], Some s') /\
    (k s' = if (sock <? 0) || negb reg then k s else sock :: k s) /\
    exists g', judge game0 (o ++ fst (step s (Do (AOpen sock reg)))) = Fine g' /\ g_lst g' = (if (sock <? 0) || negb reg then None else Some sock).
Proof.
  intros E J DD LL NI. destruct (reach _ _ _ _ E) as [X|(s' & g' & J' & S1 & H & P & RF)]; [congruence|]. rewrite J in J'. injection J' as <-. injection S1 as <-.
  pose proof (bnd_run ps (link_create a)) as [_ AD]. rewrite E in AD. cbn [fst snd link_create l_addr] in AD. rewrite AD.
  rewrite judge_app, J. pose proof (act_good s g (AOpen sock reg) H RF) as A.
  cbn [step do_act] in *. assert (inb sock (k s) = false) as IN by (apply not_true_is_false; rewrite inb_In; easy). rewrite IN in *.
  assert (l_alive s = true) as AL by (pose proof (r_dead _ _ H); destruct (l_alive s); cbn in *; congruence). rewrite AL in *. cbn [negb] in *.
  assert (C : judge1 g CallOpen = Fine g) by (cbn; now rewrite DD, LL).
  unfold link_open in *. destruct (Z.ltb_spec sock 0) as [LT|GE]; [|destruct reg]; cbn [negb orb fst snd] in *; eexists; (split; [reflexivity|]); (split; [reflexivity|]);
    (destruct A as [A|(s2 & g2 & J2 & S2 & H2 & _)]; [exfalso; cbn [fst judge] in A; rewrite C in A|exists g2; cbn [fst snd] in J2, S2; split; [exact J2|rewrite (r_lst _ _ H2); injection S2 as <-; cbn [l_fd]; try reflexivity]]).
  - cbn in A. assert (sock =? 0 = false) as Z0 by (apply Z.eqb_neq; lia). assert (sock <? 0 = true) as Z1 by (apply Z.ltb_lt; lia). rewrite Z0, Z1, LL, (r_reg _ _ H), <- (r_lst _ _ H), LL in A. discriminate A.
  - pose proof (r_lst _ _ H). congruence.
  - cbn in A. rewrite (notused _ _ _ H IN), LL in A. cbn in A. rewrite Z.eqb_refl, (r_reg _ _ H), <- (r_lst _ _ H), LL in A. cbn in A. rewrite Z.eqb_refl in A. discriminate A.
  - cbn in A. rewrite (notused _ _ _ H IN), LL in A. cbn in A. rewrite Z.eqb_refl, (r_reg _ _ H), <- (r_lst _ _ H), LL in A. discriminate A.
Qed.
(** closing a link that exists always leaves it without a socket *)
Theorem C72_close a ps o s g : run (link_create a) ps = (o, Some s) -> judge game0 o = Fine g -> g_dead g = false ->
  exists s' g', step s (Do AClose) = (match g_lst g with Some f => [CallClose; Unreg f; LibClose f; RetClose] | None => [CallClose; RetClose] end, Some s') /\
    judge game0 (o ++ fst (step s (Do AClose))) = Fine g' /\ g_lst g' = None /\ g_mine g' = g_mine g /\ (forall f, In f (k s') <-> In f (g_mine g)).
Proof.
  intros E J DD. destruct (reach _ _ _ _ E) as [X|(s' & g' & J' & S1 & H & P & RF)]; [congruence|]. rewrite J in J'. injection J' as <-. injection S1 as <-.
  rewrite judge_app, J. cbn [step do_act].
  assert (l_alive s = true) as AL by (pose proof (r_dead _ _ H); destruct (l_alive s); cbn in *; congruence). rewrite AL. cbn [negb].
  unfold link_close. pose proof (r_lst _ _ H) as L. pose proof (r_reg _ _ H) as RG. destruct (l_fd s) as [f|]; rewrite L; cbn [fst].
  - exists (mk (l_alive s) None false (l_addr s) (drop f (k s))), (G (g_dead g) None None (g_pend g) (g_ref g) (g_mine g) (g_watch g)). split; [reflexivity|]. split.
    { cbn. rewrite DD. cbn. rewrite RG. cbn. rewrite Z.eqb_refl. cbn. rewrite L. cbn. rewrite Z.eqb_refl. cbn. now rewrite DD. }
    cbn. split; [easy|]. split; [easy|].
    intros h. rewrite drop_In, (r_k _ _ H), used_iff, L, P. destruct (r_d1 _ _ H f L). split; [intros [[X|[X|X]] N]; congruence || easy|]. intros I. split; [tauto|]. congruence.
  - exists s, g. split; [reflexivity|]. split.
    { cbn. rewrite DD. cbn. rewrite L, RG. reflexivity. }
    cbn. split; [easy|]. split; [easy|].
    intros h. rewrite (r_k _ _ H), used_iff, L, P. split; [intros [X|[X|X]]; congruence || easy|tauto].
Qed.
(** connections are taken while the link listens: the application is offered the new
    descriptor; refused, it is closed; else it is the application's *)
Theorem C72_accept a ps o s g ac ip ret f : run (link_create a) ps = (o, Some s) -> judge game0 o = Fine g -> g_lst g = Some f ->
  0 <= ac -> ~ In ac (k s) ->
  exists o' s' g', step s (Readable ac ip [] ret) = (o', Some s') /\ offered o' = [ac] /\ judge game0 (o ++ o') = Fine g' /\ g_lst g' = Some f /\
    (if ret <? 0 then In (LibClose ac) o' /\ (forall h, In h (k s') <-> In h (k s)) else ~ In (LibClose ac) o' /\ g_mine g' = ac :: g_mine g).
Proof.
  intros E J LL GE NI. destruct (reach _ _ _ _ E) as [X|(s' & g' & J' & S1 & H & P & RF)]; [congruence|]. rewrite J in J'. injection J' as <-. injection S1 as <-.
  assert (inb ac (k s) = false) as IN by (apply not_true_is_false; rewrite inb_In; easy).
  pose proof (r_lst _ _ H) as L. rewrite LL in L. pose proof (r_regb _ _ H) as RB. rewrite <- L in RB. cbn in RB.
  assert (l_alive s = true) as AL by (pose proof (r_live _ _ H) as Z; destruct (l_alive s); [easy|]; rewrite Z in L by easy; discriminate).
  pose proof (r_reg _ _ H) as RG. rewrite <- L in RG. pose proof (r_dead _ _ H) as DD. rewrite AL in DD. cbn in DD.
  assert (NW : inb ac (g_watch g) = false). { apply not_true_is_false. rewrite inb_In. intros I. apply NI, (r_k _ _ H), used_iff. destruct (r_w _ _ H _ I); auto. } unfold inb in NW.
  pose proof (notused _ _ _ H IN) as US. pose proof (used_false _ _ US) as (U1 & _). assert (oeq (g_lst g) ac = false) as LO by (apply not_true_is_false; rewrite oeq_eq; easy).
  cbn [step]. rewrite RB, IN. cbn [negb andb]. unfold server_fd_cb. rewrite AL. cbn [negb]. assert (ac <? 0 = false) as -> by (apply Z.ltb_ge; lia).
  set (m := match l_addr s with None => match ip with Some a => _ | None => _ end | Some _ => _ end).
  assert (M : (fst m = [] \/ exists b, fst m = [LocalIp b]) /\ k (snd m) = ac :: k s) by (subst m; destruct (l_addr s), ip; cbn; eauto). destruct m as [o1 s1]. cbn [fst snd] in M. destruct M as [M1 M2].
  cbn [acts]. destruct (ret <? 0) eqn:RT; do 3 eexists; (split; [reflexivity|]).
  - split; [destruct M1 as [-> |[b ->]]; reflexivity|]. rewrite judge_app, J. split; [|split; [|split]].
    + destruct M1 as [-> |[b ->]]; cbn; rewrite DD, RG, US, P; cbn; rewrite Z.eqb_refl; cbn; rewrite RT, Z.eqb_refl, NW; cbn; rewrite LO, Z.eqb_refl; cbn; reflexivity.
    + exact LL.
    + destruct M1 as [-> |[b ->]]; cbn; auto 10.
    + cbn. rewrite M2. intros h. rewrite drop_In. cbn. split; [intros [[X|X] N]; congruence || easy|]. intros I. split; [auto|]. congruence.
  - split; [destruct M1 as [-> |[b ->]]; reflexivity|]. rewrite judge_app, J. split; [|split; [|split]].
    + destruct M1 as [-> |[b ->]]; cbn; rewrite DD, RG, US, P; cbn; rewrite Z.eqb_refl; cbn; rewrite RT, Z.eqb_refl; cbn; reflexivity.
    + exact LL.
    + destruct M1 as [-> |[b ->]]; cbn; intuition discriminate.
    + reflexivity.
Qed.

(** not done by the code *)
(** opening a link that listens is not refused, unlike for clients: the first socket is lost *)
Theorem C72_reopen_refuted : forall f h, 0 <= f -> 0 <= h -> f <> h ->
  match run (link_create None) [Do (AOpen f true); Do (AOpen h true); Do AClose; Do ADestroy] with
  | (o, Some s) => In (RetOpen 0) o /\ l_fd s = None /\ k s = [f] | _ => False end.
Proof.
  intros f h F H N. cbn [run step do_act]. cbn [link_create k inb existsb l_alive negb]. unfold link_open. cbn [l_addr l_alive k]. assert (f <? 0 = false) as -> by (apply Z.ltb_ge; lia). cbn [negb].
  cbn [k inb existsb l_alive negb]. destruct (Z.eqb_spec h f); [congruence|]. cbn [orb]. assert (h <? 0 = false) as -> by (apply Z.ltb_ge; lia). cbn [negb].
  cbn [k inb existsb l_alive negb link_close l_fd]. cbn. rewrite Z.eqb_refl. destruct (Z.eqb_spec f h); [congruence|]. cbn. auto 10.
Qed.
(** a link made for any address serves only one after a connection came in and it is reopened *)
Theorem C72_any_address_refuted : forall ip f h, 0 <= f -> 0 <= h -> f <> h ->
  match run (link_create None) [Do (AOpen f true); Readable h (Some ip) [] 0; Do AClose; Do (AOpen f true)] with
  | (o, Some s) => In (Listen f None) o /\ In (Listen f (Some ip)) o | _ => False end.
Proof.
  intros ip f h F H N. assert (f <? 0 = false) as F0 by (apply Z.ltb_ge; lia). assert (h <? 0 = false) as H0 by (apply Z.ltb_ge; lia). assert (h =? f = false) as E1 by (apply Z.eqb_neq; lia). assert (f =? h = false) as E2 by (apply Z.eqb_neq; lia).
  cbn. unfold link_open. rewrite F0. cbn. rewrite E1. cbn. unfold server_fd_cb. cbn. rewrite H0. cbn. rewrite E1, Z.eqb_refl. cbn. rewrite E2. cbn. unfold link_open. cbn. rewrite ?F0. cbn. auto 20.
Qed.

(** ** the accept callback of the IPA proxy *)
(** it plays by the rules exactly when the connection to the destination could be started, or
    the one from the source could not be set up *)
Theorem C72_proxy a ps o s g ac ip alloc src dst f : run (link_create a) ps = (o, Some s) -> judge game0 o = Fine g -> g_lst g = Some f ->
  0 <= ac -> ~ In ac (k s) ->
  (if alloc && (negb src || dst) then exists g', judge game0 (o ++ fst (step s (Readable ac ip (fst (proxy_cb ac alloc src dst)) (snd (proxy_cb ac alloc src dst))))) = Fine g' /\ g_mine g' = (if src then [ac] else []) ++ g_mine g
   else judge game0 (o ++ fst (step s (Readable ac ip (fst (proxy_cb ac alloc src dst)) (snd (proxy_cb ac alloc src dst))))) = UserFault).
Proof.
  intros E J LL GE NI. destruct (reach _ _ _ _ E) as [X|(s' & g' & J' & S1 & H & P & RF)]; [congruence|]. rewrite J in J'. injection J' as <-. injection S1 as <-.
  assert (inb ac (k s) = false) as IN by (apply not_true_is_false; rewrite inb_In; easy).
  pose proof (r_lst _ _ H) as L. rewrite LL in L. pose proof (r_regb _ _ H) as RB. rewrite <- L in RB. cbn in RB.
  assert (l_alive s = true) as AL by (pose proof (r_live _ _ H) as Z; destruct (l_alive s); [easy|]; rewrite Z in L by easy; discriminate).
  pose proof (r_reg _ _ H) as RG. rewrite <- L in RG. pose proof (r_dead _ _ H) as DD. rewrite AL in DD. cbn in DD.
  assert (NW : inb ac (g_watch g) = false). { apply not_true_is_false. rewrite inb_In. intros I. apply NI, (r_k _ _ H), used_iff. destruct (r_w _ _ H _ I); auto. } unfold inb in NW.
  pose proof (notused _ _ _ H IN) as US. pose proof (used_false _ _ US) as (U1 & _). assert (oeq (g_lst g) ac = false) as LO by (apply not_true_is_false; rewrite oeq_eq; easy).
  cbn [step]. rewrite RB, IN. cbn [negb andb]. unfold server_fd_cb. rewrite AL. cbn [negb]. assert (ac <? 0 = false) as -> by (apply Z.ltb_ge; lia).
  set (m := match l_addr s with None => match ip with Some a => _ | None => _ end | Some _ => _ end).
  assert (M : (fst m = [] \/ exists b, fst m = [LocalIp b])) by (subst m; destruct (l_addr s), ip; cbn; eauto). destruct m as [o1 s1]. cbn [fst snd] in M.
  destruct alloc; [destruct src; [destruct dst|]|]; cbn [proxy_cb negb andb orb fst snd acts do_act app].
  - exists (G (g_dead g) (g_lst g) (g_reg g) None false (ac :: g_mine g) (ac :: g_watch g)). split; [|reflexivity]. rewrite judge_app, J. destruct M as [-> | [b ->]]; cbn; rewrite DD, RG, US, P; cbn; rewrite Z.eqb_refl; cbn; rewrite Z.eqb_refl; cbn; rewrite Z.eqb_refl; cbn; now rewrite ?DD, ?RG.
  - rewrite judge_app, J. destruct M as [-> | [b ->]]; cbn; rewrite DD, RG, US, P; cbn; rewrite Z.eqb_refl; cbn; rewrite Z.eqb_refl; cbn; rewrite Z.eqb_refl; cbn; reflexivity.
  - exists (G (g_dead g) (g_lst g) (g_reg g) None false (g_mine g) (g_watch g)). split; [|reflexivity]. rewrite judge_app, J. destruct M as [-> | [b ->]]; cbn; rewrite DD, RG, US, P; cbn; rewrite Z.eqb_refl; cbn; rewrite Z.eqb_refl, NW; cbn; rewrite LO, Z.eqb_refl; cbn; now rewrite ?DD, ?RG.
  - rewrite judge_app, J. destruct M as [-> | [b ->]]; cbn; rewrite DD, RG, US, P; cbn; rewrite Z.eqb_refl; cbn; rewrite Z.eqb_refl; cbn; reflexivity.
Qed.

(** otherwise the descriptor is closed by the listener while the dead connection still
    watches it; the next connection gets the same number and is watched by both *)
Theorem C72_proxy_refuted : forall f p, 0 <= f -> 0 <= p -> f <> p ->
  let fail := proxy_cb p true true false in let works := proxy_cb p true true true in
  match run (link_create (Some [1])) [Do (AOpen f true); Readable p None (fst fail) (snd fail); Readable p None (fst works) (snd works)] with
  | (o, Some s) => filter (fun x => match x with Accepted _ | UserReg _ | UserClose _ | LibClose _ => true | _ => false end) o
                   = [Accepted p; UserReg p; LibClose p; Accepted p; UserReg p]
  | _ => False end.
Proof.
  intros f p F P N fail works. assert (f <? 0 = false) as F0 by (apply Z.ltb_ge; lia). assert (p <? 0 = false) as P0 by (apply Z.ltb_ge; lia).
  assert (p =? f = false) as E1 by (apply Z.eqb_neq; lia). assert (f =? p = false) as E2 by (apply Z.eqb_neq; lia).
  cbn. unfold link_open. rewrite F0. cbn. rewrite E1. cbn. unfold server_fd_cb. cbn. rewrite P0. cbn. rewrite Z.eqb_refl, E2. cbn. rewrite E1. cbn. reflexivity.
Qed.

(** a history without fault: a failed attempt, a registration failure, a kept, a closed and a
    refused connection, and one whose callback closes and destroys the listener *)
Example C72_example :
  match run (link_create None) [Do (AOpen (-98) true); Do (AOpen 3 false); Do (AOpen 3 true); Readable 4 (Some [10; 0; 0; 1]) [UReg 4] 0; Readable 5 None [UClose 5] 0;
      Readable 5 None [] (-1); Do AClose; Do (AOpen 3 true); Do (UClose 4); Readable 4 None [AClose; ADestroy] (-1); Do (UOpen 3)] with
  | (o, Some s) => judge game0 o = Fine (G true None None None false [3] []) /\ offered o = [4; 5; 5; 4] /\ k s = [3] /\ l_addr s = Some [10; 0; 0; 1]
                   /\ flat_map (fun x => match x with RetOpen z => [z] | _ => [] end) o = [-98; -5; 0; 0]
  | _ => False end.
Proof. vm_compute. easy. Qed.
