(** C73: putting ip.access lines into service at the BSC. *)
From Coq Require Import List Bool ZArith Lia String.
From Verif Require Import Base VtyModel VtySpec VtyProofs VtyProps IpaStartModel.
Import ListNotations.
Open Scope string_scope.
Open Scope Z_scope.

(** ** TCP keepalive *)
Definition sconfigurable (v : sev) : Prop := match v with Cfg v => configurable v | _ => True end.
Lemma free_ok e s n : ok e (cfg s) -> ok e (cfg (line_free s n)).
Proof.
  intros [A B C D1 D2 D3 D4]. constructor; cbn; auto.
  - apply Forall_forall. intros x I. apply filter_In in I. rewrite Forall_forall in A. now apply A.
  - revert B. generalize (lines (cfg s)). clear. induction l as [|x l IH]; [easy|]. cbn. intros N. apply NoDup_cons_iff in N as [N1 N2]. destruct (negb _); [|now apply IH]. cbn. constructor; [|now apply IH].
    intros I. apply N1. apply in_map_iff in I as (y & <- & I). apply filter_In in I. apply in_map_iff. exists y. easy.
Qed.
Lemma update_cfg s n r a b : cfg (line_update s n r a b) = cfg s.
Proof. unfold line_update, srv_open. destruct r; try reflexivity. destruct (zin n (inits s)); [reflexivity|]. destruct (a && _); [|reflexivity]. cbn. destruct (b && _); reflexivity. Qed.
Lemma accept_cfg s i s' : accept s i = Some s' -> cfg s' = cfg s /\ lsns s' = lsns s /\ inits s' = inits s.
Proof.
  unfold accept. destruct (nth_error _ _) as [x|]; [|intros H; now injection H as <-]. destruct (negb _); [discriminate|]. destruct (find_line _ _); [|discriminate]. intros H. now injection H as <-.
Qed.
Lemma srun_ok e k vs : forall s s', ok e (cfg s) -> Forall sconfigurable vs -> srun e k s vs = Some s' -> ok e (cfg s').
Proof.
  induction vs as [|v vs IH]; intros s s' O F H; cbn [srun] in H; [now injection H as <-|]. destruct (sstep e k s v) as [s1|] eqn:E; [|discriminate H]. apply (IH s1 s'); [|exact (Forall_inv_tail F)|exact H].
  pose proof (Forall_inv F) as C. destruct v as [v|n r a b|n|i]; cbn [sstep] in E.
  - destruct (step e k (cfg s) v) as [c bb|] eqn:S1; [|discriminate E]. injection E as <-. cbn. exact (step_ok e k _ _ _ _ O C S1).
  - destruct (is_ipa s n); injection E as <-; [|exact O]. now rewrite update_cfg.
  - injection E as <-. now apply free_ok.
  - apply accept_cfg in E as (-> & _). exact O.
Qed.
(** what a socket can get: nothing but TCP_NODELAY when keepalive is off; else positive times,
    and a user timeout that fits an int and is never shorter than the whole probing *)
Theorem C73_keepalive e k vs s n l : srun e k sst_init vs = Some s -> Forall sconfigurable vs -> find_line n (cfg s) = Some l ->
  update_fd_settings l = [TCP_NODELAY 1] /\ l_probes l = 0 \/
  l_probes l <> 0 /\ exists idle intvl cnt u, update_fd_settings l = [SO_KEEPALIVE 1; TCP_KEEPIDLE idle; TCP_KEEPINTVL intvl; TCP_KEEPCNT cnt; TCP_USER_TIMEOUT u; TCP_NODELAY 1] /\
    1 <= idle <= 300 /\ 1 <= intvl <= 300 /\ 1 <= cnt <= 20 /\ 1000 * (idle + cnt * intvl) <= u < 2 ^ 31 /\
    (l_idle l <> -1 -> idle = l_idle l /\ intvl = l_intvl l /\ cnt = l_probes l) /\ (l_idle l = -1 -> idle = 30 /\ intvl = 3 /\ cnt = 10).
Proof.
  intros H F FL. pose proof (srun_ok e k vs sst_init s (init_ok e) F H) as O. unfold find_line in FL. apply find_in in FL as [I _]. pose proof (proj1 (Forall_forall _ _) (o_lines _ _ O) l I) as G.
  unfold update_fd_settings. destruct (g_ka _ _ G) as [(A & B & C)|[(A & B & C)|(_ & A & B & C)]].
  - right. rewrite A, B, C. split; [lia|]. change (2 ^ 31) with 2147483648. exists 30, 3, 10, 330000. split; [reflexivity|]. repeat split; lia.
  - left. rewrite B. easy.
  - right. split; [lia|]. rewrite (proj2 (Z.eqb_neq (l_probes l) 0)), (proj2 (Z.ltb_lt 0 (l_idle l))), (proj2 (Z.ltb_lt (-1) (l_intvl l))), (proj2 (Z.ltb_lt 0 (l_probes l))) by lia.
    cbn [app]. do 4 eexists. split; [reflexivity|]. assert (l_probes l * (l_intvl l + l_idle l) <= 20 * 600) by nia. assert (l_idle l + l_probes l * l_intvl l <= l_probes l * (l_intvl l + l_idle l)) by nia.
    change (2 ^ 31) with 2147483648. split; [lia|]. split; [lia|]. split; [lia|]. split; [lia|]. split; [lia|]. lia.
Qed.
(** and it is what was configured *)
Theorem C73_configured e k s t s' i x n idle probes intvl : sstep e k s (Cfg (Typed t)) = Some s' -> step e k (cfg s) (Typed t) = Done (cfg s') true ->
  words t = ["e1_line"; num n; "keepalive"; num idle; num probes; num intvl] -> 0 <= n <= 255 -> 1 <= idle <= 300 -> 1 <= probes <= 20 -> 1 <= intvl <= 300 ->
  nth_error (lsns s') i = Some x -> n_line x = n -> n_live x = true ->
  exists s2, sstep e k s' (Conn i) = Some s2 /\
    obss s2 = (obss s' ++ [Opts n (n_oml x) [SO_KEEPALIVE 1; TCP_KEEPIDLE idle; TCP_KEEPINTVL intvl; TCP_KEEPCNT probes; TCP_USER_TIMEOUT (1000 * probes * (intvl + idle)); TCP_NODELAY 1]])%list.
Proof.
  intros S1 S2 W N X Y Z0 L NX LV. destruct (C68_sets e k (cfg s) t (cfg s') S2) as (_ & _ & _ & _ & _ & K & _). destruct (K n idle probes intvl W N X Y Z0) as (l & _ & _ & HS). unfold has in HS.
  cbn [sstep]. unfold accept. rewrite L, LV, NX, HS. cbn [negb]. eexists. split; [reflexivity|]. cbn [obss]. do 2 f_equal. unfold update_fd_settings. cbn [w_ka l_probes l_idle l_intvl].
  now rewrite (proj2 (Z.eqb_neq probes 0)), (proj2 (Z.ltb_lt 0 idle)), (proj2 (Z.ltb_lt (-1) intvl)), (proj2 (Z.ltb_lt 0 probes)) by lia.
Qed.
Theorem C73_no_keepalive e k s t s' i x n : sstep e k s (Cfg (Typed t)) = Some s' -> step e k (cfg s) (Typed t) = Done (cfg s') true ->
  words t = ["no"; "e1_line"; num n; "keepalive"] -> 0 <= n <= 255 -> nth_error (lsns s') i = Some x -> n_line x = n -> n_live x = true ->
  exists s2, sstep e k s' (Conn i) = Some s2 /\ obss s2 = (obss s' ++ [Opts n (n_oml x) [TCP_NODELAY 1]])%list.
Proof.
  intros S1 S2 W N L NX LV. destruct (C68_sets e k (cfg s) t (cfg s') S2) as (_ & _ & _ & _ & _ & _ & K & _). destruct (K n W N) as (l & _ & HS). unfold has in HS.
  cbn [sstep]. unfold accept. rewrite L, LV, NX, HS. eexists. split; reflexivity.
Qed.

(** ** Listening *)
Definition listener (n : Z) (oml : bool) (a : string) (x : lsn) : Prop := n_line x = n /\ n_oml x = oml /\ n_addr x = a.
(** a line not in service: the update makes both listening sockets, at the configured address,
    and succeeds; or it fails *)
Theorem C73_update e k s n a b : is_ipa s n = true -> ~ In n (inits s) -> exists s', sstep e k s (Update n Bsc a b) = Some s' /\ cfg s' = cfg s /\
  (obss s' = (obss s ++ [Ret n 0])%list /\ In n (inits s') /\ a = true /\ b = true /\
     (exists x y, lsns s' = (lsns s ++ [x; y])%list /\ listener n true (bound (cfg s)) x /\ listener n false (bound (cfg s)) y /\ n_live x = true /\ n_live y = true) /\
     (forall x, In x (lsns s) -> overlap (n_addr x) (bound (cfg s)) = false)
   \/ obss s' = (obss s ++ [Ret n (-5)])%list /\ inits s' = inits s /\
     (lsns s' = lsns s \/ exists x, lsns s' = (lsns s ++ [x])%list /\ listener n true (bound (cfg s)) x)).
Proof.
  intros P N. cbn [sstep]. rewrite P. eexists. split; [reflexivity|]. split; [apply update_cfg|]. unfold line_update.
  assert (zin n (inits s) = false) as -> by (apply not_true_is_false; intros E; apply existsb_exists in E as (m & I & E); apply Z.eqb_eq in E; now subst).
  unfold srv_open. destruct a; cbn [andb]; [|right; cbn; auto]. destruct (negb (busy (lsns s) true _)) eqn:B1; [|right; cbn; auto].
  destruct b; cbn [andb cfg lsns]; [|right; cbn; split; [reflexivity|]; split; [reflexivity|]; right; eexists; split; [reflexivity|easy]].
  destruct (negb (busy _ false _)) eqn:B2; [|right; cbn; split; [reflexivity|]; split; [reflexivity|]; right; eexists; split; [reflexivity|easy]].
  left. cbn. split; [reflexivity|]. split; [auto|]. split; [easy|]. split; [easy|]. split.
  - do 2 eexists. rewrite <- app_assoc. split; [reflexivity|]. easy.
  - intros x I. apply negb_true_iff in B1, B2. unfold busy in B1, B2. rewrite existsb_app in B2. apply orb_false_iff in B2 as [B2 _]. apply not_true_is_false. intros OV.
    destruct (n_oml x) eqn:OX; [assert (existsb (fun x => Bool.eqb (n_oml x) true && overlap (n_addr x) (bound (cfg s))) (lsns s) = true) as Q|assert (existsb (fun x => Bool.eqb (n_oml x) false && overlap (n_addr x) (bound (cfg s))) (lsns s) = true) as Q];
      try (apply existsb_exists; exists x; rewrite OX, OV; easy); congruence.
Qed.
(** it does succeed when nothing else uses the ports *)
Theorem C73_update_succeeds e k s n : is_ipa s n = true -> ~ In n (inits s) -> (forall x, In x (lsns s) -> overlap (n_addr x) (bound (cfg s)) = false) ->
  exists s', sstep e k s (Update n Bsc true true) = Some s' /\ obss s' = (obss s ++ [Ret n 0])%list.
Proof.
  intros P N F. cbn [sstep]. rewrite P. eexists. split; [reflexivity|]. unfold line_update.
  assert (zin n (inits s) = false) as -> by (apply not_true_is_false; intros E; apply existsb_exists in E as (m & I & E); apply Z.eqb_eq in E; now subst).
  assert (B : forall o, busy (lsns s) o (bound (cfg s)) = false). { intros o. apply not_true_is_false. intros E. apply existsb_exists in E as (x & I & E). rewrite (F x I), andb_false_r in E. discriminate. }
  unfold srv_open. rewrite B. cbn [andb negb cfg lsns]. unfold busy. rewrite existsb_app. pose proof (B false) as B'. unfold busy in B'. rewrite B'. reflexivity.
Qed.
(** a line in service is left alone *)
Theorem C73_again e k s n a b : is_ipa s n = true -> In n (inits s) -> exists s', sstep e k s (Update n Bsc a b) = Some s' /\ obss s' = (obss s ++ [Ret n 0])%list /\ cfg s' = cfg s /\ lsns s' = lsns s /\ inits s' = inits s.
Proof.
  intros P I. cbn [sstep]. rewrite P. unfold line_update. assert (zin n (inits s) = true) as -> by (apply existsb_exists; exists n; split; [easy|apply Z.eqb_refl]). eexists. split; [reflexivity|]. easy.
Qed.
(** lines that were always updated as BSC: in service means both listening sockets exist *)
Definition bsc_only (v : sev) : Prop := match v with Update _ OtherRole _ _ => False | _ => True end.
Lemma find_free n m ls : n <> m -> find (fun l => l_num l =? m) (filter (fun l => negb (l_num l =? n)) ls) = find (fun l => l_num l =? m) ls.
Proof.
  intros NE. induction ls as [|x r IH]; [reflexivity|]. cbn. destruct (Z.eqb_spec (l_num x) n) as [E|E]; cbn.
  - destruct (Z.eqb_spec (l_num x) m); [lia|]. exact IH.
  - destruct (Z.eqb_spec (l_num x) m); [reflexivity|]. exact IH.
Qed.
(** freeing a line frees that line only: the others are found as before, and those in service
    stay in service *)
Theorem C73_free e k s n : exists s', sstep e k s (Free n) = Some s' /\ obss s' = obss s /\ find_line n (cfg s') = None /\ ~ In n (inits s') /\
  (forall m, m <> n -> find_line m (cfg s') = find_line m (cfg s) /\ (In m (inits s') <-> In m (inits s)) /\ forall x, n_line x = m -> (In x (lsns s') <-> In x (lsns s))) /\
  (bound (cfg s') = bound (cfg s)) /\ List.length (lsns s') = List.length (lsns s).
Proof.
  cbn [sstep]. eexists. split; [reflexivity|]. cbn [line_free obss cfg inits lsns]. split; [reflexivity|]. split; [|split; [|split; [|split]]].
  - unfold find_line. cbn [w_lines lines]. induction (lines (cfg s)) as [|x r IH]; [reflexivity|]. cbn [filter]. destruct (l_num x =? n) eqn:E; cbn [negb]; [exact IH|]. cbn [find]. rewrite E. exact IH.
  - intros I. apply filter_In in I as [_ I]. now rewrite Z.eqb_refl in I.
  - intros m NE. split; [|split].
    + unfold find_line. cbn [w_lines lines]. apply find_free. congruence.
    + rewrite filter_In. split; [easy|]. intros I. split; [easy|]. apply negb_true_iff, Z.eqb_neq. exact NE.
    + intros x X. rewrite in_map_iff. split.
      * intros (y & Y & I). destruct (n_line y =? n) eqn:E; [|now subst]. apply Z.eqb_eq in E. subst x. cbn [n_line] in X. congruence.
      * intros I. exists x. split; [|easy]. rewrite X, (proj2 (Z.eqb_neq m n) NE). reflexivity.
  - reflexivity.
  - apply map_length.
Qed.
Definition SInv (s : sst) : Prop := forall n, In n (inits s) -> exists a x y, In x (lsns s) /\ In y (lsns s) /\ listener n true a x /\ listener n false a y /\ n_live x = true /\ n_live y = true.
Theorem C73_in_service e k vs s : srun e k sst_init vs = Some s -> Forall bsc_only vs -> SInv s.
Proof.
  assert (GO : forall vs s0, SInv s0 -> Forall bsc_only vs -> srun e k s0 vs = Some s -> SInv s).
  2:{ intros H F. apply (GO vs sst_init); [intros n []|easy|easy]. }
  clear vs. induction vs as [|v vs IH]; intros s0 I F H; cbn [srun] in H; [now injection H as <-|]. destruct (sstep e k s0 v) as [s1|] eqn:E; [|discriminate H]. apply (IH s1); [|exact (Forall_inv_tail F)|exact H].
  pose proof (Forall_inv F) as B. destruct v as [v|n r a b|n|i].
  - cbn [sstep] in E. destruct (step e k (cfg s0) v); [|discriminate E]. injection E as <-. exact I.
  - destruct (is_ipa s0 n) eqn:P; [|cbn [sstep] in E; rewrite P in E; injection E as <-; exact I]. destruct r; [| |contradiction].
    + cbn [sstep] in E. rewrite P in E. injection E as <-. exact I.
    + destruct (in_dec Z.eq_dec n (inits s0)) as [J|J].
      * destruct (C73_again e k s0 n a b P J) as (s2 & E2 & _ & _ & L2 & I2). rewrite E in E2. injection E2 as <-. unfold SInv. rewrite L2, I2. exact I.
      * cbn [sstep] in E. rewrite P in E. injection E as <-. unfold line_update. assert (zin n (inits s0) = false) as -> by (apply not_true_is_false; intros X; apply existsb_exists in X as (m & X1 & X2); apply Z.eqb_eq in X2; now subst).
        assert (K : forall s2, inits s2 = inits s0 -> (exists z, lsns s2 = (lsns s0 ++ z)%list) -> SInv s2).
        { intros s2 E1 (z & E2) m M. rewrite E1 in M. destruct (I m M) as (c & x & y & A1 & A2 & A3). exists c, x, y. rewrite E2, !in_app_iff. tauto. }
        unfold srv_open. destruct (a && _); [|apply K; [reflexivity|exists []; cbn; now rewrite app_nil_r]]. cbn [cfg lsns].
        destruct (b && _); [|apply K; [reflexivity|eexists; reflexivity]].
        intros m M. cbn in M |- *. rewrite <- app_assoc. destruct M as [->|M].
        -- do 3 eexists. split; [apply in_or_app; right; left; reflexivity|]. split; [apply in_or_app; right; right; left; reflexivity|]. easy.
        -- destruct (I m M) as (c & x & y & A1 & A2 & A3). exists c, x, y. rewrite !in_app_iff. tauto.
  - cbn [sstep] in E. injection E as <-. intros m M. cbn in M. apply filter_In in M as [M N]. apply negb_true_iff, Z.eqb_neq in N. destruct (I m M) as (c & x & y & A1 & A2 & A3 & A4 & A5). exists c, x, y. cbn.
    split; [|split; [|easy]]; apply in_map_iff; [exists x|exists y]; (split; [|easy]); rewrite (proj1 A3) || rewrite (proj1 A4); now rewrite (proj2 (Z.eqb_neq m n)).
  - cbn [sstep] in E. apply accept_cfg in E as (_ & E1 & E2). unfold SInv. rewrite E1, E2. exact I.
Qed.
(** connections are handled without touching freed memory as long as no line is freed *)
Theorem C73_no_dangling e k vs s i : srun e k sst_init vs = Some s -> (forall n, ~ In (Free n) vs) -> sstep e k s (Conn i) <> None.
Proof.
  set (Q := fun s : sst => forall x, In x (lsns s) -> n_live x = true /\ find_line (n_line x) (cfg s) <> None).
  assert (GO : forall vs s0, Q s0 -> (forall n, ~ In (Free n) vs) -> srun e k s0 vs = Some s -> Q s).
  { clear vs. induction vs as [|v vs IH]; intros s0 I F H; cbn [srun] in H; [now injection H as <-|]. destruct (sstep e k s0 v) as [s1|] eqn:E; [|discriminate H]. apply (IH s1); [|intros n X; apply (F n); now right|exact H].
    destruct v as [v|n r a b|n|j]; cbn [sstep] in E.
    - destruct (step e k (cfg s0) v) as [c bb|] eqn:S1; [|discriminate E]. injection E as <-. intros x X. destruct (I x X) as [L1 L2]. split; [exact L1|]. cbn [cfg]. clear IH H.
      assert (M : forall m, In m (map l_num (lines (cfg s0))) -> In m (map l_num (lines c))).
      { assert (SET : forall n f s0' c' b', set n s0' f = Done c' b' -> (forall l, l_num (f l) = l_num l) -> map l_num (lines c') = map l_num (lines s0')).
        { intros n f s0' c' b' SE NF. unfold set in SE. injection SE as <- _. cbn. induction (lines s0') as [|y r IH]; [reflexivity|]. cbn. destruct (l_num y =? n); cbn; [now rewrite NF|now rewrite IH]. }
        assert (EX : forall cm, exec e k (cfg s0) cm = Done c bb -> forall m, In m (map l_num (lines (cfg s0))) -> In m (map l_num (lines c))).
        { intros cm EC. unfold exec, on, warn in EC. destruct cm.
          - destruct (find_line n (cfg s0)); [injection EC as <- _; easy|]. destruct (drv e d); [|injection EC as <- _; easy]. destruct (k_create k _); injection EC as <- _; [|easy]. cbn. intros m. rewrite map_app, in_app_iff. tauto.
          - destruct (find_line n (cfg s0)); [intros m IM; rewrite (SET _ _ _ _ _ EC); [exact IM|easy]|injection EC as <- _; easy].
          - destruct (Nat.ltb _ _); [injection EC as <- _; easy|]. destruct (find_line n (cfg s0)); [intros m IM; rewrite (SET _ _ _ _ _ EC); [exact IM|easy]|injection EC as <- _; easy].
          - destruct (find_line n (cfg s0)); [|injection EC as <- _; easy]. destruct (negb _ && _); [injection EC as <- _; easy|]. intros m IM; rewrite (SET _ _ _ _ _ EC); [exact IM|easy].
          - destruct (find_line n (cfg s0)); [|injection EC as <- _; easy]. destruct (negb _); [injection EC as <- _; easy|]. intros m IM; rewrite (SET _ _ _ _ _ EC); [exact IM|easy].
          - destruct (find_line n (cfg s0)); [intros m IM; rewrite (SET _ _ _ _ _ EC); [exact IM|easy]|injection EC as <- _; easy].
          - destruct (find_line n (cfg s0)); [intros m IM; rewrite (SET _ _ _ _ _ EC); [exact IM|easy]|injection EC as <- _; easy].
          - destruct (find_line n (cfg s0)); [|injection EC as <- _; easy]. destruct (negb _); [injection EC as <- _; easy|]. cbv zeta in EC. destruct (negb _); [injection EC as <- _; easy|]. intros m IM; rewrite (SET _ _ _ _ _ EC); [exact IM|easy].
          - destruct (find_line n (cfg s0)); [|discriminate EC]. intros m IM; rewrite (SET _ _ _ _ _ EC); [exact IM|easy].
          - injection EC as <- _; easy.
          - destruct oml; injection EC as <- _; easy.
          - destruct oml; injection EC as <- _; easy. }
        destruct v as [t|n d|n ii ty]; cbn [step] in S1.
        - unfold vty in S1. destruct (parse e (words t)) as [cm|]; [exact (EX cm S1)|]. unfold warn in S1. injection S1 as <- _. easy.
        - exact (EX _ S1).
        - unfold on in S1. destruct (find_line n (cfg s0)); [|unfold warn in S1; injection S1 as <- _; easy]. intros m IM; rewrite (SET _ _ _ _ _ S1); [exact IM|easy]. }
      intros FN. unfold find_line in FN. apply find_none_num in FN. apply FN, M. unfold find_line in L2. destruct (find _ (lines (cfg s0))) as [l|] eqn:FF; [|congruence]. apply find_in in FF as [I1 I2]. rewrite <- I2. now apply in_map.
    - destruct (is_ipa s0 n) eqn:P; injection E as <-; [|exact I]. unfold Q. rewrite update_cfg. intros x X.
      assert (FN : find_line n (cfg s0) <> None) by (unfold is_ipa in P; destruct (find_line n (cfg s0)); congruence).
      assert (X' : In x (lsns s0) \/ n_line x = n /\ n_live x = true).
      { unfold line_update in X. destruct r; [now left| |now left]. destruct (zin n (inits s0)); [now left|]. unfold srv_open in X. destruct (a && _); [|now left]. cbn [cfg lsns] in X. destruct (b && _); cbn in X; rewrite ?in_app_iff in X; cbn in X; intuition (subst; auto). }
      destruct X' as [X'|[-> X']]; [now apply I|easy].
    - exfalso. apply (F n). now left.
    - apply accept_cfg in E as (E1 & E2 & _). unfold Q. rewrite E1, E2. exact I. }
  intros H F. assert (QQ : Q s) by (apply (GO vs sst_init); [intros x []|easy|easy]). cbn [sstep]. unfold accept. destruct (nth_error (lsns s) i) as [x|] eqn:NE; [|discriminate].
  destruct (QQ x (nth_error_In _ _ NE)) as [-> L]. cbn [negb]. destruct (find_line _ _); [discriminate|congruence].
Qed.

(** ** What the code does not do *)
Lemma srv_busy s n ok x : In x (lsns s) -> n_oml x = true -> overlap (n_addr x) (bound (cfg s)) = true -> srv_open s n true ok = None.
Proof.
  intros I O V. unfold srv_open. assert (busy (lsns s) true (bound (cfg s)) = true) as -> by (apply existsb_exists; exists x; rewrite O, V; easy). now rewrite andb_false_r.
Qed.
(** if the RSL port cannot be had, the OML socket stays: from then on no line can be put into
    service, however often it is tried and whatever becomes free, until the bind address changes *)
Definition keeps_address (v : sev) : Prop := match v with Cfg (Typed t) => forall a, words t <> ["ipa"; "bind"; a] | _ => True end.
Lemma keeps_bound e k s t c b : step e k s (Typed t) = Done c b -> (forall a, words t <> ["ipa"; "bind"; a]) -> bound c = bound s.
Proof.
  intros H N. cbn [step] in H. unfold vty in H. destruct (parse e (words t)) as [cm|] eqn:P; [|unfold warn in H; now injection H as <- _].
  unfold exec, on, warn, set in H. destruct cm.
  - destruct (find_line n s); [now injection H as <- _|]. destruct (drv e d); [|now injection H as <- _]. destruct (k_create k _); now injection H as <- _.
  - destruct (find_line n s); now injection H as <- _.
  - destruct (Nat.ltb _ _); [now injection H as <- _|]. destruct (find_line n s); now injection H as <- _.
  - destruct (find_line n s); [|now injection H as <- _]. destruct (negb _ && _); now injection H as <- _.
  - destruct (find_line n s); [|now injection H as <- _]. destruct (negb _); now injection H as <- _.
  - destruct (find_line n s); now injection H as <- _.
  - destruct (find_line n s); now injection H as <- _.
  - destruct (find_line n s); [|now injection H as <- _]. destruct (negb _); [now injection H as <- _|]. cbv zeta in H. destruct (negb _); now injection H as <- _.
  - destruct (find_line n s); [|discriminate H]. now injection H as <- _.
  - exfalso. unfold parse in P. destruct (words t) as [|w r] eqn:W; [discriminate P|]. destruct (String.eqb w "e1_line") eqn:E1.
    { destruct r as [|n [|kk args]]; try discriminate P. destruct (rng 0 255 n) as [z|]; [|discriminate P]. unfold parse_line in P.
      repeat match type of P with (if ?c then _ else _) = _ => destruct c end; try discriminate P; repeat match type of P with match ?x with _ => _ end = _ => destruct x end; discriminate P. }
    destruct (String.eqb w "no") eqn:E2.
    { unfold parse_no in P. repeat match type of P with match ?x with _ => _ end = _ => destruct x | (if ?c then _ else _) = _ => destruct c end; discriminate P. }
    destruct (String.eqb w "ipa") eqn:E3; [|discriminate P]. unfold parse_ipa in P. destruct r as [|x [|y [|z [|? ?]]]]; try discriminate P.
    + destruct (String.eqb x "bind") eqn:E4; cbn [andb] in P; [|discriminate P]. apply String.eqb_eq in E3, E4. subst. now apply (N y).
    + repeat match type of P with (if ?c then _ else _) = _ => destruct c end; try discriminate P; destruct (which y); try discriminate P; repeat match type of P with match ?x with _ => _ end = _ => destruct x end; discriminate P.
  - destruct oml; now injection H as <- _.
  - destruct oml; now injection H as <- _.
Qed.
Lemma blocked e k vs : forall s s' a n ok1 ok2, (exists x, In x (lsns s) /\ n_oml x = true /\ n_addr x = a) -> bound (cfg s) = a -> Forall keeps_address vs -> srun e k s vs = Some s' ->
  is_ipa s' n = true -> ~ In n (inits s') -> exists s2, sstep e k s' (Update n Bsc ok1 ok2) = Some s2 /\ obss s2 = (obss s' ++ [Ret n (-5)])%list /\ lsns s2 = lsns s'.
Proof.
  induction vs as [|v vs IH]; intros s s' a n ok1 ok2 (x & I & O & A) BD F H P N; cbn [srun] in H.
  - injection H as <-. cbn [sstep]. rewrite P. unfold line_update. assert (zin n (inits s) = false) as -> by (apply not_true_is_false; intros X; apply existsb_exists in X as (m & X1 & X2); apply Z.eqb_eq in X2; now subst).
    rewrite (srv_busy s n ok1 x I O) by (unfold overlap; rewrite A, BD, String.eqb_refl; reflexivity). eexists. split; [reflexivity|]. easy.
  - destruct (sstep e k s v) as [s1|] eqn:E; [|discriminate H]. pose proof (Forall_inv F) as KA. apply (IH s1 s' a n ok1 ok2); [| |exact (Forall_inv_tail F)|exact H|exact P|exact N].
    + destruct v as [v|m r c d|m|j]; cbn [sstep] in E.
      * destruct (step e k (cfg s) v); [|discriminate E]. injection E as <-. exists x. easy.
      * destruct (is_ipa s m); injection E as <-; [|exists x; easy]. exists x. split; [|easy]. unfold line_update. destruct r; [exact I| |exact I]. destruct (zin m (inits s)); [exact I|]. unfold srv_open. destruct (c && _); [|exact I]. cbn [cfg lsns]. destruct (d && _); cbn; rewrite ?in_app_iff; auto.
      * injection E as <-. cbn. eexists. split; [apply in_map; exact I|]. destruct (n_line x =? m); easy.
      * apply accept_cfg in E as (_ & -> & _). exists x. easy.
    + destruct v as [v|m r c d|m|j]; cbn [sstep] in E.
      * destruct (step e k (cfg s) v) as [c bb|] eqn:S1; [|discriminate E]. injection E as <-. cbn [cfg]. destruct v as [t|m d|m ii ty].
        -- rewrite <- BD. exact (keeps_bound e k _ _ _ _ S1 KA).
        -- cbn [step exec] in S1. rewrite <- BD. destruct (find_line m (cfg s)); [now injection S1 as <- _|]. destruct (drv e d); [|now injection S1 as <- _]. destruct (k_create k _); now injection S1 as <- _.
        -- cbn [step] in S1. unfold on, warn, set in S1. rewrite <- BD. destruct (find_line m (cfg s)); now injection S1 as <- _.
      * destruct (is_ipa s m); injection E as <-; [|easy]. now rewrite update_cfg.
      * injection E as <-. exact BD.
      * apply accept_cfg in E as (-> & _). exact BD.
Qed.
Theorem C73_stuck_refuted e k s n : is_ipa s n = true -> ~ In n (inits s) -> (forall x, In x (lsns s) -> overlap (n_addr x) (bound (cfg s)) = false) ->
  exists s1, sstep e k s (Update n Bsc true false) = Some s1 /\ obss s1 = (obss s ++ [Ret n (-5)])%list /\
  forall vs s2 m ok1 ok2, Forall keeps_address vs -> srun e k s1 vs = Some s2 -> is_ipa s2 m = true -> ~ In m (inits s2) ->
    exists s3, sstep e k s2 (Update m Bsc ok1 ok2) = Some s3 /\ obss s3 = (obss s2 ++ [Ret m (-5)])%list /\ lsns s3 = lsns s2.
Proof.
  intros P N F. cbn [sstep]. rewrite P. eexists. split; [reflexivity|]. unfold line_update.
  assert (zin n (inits s) = false) as -> by (apply not_true_is_false; intros E; apply existsb_exists in E as (m & I & E); apply Z.eqb_eq in E; now subst).
  assert (B : forall o, busy (lsns s) o (bound (cfg s)) = false). { intros o. apply not_true_is_false. intros E. apply existsb_exists in E as (x & I & E). rewrite (F x I), andb_false_r in E. discriminate. }
  unfold srv_open. rewrite !B. cbn [andb negb cfg lsns]. split; [reflexivity|].
  intros vs s2 m ok1 ok2 K R P2 N2. match type of R with srun _ _ ?z _ = _ => apply (blocked e k vs z s2 (bound (cfg s)) m ok1 ok2); [|reflexivity|exact K|exact R|exact P2|exact N2] end. cbn. eexists. rewrite in_app_iff. cbn. split; [right; left; reflexivity|easy].
Qed.
(** likewise a second line: only one line of an address can be in service *)
Theorem C73_one_line e k vs s s2 n m ok1 ok2 : is_ipa s n = true -> ~ In n (inits s) -> (forall x, In x (lsns s) -> overlap (n_addr x) (bound (cfg s)) = false) ->
  srun e k s (Update n Bsc true true :: vs) = Some s2 -> Forall keeps_address vs -> is_ipa s2 m = true -> ~ In m (inits s2) ->
  exists s3, sstep e k s2 (Update m Bsc ok1 ok2) = Some s3 /\ obss s3 = (obss s2 ++ [Ret m (-5)])%list /\ lsns s3 = lsns s2.
Proof.
  intros P N F R K P2 N2. cbn [srun] in R. destruct (C73_update_succeeds e k s n P N F) as (s1 & E1 & O1). destruct (C73_update e k s n true true P N) as (s1' & E1' & C1 & D). rewrite E1 in E1'. injection E1' as <-. rewrite E1 in R.
  destruct D as [(_ & _ & _ & _ & (x & y & L & X & _) & _)|(O2 & _)]; [|rewrite O1 in O2; apply app_inv_head in O2; discriminate O2].
  eapply (blocked e k vs s1 s2 (bound (cfg s))); [|now rewrite C1|exact K|exact R|exact P2|exact N2]. exists x. rewrite L, in_app_iff. cbn. split; [auto|]. split; apply X.
Qed.
(** "ipa bind" does not move a line in service, not even when the line is updated again *)
Theorem C73_rebind_refuted e k s n t c a ok1 ok2 : is_ipa s n = true -> In n (inits s) -> words t = ["ipa"; "bind"; a] -> step e k (cfg s) (Typed t) = Done c true -> is_ipa (mkT c [] [] []) n = true ->
  exists s', srun e k s [Cfg (Typed t); Update n Bsc ok1 ok2] = Some s' /\ obss s' = (obss s ++ [Ret n 0])%list /\ lsns s' = lsns s.
Proof.
  intros P I W S1 P2. cbn [srun]. cbn [sstep]. rewrite S1. unfold is_ipa in P2 |- *. cbn [cfg] in *. rewrite P2. unfold line_update. cbn [inits].
  assert (zin n (inits s) = true) as -> by (apply existsb_exists; exists n; split; [easy|apply Z.eqb_refl]). eexists. split; [reflexivity|]. easy.
Qed.
(** a line updated while it has another role is taken for being in service: as BSC it never listens *)
Theorem C73_role_refuted e k s n ok1 ok2 a b : is_ipa s n = true -> ~ In n (inits s) ->
  exists s', srun e k s [Update n OtherRole a b; Update n Bsc ok1 ok2] = Some s' /\ obss s' = (obss s ++ [Ret n (-2); Ret n 0])%list /\ lsns s' = lsns s.
Proof.
  intros P N. cbn [srun]. cbn [sstep]. rewrite P. cbn [line_update]. unfold is_ipa in *. cbn [cfg ret set_init]. rewrite P. unfold line_update. cbn [inits ret set_init zin existsb]. rewrite Z.eqb_refl. cbn [orb]. eexists. split; [reflexivity|]. cbn. rewrite <- app_assoc. easy.
Qed.
(** the listening sockets outlive their line *)
Theorem C73_freed_refuted e k s n i x : nth_error (lsns s) i = Some x -> n_line x = n -> srun e k s [Free n; Conn i] = None.
Proof.
  intros NE L. cbn [srun]. cbn [sstep]. unfold accept. cbn [line_free lsns]. rewrite nth_error_map, NE. cbn [option_map]. rewrite L, Z.eqb_refl. reflexivity.
Qed.

(** DSCP and socket priority of the listening sockets are swapped (as C68_dscp_refuted) *)
Theorem C73_swapped_refuted e k s n s' : is_ipa s n = true -> ~ In n (inits s) -> sstep e k s (Update n Bsc true true) = Some s' -> obss s' = (obss s ++ [Ret n 0])%list ->
  exists x y, lsns s' = (lsns s ++ [x; y])%list /\ (n_oml x = true /\ n_prio x = o_dscp (cfg s) /\ n_dscp x = o_prio (cfg s)) /\ (n_oml y = false /\ n_prio y = r_dscp (cfg s) /\ n_dscp y = r_prio (cfg s)).
Proof.
  intros P N E O. cbn [sstep] in E. rewrite P in E. injection E as <-. unfold line_update in *.
  assert (zin n (inits s) = false) as Z0 by (apply not_true_is_false; intros E; apply existsb_exists in E as (m & I & E); apply Z.eqb_eq in E; now subst). rewrite Z0 in *.
  unfold srv_open in *. destruct (true && _); [|cbn in O; apply app_inv_head in O; discriminate O]. cbn [cfg lsns] in *. destruct (true && _); [|cbn in O; apply app_inv_head in O; discriminate O].
  cbn. do 2 eexists. rewrite <- app_assoc. split; [reflexivity|]. easy.
Qed.

Definition e1 : env := mkE (fun d => if String.eqb d "ipa" then Some true else if is_in d driver_names then Some false else None) (fun _ => true).
Definition k1 : kern := mkK (fun _ => true) (fun _ => true) (fun _ => true).
Example C73_example :
  match srun e1 k1 sst_init [Cfg (Typed "e1_line 0 driver ipa"); Cfg (Typed "e1_line 1 driver ipa"); Cfg (Typed "ipa bind 10.0.0.1"); Update 0 NoOps true true; Update 0 Bsc false true; Update 0 Bsc true true;
      Update 0 Bsc true true; Update 1 Bsc true true; Cfg (Typed "e1_line 0 keepalive 10 3 5"); Conn 0; Cfg (Typed "no e1_line 0 keepalive"); Conn 1; Cfg (Typed "ipa bind 10.0.0.2"); Update 1 Bsc true true; Conn 2] with
  | Some s => obss s = [Ret 0 0; Ret 0 EIO; Ret 0 0; Ret 0 0; Ret 1 EIO; Opts 0 true [SO_KEEPALIVE 1; TCP_KEEPIDLE 10; TCP_KEEPINTVL 5; TCP_KEEPCNT 3; TCP_USER_TIMEOUT 45000; TCP_NODELAY 1];
        Opts 0 false [TCP_NODELAY 1]; Ret 1 0; Opts 1 true [SO_KEEPALIVE 1; TCP_KEEPIDLE 30; TCP_KEEPINTVL 3; TCP_KEEPCNT 10; TCP_USER_TIMEOUT 330000; TCP_NODELAY 1]] /\
      map (fun x => (n_line x, port_of (n_oml x), n_addr x)) (lsns s) = [(0, 3002, "10.0.0.1"); (0, 3003, "10.0.0.1"); (1, 3002, "10.0.0.2"); (1, 3003, "10.0.0.2")] /\ inits s = [1; 0]
  | None => False end.
Proof. vm_compute. easy. Qed.
