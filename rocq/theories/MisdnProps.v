(** C62-C64: the mISDN driver. *)
From Coq Require Import List Arith Lia Bool ZArith.
From Verif Require Import Base E1Model MisdnModel MisdnSpec MisdnProofs MisdnRunProofs MisdnPoliteProofs.
Import ListNotations.
Open Scope Z_scope.

Lemma reach_inv k u p vs s : run k (st_init u p) vs = Ok s -> Inv s.
Proof. apply run_inv, init_inv. Qed.
Lemma reach_pol k (NU : Prop) u p vs s : obliging k -> forallb polite vs = true -> (NU -> forallb keeps_links vs = true) -> run k (st_init u p) vs = Ok s -> Pol k NU false s.
Proof. intros O V N R. pose proof (run_pol k NU O vs (st_init u p) (init_pol k NU u p) V N) as H. now rewrite R in H. Qed.

(** ** ul never changes *)
Lemma leave_ul s t z : ul (leave s t z) = ul s /\ port (leave s t z) = port s. Proof. easy. Qed.
Lemma loop_ul k ts : forall s, ul (fst (update_loop k ts s)) = ul s.
Proof. induction ts as [|t r IH]; intros s; [easy|]. cbn [update_loop]. destruct (update_ts _ _ _ _ _) as [z [rc|]]; [easy|]. now rewrite IH. Qed.
Lemma update_ul k s : ul (fst (line_update k s)) = ul s.
Proof.
  unfold line_update. set (s1 := mkS _ _ _ _ _ _ _ _ _). destruct (k_card k _); [easy|]. assert (D : ul (fst (dummy_up k s1)) = ul s1).
  { unfold dummy_up. destruct (_ && _); destruct (dummy s1); cbn [fst]; try easy; destruct (k_sock k (tick s1)); cbn [negb fst]; try easy; destruct (k_bind k _); easy. }
  destruct (dummy_up k s1) as [s2 [rc|]]; [exact D|]. now rewrite loop_ul.
Qed.
Lemma exec_ul k s c s' : exec k s c = Ok s' -> ul s' = ul s.
Proof.
  destruct c as [t ty|p| |t i tei sapi|t i|t i m|b]; cbn [exec]; try (now intros [= <-]).
  - destruct (valid t); [|now intros [= <-]]. unfold onr. destruct (config _ _); [|discriminate]. now intros [= <-].
  - pose proof (update_ul k s) as U. destruct (line_update k s) as [s1 rc]. now intros [= <-].
  - intros [= <-]. now destruct (valid t).
  - intros [= <-]. now destruct (valid t).
  - intros [= <-]. now destruct (valid t).
  - intros [= <-]. destruct (ul s) eqn:U; [easy|exact U].
Qed.
Lemma execs_ul k cs : forall s s', execs k cs s = Ok s' -> ul s' = ul s.
Proof. induction cs as [|c r IH]; intros s s'; cbn [execs]; [now intros [= <-]|]. destruct (exec k s c) as [s1|] eqn:E; [|discriminate]. intros H. now rewrite (IH _ _ H), (exec_ul _ _ _ _ E). Qed.
Lemma mph_ul s i : ul (mph_info s i) = ul s.
Proof. unfold mph_info. destruct (_ =? 256); [easy|]. repeat (destruct (_ =? _); [cbv zeta; destruct (negb _ && _); [|destruct (_ && negb _)]; easy|]). easy. Qed.
Lemma step_ul k s v s' : step k s v = Ok s' -> ul s' = ul s.
Proof.
  destruct v as [cs|t r w act|t|t m]; cbn [step].
  - apply execs_ul.
  - destruct (m_reg _); [|now intros [= <-]]. unfold fd_cb.
    assert (A : forall s1, execs k act s1 = Ok s' -> ul s1 = ul s -> ul s' = ul s) by (intros s1 H X; now rewrite (execs_ul _ _ _ _ H)).
    assert (SR : forall r s1, sign_read k s t r act = Ok s1 -> ul s1 = ul s).
    { intros [|c tei sapi|c tei sapi|tei sapi|tei sapi o|o| |i|] s1; cbn [sign_read]; unfold event; try (now intros [= <-]); intros H.
      - destruct (lookup _ _ _); [|now injection H as <-]. now rewrite (execs_ul _ _ _ _ H).
      - destruct (lookup _ _ _); [|now injection H as <-]. now rewrite (execs_ul _ _ _ _ H).
      - destruct (ul s) eqn:U; [now injection H as <-|]. now rewrite (execs_ul _ _ _ _ H).
      - destruct (negb (ul s)); [now injection H as <-|]. destruct (m_lapd _); [|discriminate]. now rewrite (execs_ul _ _ _ _ H).
      - now rewrite (execs_ul _ _ _ _ H), mph_ul. }
    assert (TR : forall r s1, trau_read k s t r act = Ok s1 -> ul s1 = ul s).
    { intros [|c tei sapi|c tei sapi|tei sapi|tei sapi o|o| |i|] s1; cbn [trau_read]; try (now intros [= <-]); intros H. now rewrite (execs_ul _ _ _ _ H). }
    assert (DR : forall b r s1, data_read k s t b r act = Ok s1 -> ul s1 = ul s).
    { intros b [|c tei sapi|c tei sapi|tei sapi|tei sapi o|o| |i|] s1; cbn [data_read]; try (now intros [= <-]); intros H; [now rewrite (execs_ul _ _ _ _ H)|]. destruct b; [now injection H as <-|]. now rewrite (execs_ul _ _ _ _ H), mph_ul. }
    clear A. destruct (m_type (tsl s t)); try (now intros [= <-]).
    + destruct r as [r|]; [destruct (sign_read k s t r act) as [s1|] eqn:E; [|discriminate]; apply SR in E|]; (destruct (w && _); [unfold onr; destruct (sign_write _ _ _); [|discriminate]; intros [= <-]; easy|intros [= <-]; easy]).
    + destruct r as [r|]; [destruct (trau_read k s t r act) as [s1|] eqn:E; [|discriminate]; apply TR in E|]; destruct (w && _); intros [= <-]; easy.
    + destruct r as [r|]; [destruct (data_read k s t true r act) as [s1|] eqn:E; [|discriminate]; apply DR in E|]; destruct (w && _); intros [= <-]; easy.
    + destruct r as [r|]; [destruct (data_read k s t false r act) as [s1|] eqn:E; [|discriminate]; apply DR in E|]; destruct (w && _); intros [= <-]; easy.
  - destruct (m_tmr _); now intros [= <-].
  - destruct (m_lapd _); now intros [= <-].
Qed.
Lemma run_ul k vs : forall s s', run k s vs = Ok s' -> ul s' = ul s.
Proof. induction vs as [|v r IH]; intros s s'; cbn [run]; [now intros [= <-]|]. destruct (step k s v) as [s1|] eqn:E; [|discriminate]. intros H. now rewrite (IH _ _ H), (step_ul _ _ _ _ E). Qed.

(** ** C62 *)
(** sockets: opened, bound, activated, polled, taken out, closed in this order, and written to
    only while open *)
Theorem C62_life k u p vs s t : run k (st_init u p) vs = Ok s -> exists v, life None (proj t (out s)) = Some v.
Proof. intros R. destruct (g_life _ _ _ _ (i_good s (reach_inv _ _ _ _ _ R) t)) as (v & H & _). eauto. Qed.
(** a socket belongs to one timeslot (or to the line) *)
Theorem C62_own k u p vs s : run k (st_init u p) vs = Ok s -> NoDup (socks (out s)) /\ exists v, life_dummy None (out s) = Some v.
Proof. intros R. pose proof (reach_inv _ _ _ _ _ R) as I. split; [apply I|]. eexists. apply (i_dummy s I). Qed.
Lemma wanted_of u t ty : ty <> TS_NONE -> wanted u t ty (proto_of u t ty) (chan_of u t ty) (group_of u ty).
Proof.
  intros N. unfold proto_of, chan_of, group_of. destruct ty; try easy.
  - destruct u; [now apply WantSignUser|now apply WantSignKernel].
  - destruct (Nat.eqb_spec t 16); [apply WantRawD; auto|apply WantRaw; auto].
  - destruct (Nat.eqb_spec t 16); [apply WantRawD; auto|apply WantRaw; auto].
  - destruct (Nat.eqb_spec t 16); [now apply WantHdlcD|now apply WantHdlc].
  - apply WantI460.
Qed.
(** a socket in the select loop is set up as some type asks for ... *)
Theorem C62_placed k u p vs s t f : run k (st_init u p) vs = Ok s -> life None (proj t (out s)) = Some (Some (f, Polled)) ->
  exists ty pr dev c g, wanted u t ty pr c g /\ In (ESock f pr) (proj t (out s)) /\ In (EBind f dev c g) (proj t (out s)).
Proof.
  intros R L. pose proof (i_good s (reach_inv _ _ _ _ _ R) t) as G. pose proof (run_ul _ _ _ _ R) as U. cbn in U. rewrite U in G.
  destruct (g_life _ _ _ _ G) as (v & H & V). rewrite L in H. injection H as <-. unfold stage_ok in V. destruct (m_fd (tsl s t)) as [| |f'] eqn:F; try discriminate. destruct V as (g & [= <- <-] & V).
  destruct (g_place _ _ _ _ G f F) as (N & A & B). destruct (B (proj2 V eq_refl)) as (dev & B'). exists (m_cur (tsl s t)), (proto_of u t (m_cur (tsl s t))), dev, (chan_of u t (m_cur (tsl s t))), (group_of u (m_cur (tsl s t))). split; [now apply wanted_of|easy].
Qed.
(** ... and if nothing is refused and the application updates after configuring: every timeslot
    (of 1 to 31) that is in use has a socket in the select loop, set up as configured; one that is
    not in use has none *)
Theorem C62_served k u p vs s t : obliging k -> forallb polite vs = true -> run k (st_init u p) vs = Ok s -> (1 <= t <= 31)%nat ->
  match configured t (out s) with
  | TS_NONE => life None (proj t (out s)) = Some None
  | ty => exists f pr dev c g, life None (proj t (out s)) = Some (Some (f, Polled)) /\ wanted u t ty pr c g /\ In (ESock f pr) (proj t (out s)) /\ In (EBind f dev c g) (proj t (out s))
  end.
Proof.
  intros O V R T. pose proof (reach_pol k False u p vs s O V ltac:(easy) R) as [I P]. specialize (P t). pose proof (i_good s I t) as G. pose proof (run_ul _ _ _ _ R) as U. cbn in U. rewrite U in G.
  assert (C : m_cur (tsl s t) = m_type (tsl s t)). { destruct (type_eqb_spec (m_cur (tsl s t)) (m_type (tsl s t))) as [E|E]; [easy|]. destruct (p_cur _ _ _ _ _ _ _ P E T). discriminate. }
  pose proof (p_reg _ _ _ _ _ _ _ P) as PR. rewrite C in PR. unfold configured. rewrite (p_type _ _ _ _ _ _ _ P). destruct (g_life _ _ _ _ G) as (v & L & W).
  assert (D : m_type (tsl s t) = TS_NONE \/ m_type (tsl s t) <> TS_NONE) by (destruct (m_type (tsl s t)); auto; right; easy).
  destruct D as [D|D].
  - rewrite D in *. destruct (m_fd (tsl s t)) as [| |f] eqn:F; unfold stage_ok in W; rewrite F in W; try (now subst v). exfalso. now apply (g_place _ _ _ _ G f F).
  - assert (X : exists f pr dev c g, life None (proj t (out s)) = Some (Some (f, Polled)) /\ wanted u t (m_type (tsl s t)) pr c g /\ In (ESock f pr) (proj t (out s)) /\ In (EBind f dev c g) (proj t (out s))).
    { destruct (type_eqb_spec (m_type (tsl s t)) TS_NONE); [easy|]. cbn in PR. destruct (sh_reg _ (g_shape _ _ _ _ G) PR) as (f & F). unfold stage_ok in W. rewrite F in W. destruct W as (g & -> & W). apply W in PR. subst g.
      destruct (C62_placed k u p vs s t f R L) as (ty' & _). destruct (g_place _ _ _ _ G f F) as (N & A & B). destruct (B (proj2 W eq_refl)) as (dev & B'). rewrite C in *. exists f, (proto_of u t (m_type (tsl s t))), dev, (chan_of u t (m_type (tsl s t))), (group_of u (m_type (tsl s t))). split; [easy|]. split; [now apply wanted_of|easy]. }
    destruct (m_type (tsl s t)); [easy|exact X..].
Qed.

(** ** updating *)
Lemma closing_down x : closing x = down_es x.
Proof. unfold closing, down_es. destruct (m_fd x); try easy. now destruct (m_reg x). Qed.
Lemma updated_ren k u dev t z z' es n' : updated k u dev t z z' None es -> (ln z' <= n')%nat -> renewed u dev t (ln z) n' (lx z) (lx z') es /\ m_cur (lx z') = m_type (lx z) /\ m_type (lx z') = m_type (lx z).
Proof.
  intros U N. inversion U as [C|C T| | |n C T L]; subst.
  - split; [now apply RenSame|]. now rewrite C.
  - rewrite <- closing_down. split; [|easy]. apply RenNone; cbn; auto.
  - rewrite <- closing_down. split; [|easy]. cbn [ln] in N. unfold up_es. eapply RenOpen; cbn [lx up_x down_x m_cur m_fd m_reg m_unc m_lapd m_type]; auto; [now apply wanted_of|lia].
Qed.
Lemma renewed_widen u dev t n n' m m' x y es : renewed u dev t n n' x y es -> (m <= n)%nat -> (n' <= m')%nat -> renewed u dev t m m' x y es.
Proof. intros R A B. destruct R; [now apply RenSame|now apply RenNone|]. apply RenOpen; auto. lia. Qed.
Lemma updated_bad k u dev t z z' rc es : updated k u dev t z z' (Some rc) es -> rc < 0 /\ exists n, (ln z <= n)%nat /\ failure k n.
Proof.
  intros U. inversion U as [| |rc' C T R K|rc' q n wr m C T R P L M K|]; subst.
  - split; [easy|]. exists (ln z). split; [easy|]. unfold failure. auto.
  - split; [easy|]. exists m. split; [lia|]. unfold failure. intuition.
Qed.
Lemma loop_desc k ts : forall s, Inv s -> NoDup ts -> let r := update_loop k ts s in
  (tick s <= tick (fst r))%nat /\ dummy (fst r) = dummy s /\
  (forall t, ~ In t ts -> tsl (fst r) t = tsl s t /\ proj t (out (fst r)) = proj t (out s)) /\
  (snd r = 0 -> forall t, In t ts -> exists es, proj t (out (fst r)) = proj t (out s) ++ es /\ renewed (ul s) (port s) t (tick s) (tick (fst r)) (tsl s t) (tsl (fst r) t) es /\ m_cur (tsl (fst r) t) = m_type (tsl s t) /\ m_type (tsl (fst r) t) = m_type (tsl s t)) /\
  (snd r <> 0 -> snd r < 0 /\ exists n, (tick s <= n)%nat /\ failure k n).
Proof.
  induction ts as [|t r IH]; intros s I ND; cbv zeta; cbn [update_loop].
  - cbn [fst snd]. repeat split; auto; easy.
  - inversion ND as [|? ? N1 N2]; subst. destruct (update_spec k (ul s) (port s) t (enter s t)) as (es & U); [apply (i_good s I t)|].
    pose proof (updated_keep _ _ _ _ (enter s t) _ _ _ (g_shape _ _ _ _ (i_good s I t)) U) as K. destruct (update_ts k (ul s) (port s) t (enter s t)) as [z o]. cbn [fst snd] in *.
    assert (I' : Inv (leave s t z)) by (apply leave_inv; [easy|now exists es]). pose proof (kp_n _ _ _ _ _ K) as KN. pose proof (kp_les _ _ _ _ _ K) as KL. cbn [enter ln les app] in KN, KL.
    assert (O : forall t', t' <> t -> tsl (leave s t z) t' = tsl s t' /\ proj t' (out (leave s t z)) = proj t' (out s)).
    { intros t' N. unfold leave, upd. cbn [tsl out]. rewrite KL, proj_app, proj_other, app_nil_r by congruence. destruct (Nat.eqb_spec t' t); easy. }
    assert (OT : tsl (leave s t z) t = lx z /\ proj t (out (leave s t z)) = proj t (out s) ++ es).
    { unfold leave, upd. cbn [tsl out]. now rewrite Nat.eqb_refl, KL, proj_app, proj_own. }
    destruct o as [rc|].
    + cbn [fst snd]. apply updated_bad in U as (X & Y). cbn [enter ln] in Y. split; [exact KN|]. split; [easy|]. split; [intros t' N; apply O; intros ->; apply N; now left|]. split; [intros ->; lia|]. auto.
    + specialize (IH (leave s t z) I' N2). cbv zeta in IH. destruct (update_loop k r (leave s t z)) as [s' rc]. cbn [fst snd] in *. destruct IH as (H1 & H2 & H3 & H4 & H5). change (tick (leave s t z)) with (ln z) in *. change (ul (leave s t z)) with (ul s) in *. change (port (leave s t z)) with (port s) in *. change (dummy (leave s t z)) with (dummy s) in *.
      split; [lia|]. split; [easy|]. split.
      { intros t' N. destruct (H3 t') as [A B]; [intros X; apply N; now right|]. destruct (O t') as [A' B']; [intros ->; apply N; now left|]. split; congruence. }
      split.
      * intros Z t' [<-|J].
        -- destruct (H3 t N1) as [A B]. exists es. destruct OT as [OT1 OT2]. rewrite B, OT2, A, OT1. split; [easy|]. apply updated_ren with (n' := tick s') in U; [|easy]. exact U.
        -- assert (NE : t' <> t) by (intros ->; easy). destruct (H4 Z t' J) as (es' & A & B & C & D). destruct (O t' NE) as [O1 O2]. rewrite O1, O2 in *. exists es'. split; [easy|]. split; [eapply renewed_widen; [exact B|lia|lia]|easy].
      * intros Z. destruct (H5 Z) as (X & n & Y & W). split; [easy|]. exists n. split; [lia|easy].
Qed.
Lemma dummy_desc k s : let r := dummy_up k s in (tick s <= tick (fst r))%nat /\ tsl (fst r) = tsl s /\ ul (fst r) = ul s /\ port (fst r) = port s /\ (forall t, proj t (out (fst r)) = proj t (out s)) /\
  (forall rc, snd r = Some rc -> rc < 0 /\ exists n, (tick s <= n)%nat /\ failure k n) /\
  (snd r = None -> ((exists f, dummy (fst r) = Open f) <-> ul s = true /\ exists t, inslot t /\ m_type (tsl s t) = TS_SIGN)).
Proof.
  cbv zeta. unfold dummy_up. set (sg := existsb _ _). assert (SG : sg = true <-> exists t, inslot t /\ m_type (tsl s t) = TS_SIGN).
  { subst sg. rewrite existsb_exists. split; intros (t & A & B); exists t; [apply slots_in in A|apply slots_in in A; split; [easy|]; now rewrite B]. destruct (type_eqb_spec (m_type (tsl s t)) TS_SIGN); easy. }
  clearbody sg.
  assert (PN : forall t es, forallb (fun e => match e with LTs _ _ => false | _ => true end) es = true -> proj t (out s ++ es) = proj t (out s)).
  { intros t es H. rewrite proj_app. replace (proj t es) with (@nil eff); [apply app_nil_r|]. induction es as [|e r IH]; [easy|]. cbn in H. destruct e; try discriminate; cbn; auto. }
  destruct (sg && ul s) eqn:B.
  - apply andb_true_iff in B as [B1 B2]. assert (D : ul s = true /\ exists t, inslot t /\ m_type (tsl s t) = TS_SIGN) by (split; [easy|now apply SG]).
    destruct (dummy s) as [| |f] eqn:DU; [| |cbn [fst snd]; split; [easy|]; split; [easy|]; split; [easy|]; split; [easy|]; split; [easy|]; split; [discriminate|]; intros _; split; [intros _; exact D|intros _; eauto]].
    all: destruct (k_sock k (tick s)) eqn:K1; cbn [negb fst snd]; [destruct (k_bind k (S (tick s))) eqn:K2; cbn [fst snd tick tsl ul port out dummy]|].
    all: split; [cbn; lia|]; split; [easy|]; split; [easy|]; split; [easy|]; split; [intros t; cbn [out]; try (now apply PN); now rewrite app_nil_r|]; split; [|try discriminate].
    all: try (intros rc [=]; subst; split; [lia|]).
    all: try (intros _; split; [intros _; exact D|intros _; eauto]).
    all: try (intros rc X; discriminate X).
    all: [> exists (S (tick s)) | exists (tick s) | exists (S (tick s)) | exists (tick s) ]; (split; [lia|]); unfold failure; auto.
  - assert (D : ~ (ul s = true /\ exists t, inslot t /\ m_type (tsl s t) = TS_SIGN)). { intros [X Y]. apply SG in Y. rewrite X, Y in B. discriminate. }
    destruct (dummy s) as [| |f] eqn:DU; cbn [fst snd tick tsl ul port out dummy]; (split; [easy|]; split; [easy|]; split; [easy|]; split; [easy|]; split; [intros t; try easy; now apply PN|]; split; [discriminate|]; intros _; split; [intros (f' & X); congruence|intros X; now elim D]).
Qed.
(** an update that returns 0 leaves every timeslot as configured: nothing done where nothing
    changed, else the old socket closed and a new one set up *)
Theorem C62_update k u p vs s s' t : run k (st_init u p) vs = Ok s -> line_update k s = (s', 0) -> (1 <= t <= 31)%nat ->
  exists es, proj t (out s') = proj t (out s) ++ es /\ renewed u (port s) t (tick s) (tick s') (tsl s t) (tsl s' t) es /\ m_cur (tsl s' t) = m_type (tsl s t) /\ m_type (tsl s' t) = m_type (tsl s t).
Proof.
  intros R H T. pose proof (reach_inv _ _ _ _ _ R) as I. pose proof (run_ul _ _ _ _ R) as U. cbn in U. unfold line_update in H. set (s1 := mkS _ _ _ _ _ _ _ _ _) in *.
  assert (I1 : Inv s1) by (apply (tick_inv (say s [LUpdate])); [now apply say_inv|cbn; lia]). destruct (k_card k _) as [rc|]; [injection H as <- H; destruct (Z.ltb_spec rc 0); lia|].
  pose proof (dummy_inv k s1 I1) as I2. destruct (dummy_desc k s1) as (D1 & D2 & D3 & D4 & D5 & D6 & D7). destruct (dummy_up k s1) as [s2 [rc|]]; cbn [fst snd] in *.
  - injection H as <- ->. destruct (D6 0 eq_refl) as [X _]. lia.
  - destruct (loop_desc k slots s2 I2 (seq_NoDup 31 1)) as (L1 & _ & L3 & L4 & _). rewrite H in *. cbn [fst snd] in *. destruct (L4 eq_refl t) as (es & A & B & C & E); [now apply slots_in|].
    exists es. rewrite A, D5. change (proj t (out s1)) with (proj t (out s ++ [LUpdate])). rewrite proj_app. cbn [proj flat_map app]. rewrite app_nil_r. split; [easy|]. rewrite D2, D3, D4 in *. change (tsl s1) with (tsl s) in *. change (ul s1) with (ul s) in *. rewrite U in B. split; [|exact (conj C E)]. eapply renewed_widen; [exact B| |lia]. cbn in D1. lia.
Qed.
(** one that fails says so with a negative number, and only if the kernel refused something *)
Theorem C62_failed k u p vs s s' rc : run k (st_init u p) vs = Ok s -> line_update k s = (s', rc) -> rc <> 0 -> rc < 0 /\ exists n, (tick s <= n)%nat /\ failure k n.
Proof.
  intros R H N. pose proof (reach_inv _ _ _ _ _ R) as I. unfold line_update in H. set (s1 := mkS _ _ _ _ _ _ _ _ _) in *.
  assert (I1 : Inv s1) by (apply (tick_inv (say s [LUpdate])); [now apply say_inv|cbn; lia]). destruct (k_card k _) as [e|] eqn:C.
  - injection H as <- <-. split; [destruct (Z.ltb_spec e 0); lia|]. exists (tick s). split; [lia|]. unfold failure. left. cbn in C. rewrite C. discriminate.
  - pose proof (dummy_inv k s1 I1) as I2. destruct (dummy_desc k s1) as (D1 & D2 & D3 & D4 & D5 & D6 & D7). destruct (dummy_up k s1) as [s2 [e|]]; cbn [fst snd] in *.
    + injection H as <- <-. destruct (D6 e eq_refl) as [X (n & Y & W)]. split; [easy|]. exists n. split; [cbn in Y; lia|easy].
    + destruct (loop_desc k slots s2 I2 (seq_NoDup 31 1)) as (L1 & _ & L3 & _ & L5). rewrite H in *. cbn [fst snd] in *. destruct (L5 N) as (X & n & Y & W). split; [easy|]. exists n. split; [cbn in D1; lia|easy].
Qed.
(** the D-channel is held open, after a successful update, just while signalling uses LAPD of
    this library *)
Theorem C62_dchannel k u p vs s s' : run k (st_init u p) vs = Ok s -> line_update k s = (s', 0) ->
  ((exists f, life_dummy None (out s') = Some (Some f)) <-> u = true /\ exists t, (1 <= t <= 31)%nat /\ m_type (tsl s' t) = TS_SIGN).
Proof.
  intros R H. pose proof (reach_inv _ _ _ _ _ R) as I. pose proof (run_ul _ _ _ _ R) as U. cbn in U. pose proof (update_inv k s I) as I'. rewrite H in I'. cbn [fst] in I'.
  assert (TY : forall t, inslot t -> m_type (tsl s' t) = m_type (tsl s t)) by (intros t T; destruct (C62_update k u p vs s s' t R H T) as (es & _ & _ & _ & X); exact X).
  unfold line_update in H. set (s1 := mkS _ _ _ _ _ _ _ _ _) in *.
  assert (I1 : Inv s1) by (apply (tick_inv (say s [LUpdate])); [now apply say_inv|cbn; lia]). destruct (k_card k _) as [rc|]; [injection H as <- H; destruct (Z.ltb_spec rc 0); lia|].
  pose proof (dummy_inv k s1 I1) as I2. destruct (dummy_desc k s1) as (D1 & D2 & D3 & D4 & D5 & D6 & D7). destruct (dummy_up k s1) as [s2 [rc|]]; cbn [fst snd] in *.
  { injection H as <- ->. destruct (D6 0 eq_refl) as [X _]. lia. }
  destruct (loop_desc k slots s2 I2 (seq_NoDup 31 1)) as (L1 & L2 & _). rewrite H in *. cbn [fst snd] in *. rewrite (i_dummy s' I'), L2. specialize (D7 eq_refl). change (ul s1) with (ul s) in D7. change (tsl s1) with (tsl s) in D7. rewrite U in D7.
  split.
  - intros (f & X). destruct (dummy s2) as [| |g] eqn:DU; try discriminate. destruct (proj1 D7 (ex_intro _ g eq_refl)) as (A & t & B & C). split; [easy|]. exists t. split; [exact B|]. now rewrite TY.
  - intros (A & t & B & C). rewrite TY in C by exact B. destruct (proj2 D7) as (f & F); [eauto|]. exists f. now rewrite F.
Qed.
(** nothing is dereferenced that is not there, as long as the application updates after it
    configured, and does not configure a timeslot in that timeslot's own callback *)
Theorem C62_safe k u p vs r : obliging k -> forallb polite vs = true -> run k (st_init u p) vs = Bad r -> r = LinksLeft.
Proof. intros O V R. pose proof (run_pol k False O vs (st_init u p) (init_pol k False u p) V ltac:(easy)) as H. now rewrite R in H. Qed.

(** ** examples and counterexamples *)
Definition k0 : kern := mkK (fun _ => None) (fun _ => true) (fun _ => true) (fun _ => true) (fun _ => true) (fun _ => true) (fun n i => Z.of_nat (n + i)).
(** bind() fails at question [n] only *)
Definition k_nobind (n : nat) : kern := mkK (fun _ => None) (fun _ => true) (fun i => negb (Nat.eqb i n)) (fun _ => true) (fun _ => true) (fun _ => true) (fun _ _ => 0).
(** write() is short at question [n] only *)
Definition k_short (n : nat) : kern := mkK (fun _ => None) (fun _ => true) (fun _ => true) (fun _ => true) (fun _ => true) (fun i => negb (Nat.eqb i n)) (fun _ _ => 0).
Lemma k0_obliging : obliging k0. Proof. easy. Qed.
Lemma k0_full : full k0. Proof. easy. Qed.
Definition day : list ev := [App [CConfig 1 TS_SIGN; CConfig 2 TS_RAW; CConfig 3 TS_HDLC; CConfig 4 TS_TRAU; CUpdate; CLink 1 1 10 62; CLink 1 2 10 0];
  Ready 1 (Some (REstab 5 10 62)) false [CSend 1 1 [1;2]; CSend 2 0 [128;3]; CSend 2 0 [4]; CSend 3 0 [9]]; Ready 1 None true []; Ready 2 None true []; Ready 2 (Some (RPhData [1;64])) false []; Ready 2 (Some RCnf) true []; Ready 2 None true []; Ready 3 None true [];
  TxTimer 1; Ready 1 (Some (RMph 17)) false []; Ready 3 (Some (RMph 21)) false []; Ready 1 (Some (RMph 16)) false [CConfig 4 TS_NONE; CUpdate]; Ready 1 (Some (RDlData 10 62 [7])) true []].
Example day_polite : forallb polite day = true /\ forallb keeps_links day = true. Proof. now vm_compute. Qed.
Definition trace (k : kern) (u : bool) (p : nat) (vs : list ev) : list leff := match run k (st_init u p) vs with Ok s => out s | Bad _ => [] end.
Example day_runs : exists s, run k0 (st_init false 0) day = Ok s /\ configured 2 (out s) = TS_RAW /\ configured 4 (out s) = TS_NONE /\ rets (out s) = [0; 0] /\
  proj 1 (out s) = [EConf TS_SIGN; ESock 1 LAPD_NT; EBind 1 0 0 true; EClear 1; EReg 1; ELink 1 10 62; ELink 2 10 0; EChan 1 5; EUp 1 true; EAcc 1 [1;2]; ESign 1 1 5 62 10 [1;2]; ERx 10 62 [7]] /\
  proj 2 (out s) = [EConf TS_RAW; ESock 5 B_RAW; EBind 5 0 2 false; EAct 5; EReg 5; EAcc 0 [128;3]; EAcc 0 [4]; EData 5 (Msg 0) [128;3] [1;192] true; ERx 0 0 [128;2]; ECnf; EData 5 (Msg 0) [4] [32] true] /\
  life None (proj 4 (out s)) = Some None /\ alarms (out s) = mkD false false true.
Proof. eexists. repeat (split; [vm_compute; reflexivity|]). vm_compute. reflexivity. Qed.
Example day_user : exists s, run k0 (st_init true 0) day = Ok s /\ proj 1 (out s) = [EConf TS_SIGN; ESock 3 B_HDLC; EBind 3 0 1 false; EAct 3; EReg 3; ELink 1 10 62; ELink 2 10 0; EChan 1 5; EUp 1 true; EAcc 1 [1;2]; ELapdTx 1 [1;2]] /\ life_dummy None (out s) = Some (Some 1%nat).
Proof. eexists. repeat (split; [vm_compute; reflexivity|]). vm_compute. reflexivity. Qed.
(** failing: what a timeslot is configured as is noted before its socket is set up, so one whose
    setup failed is not tried again: the next update returns 0 and the timeslot is dead *)
Theorem C62_retry_refuted : exists k s, run k (st_init false 0) [App [CConfig 1 TS_RAW; CUpdate; CUpdate]] = Ok s /\ rets (out s) = [-5; 0] /\ (forall n, (3 <= n)%nat -> ~ failure k n) /\ life None (proj 1 (out s)) = Some (Some (1%nat, Opened)).
Proof.
  exists (k_nobind 2). eexists. split; [vm_compute; reflexivity|]. split; [vm_compute; reflexivity|]. split; [|vm_compute; reflexivity].
  intros n N [F|[F|[F|[F|F]]]]; cbn in F; try discriminate; [easy|]. destruct n as [|[|[|n]]]; try lia. discriminate.
Qed.
(** ... the same for the socket that holds the D-channel open *)
Theorem C62_dchannel_refuted : exists k s, run k (st_init true 0) [App [CConfig 1 TS_SIGN; CUpdate; CUpdate]] = Ok s /\ rets (out s) = [-5; 0] /\ life_dummy None (out s) = Some (Some 1%nat) /\ (forall f d, ~ In (LDummyBind f d) (out s)).
Proof.
  exists (k_nobind 2). eexists. split; [vm_compute; reflexivity|]. split; [vm_compute; reflexivity|]. split; [vm_compute; reflexivity|]. cbn [out]. intros f d. cbn. intros H. repeat (destruct H as [H|H]; [discriminate|]). exact H.
Qed.
(** a line that is moved to another port keeps its sockets on the old one *)
Theorem C62_port_refuted : exists s, run k0 (st_init false 0) [App [CConfig 1 TS_RAW; CUpdate; CPort 7; CUpdate]] = Ok s /\ rets (out s) = [0; 0] /\ port s = 7%nat /\
  life None (proj 1 (out s)) = Some (Some (1%nat, Polled)) /\ (forall f d c g, In (LTs 1 (EBind f d c g)) (out s) -> d = 0%nat).
Proof.
  eexists. split; [vm_compute; reflexivity|]. split; [vm_compute; reflexivity|]. split; [vm_compute; reflexivity|]. split; [vm_compute; reflexivity|]. cbn [out]. intros f d c g. cbn. intros H. repeat (destruct H as [H|H]; [try discriminate; now injection H|]). easy.
Qed.
(** I.460 timeslots are set up on the D-channel, whatever their number, and never read or written *)
Theorem C62_i460_refuted : (exists s, run k0 (st_init false 0) [App [CConfig 5 TS_I460; CUpdate]] = Ok s /\ rets (out s) = [0] /\ proj 5 (out s) = [EConf TS_I460; ESock 1 B_RAW; EBind 1 0 0 false; EAct 1; EReg 1]) /\
  forall k s t r w act, m_type (tsl s t) = TS_I460 -> step k s (Ready t r w act) = Ok s.
Proof.
  split; [eexists; split; [vm_compute; reflexivity|]; split; vm_compute; reflexivity|]. intros k s t r w act T. cbn [step]. destruct (m_reg _); [|easy]. unfold fd_cb. now rewrite T.
Qed.
(** Sa bits set while timeslot 16 is not open are written to descriptor 0 *)
Theorem C62_sa_refuted : exists s, run k0 (st_init false 0) [App [CConfig 1 TS_RAW; CUpdate; CSa 5]] = Ok s /\ proj 16 (out s) = [EStrayX].
Proof. eexists. split; vm_compute; reflexivity. Qed.
(** crashes: a timeslot configured for signalling but not yet updated receives ... *)
Theorem C62_order_refuted : run k0 (st_init true 0) [App [CConfig 1 TS_RAW; CUpdate; CConfig 1 TS_SIGN]; Ready 1 (Some (RPhData [1])) false []] = Bad NullLapd.
Proof. vm_compute. reflexivity. Qed.
(** ... a timeslot configured anew in its own callback ... *)
Theorem C62_callback_refuted : run k0 (st_init false 0) [App [CConfig 1 TS_SIGN; CUpdate; CLink 1 1 0 0; CSend 1 1 [7]; CUnlink 1 1]; Ready 1 (Some (RDlData 0 0 [1])) true [CConfig 1 TS_TRAU; CUpdate]] = Bad BadLink.
Proof. vm_compute. reflexivity. Qed.
(** ... a timeslot configured anew while it has signalling links *)
Theorem C62_links_refuted : run k0 (st_init false 0) [App [CConfig 1 TS_SIGN; CUpdate; CLink 1 1 0 0; CConfig 1 TS_RAW]] = Bad LinksLeft.
Proof. vm_compute. reflexivity. Qed.
