(** Invariants of the mISDN driver model: the line. *)
From Coq Require Import List Arith Lia Bool ZArith.
From Verif Require Import Base E1Model MisdnModel MisdnSpec MisdnProofs.
Import ListNotations.
Open Scope Z_scope.

Lemma proj_app t a b : proj t (a ++ b) = proj t a ++ proj t b.
Proof. apply flat_map_app. Qed.
Lemma proj_own t es : proj t (map (LTs t) es) = es.
Proof. induction es as [|e r IH]; [easy|]. cbn. rewrite Nat.eqb_refl. cbn. f_equal. exact IH. Qed.
Lemma proj_other t u es : u <> t -> proj t (map (LTs u) es) = [].
Proof. intros N. apply Nat.eqb_neq in N. induction es as [|e r IH]; [easy|]. cbn. rewrite N. exact IH. Qed.
Lemma socks_app a b : socks (a ++ b) = socks a ++ socks b. Proof. apply flat_map_app. Qed.
Lemma socks_ts t es : socks (map (LTs t) es) = esocks es.
Proof. induction es as [|e r IH]; [easy|]. cbn. unfold socks, esocks in *. rewrite IH. now destruct e. Qed.
Lemma ld_app a : forall v b, life_dummy v (a ++ b) = match life_dummy v a with Some w => life_dummy w b | None => None end.
Proof. induction a as [|e a IH]; intros v b; [easy|]. cbn [app life_dummy]. destruct (advance_dummy v e); [apply IH|easy]. Qed.
Lemma ld_ts t v es : life_dummy v (map (LTs t) es) = Some v.
Proof. induction es as [|e r IH]; [easy|]. exact IH. Qed.
Lemma alarms_app a b : alarms (a ++ b) = fold_left defect b (alarms a). Proof. apply fold_left_app. Qed.
Lemma alarms_ts t es : forall d, fold_left defect (map (LTs t) es) d = d.
Proof. induction es as [|e r IH]; intros d; [easy|]. apply IH. Qed.
Lemma raised_app a : forall v b, raised v (a ++ b) = match raised v a with Some w => raised w b | None => None end.
Proof. induction a as [|e a IH]; intros v b; [easy|]. cbn [app raised]. destruct e as [|[]| | | | |]; try apply IH. destruct (Bool.eqb v b0); [easy|apply IH]. Qed.
Lemma raised_ts t v es : raised v (map (LTs t) es) = Some v.
Proof. induction es as [|e r IH]; [easy|]. exact IH. Qed.

Record Inv (s : st) : Prop := {
  i_good : forall t, Good (ul s) t (tsl s t) (proj t (out s));
  i_socks : NoDup (socks (out s)) /\ Forall (fun f => (f < tick s)%nat) (socks (out s));
  i_dummy : life_dummy None (out s) = Some (match dummy s with Open f => Some f | _ => None end);
  i_alarm : alarms (out s) = mkD (los s) (ais s) (rai s) /\ raised false (out s) = Some (los s || ais s || rai s)
}.
Lemma init_inv u p : Inv (st_init u p).
Proof.
  split; cbn; try easy.
  - intros t. split; try easy.
    + split; try easy. constructor.
    + now exists None.
    + exists false. easy.
  - split; constructor.
Qed.
(** effects of the line that say nothing here *)
Definition plain (e : leff) : bool := match e with LUpdate | LRet _ | LSig (SSa _) => true | _ => false end.
Lemma say_inv s es : Inv s -> forallb plain es = true -> Inv (say s es).
Proof.
  intros [A B C D] P. assert (Q : forall e, In e es -> plain e = true) by (now apply forallb_forall).
  assert (X : (forall t, proj t es = []) /\ socks es = [] /\ (forall v, life_dummy v es = Some v) /\ (forall d, fold_left defect es d = d) /\ (forall b, raised b es = Some b)).
  { clear -P. induction es as [|e r IH]; [easy|]. cbn [forallb] in P. apply andb_true_iff in P as [P P']. destruct (IH P') as (I1 & I2 & I3 & I4 & I5). destruct e as [|[]| | | | |]; try discriminate; cbn; auto. }
  destruct X as (X1 & X2 & X3 & X4 & X5). split; cbn [say ul port dummy los ais rai tsl tick out].
  - intros t. rewrite proj_app, X1, app_nil_r. apply A.
  - rewrite socks_app, X2, app_nil_r. easy.
  - now rewrite ld_app, C.
  - rewrite alarms_app, X4, raised_app. destruct D as [D1 D2]. now rewrite D2.
Qed.
Lemma tick_inv s n : Inv s -> (tick s <= n)%nat -> Inv (mkS (ul s) (port s) (dummy s) (los s) (ais s) (rai s) (tsl s) n (out s)).
Proof. intros [A [B B'] C D] N. split; cbn; auto. split; [easy|]. eapply Forall_impl; [|exact B']. cbn. intros; lia. Qed.
Lemma leave_inv s t z : Inv s -> Kept (ul s) t (enter s t) z -> Inv (leave s t z).
Proof.
  intros [A [B B'] C D] [es [K1 K2 [K3 K5] K4]]. cbn [enter les app lx ln] in *. unfold leave. rewrite K1. split; cbn [ul port dummy los ais rai tsl tick out].
  - intros u. rewrite proj_app. unfold upd. destruct (Nat.eqb_spec u t) as [->|NE]; [rewrite proj_own; apply K4, A|rewrite proj_other, app_nil_r by congruence; apply A].
  - rewrite socks_app, socks_ts. split.
    + apply nodup_app; [easy..|]. intros x I J. rewrite Forall_forall in B', K3. specialize (B' _ I). specialize (K3 _ J). lia.
    + apply Forall_app. split; eapply Forall_impl; try eassumption; cbn; intros; lia.
  - now rewrite ld_app, C, ld_ts.
  - rewrite alarms_app, alarms_ts, raised_app. destruct D as [D1 D2]. now rewrite D2, raised_ts.
Qed.
Lemma on_inv s t f : Inv s -> (forall z, m_type (lx z) = m_type (tsl s t) -> Kept (ul s) t z (f z)) -> Inv (on s t f).
Proof. intros I H. apply leave_inv; [easy|]. now apply H. Qed.
Lemma onr_inv s t f s' : Inv s -> (forall z z', f z = Ok z' -> Kept (ul s) t z z') -> onr s t f = Ok s' -> Inv s'.
Proof. unfold onr. intros I H. destruct (f (enter s t)) as [z|] eqn:F; [|discriminate]. intros [= <-]. apply leave_inv; eauto. Qed.

(** ** updating *)
Lemma dummy_inv k s : Inv s -> Inv (fst (dummy_up k s)).
Proof.
  intros I. unfold dummy_up. set (sg := existsb _ _). clearbody sg. destruct I as [A [B B'] C D].
  assert (X : forall d n es, (tick s <= n)%nat -> (forall t, proj t es = []) -> (forall d, fold_left defect es d = d) -> (forall b, raised b es = Some b) ->
    Forall (fun f => tick s <= f < n)%nat (socks es) -> NoDup (socks es) ->
    life_dummy (match dummy s with Open f => Some f | _ => None end) es = Some (match d with Open f => Some f | _ => None end) ->
    Inv (mkS (ul s) (port s) d (los s) (ais s) (rai s) (tsl s) n (out s ++ es))).
  { intros d n es N X1 X2 X3 X4 X5 X6. split; cbn [ul port dummy los ais rai tsl tick out].
    - intros t. rewrite proj_app, X1, app_nil_r. apply A.
    - rewrite socks_app. split.
      + apply nodup_app; auto. intros x I J. rewrite Forall_forall in B', X4. specialize (B' _ I). specialize (X4 _ J). lia.
      + apply Forall_app. split; eapply Forall_impl; try eassumption; cbn; intros; lia.
    - now rewrite ld_app, C.
    - rewrite alarms_app, X2, raised_app. destruct D as [D1 D2]. now rewrite D2, X3. }
  destruct (sg && ul s).
  - destruct (dummy s) as [| |f] eqn:DU; cbn [fst]; [..|now split; auto; rewrite DU].
    all: destruct (k_sock k (tick s)); cbn [negb fst]; [destruct (k_bind k (S (tick s))); cbn [fst]|]; apply X; try easy; try lia; cbn; try (constructor; [lia|constructor]); try (repeat constructor; easy); now rewrite ?Nat.eqb_refl.
  - destruct (dummy s) as [| |f] eqn:DU; cbn [fst]; [now split; auto; rewrite DU..|]. apply X; try easy; try lia; cbn; try constructor. now rewrite Nat.eqb_refl.
Qed.
Lemma loop_inv k ts : forall s, Inv s -> Inv (fst (update_loop k ts s)).
Proof.
  induction ts as [|t r IH]; intros s I; [easy|]. cbn [update_loop]. destruct (update_spec k (ul s) (port s) t (enter s t)) as (es & U); [apply (i_good s I t)|].
  apply updated_keep in U; [|apply (i_good s I t)]. destruct (update_ts k (ul s) (port s) t (enter s t)) as [z o]. cbn [fst] in U.
  assert (L : Inv (leave s t z)) by (apply leave_inv; [easy|now exists es]). destruct o; [exact L|now apply IH].
Qed.
Lemma update_inv k s : Inv s -> Inv (fst (line_update k s)).
Proof.
  intros I. unfold line_update. set (s1 := mkS _ _ _ _ _ _ _ _ _).
  assert (I1 : Inv s1). { apply (tick_inv (say s [LUpdate])); [now apply say_inv|cbn; lia]. }
  destruct (k_card k _); [exact I1|]. pose proof (dummy_inv k s1 I1) as I2. destruct (dummy_up k s1) as [s2 [rc|]]; [exact I2|]. now apply loop_inv.
Qed.
Lemma exec_inv k s c s' : Inv s -> exec k s c = Ok s' -> Inv s'.
Proof.
  intros I. destruct c as [t ty|p| |t i tei sapi|t i|t i m|b]; cbn [exec].
  - destruct (valid t); [|now intros [= <-]]. apply onr_inv; [easy|]. intros; eapply kept_config; eauto.
  - intros [= <-]. now destruct I.
  - pose proof (update_inv k s I) as U. destruct (line_update k s) as [s1 rc]. intros [= <-]. now apply say_inv.
  - intros [= <-]. destruct (valid t); [|easy]. apply on_inv; [easy|]. intros; apply kept_link.
  - intros [= <-]. destruct (valid t); [|easy]. apply on_inv; [easy|]. intros; apply kept_unlink.
  - intros [= <-]. destruct (valid t); [|easy]. apply on_inv; [easy|]. intros; apply kept_send.
  - intros [= <-]. destruct (ul s); [easy|]. apply on_inv; [easy|]. intros; apply kept_sa.
Qed.
Lemma execs_inv k cs : forall s s', Inv s -> execs k cs s = Ok s' -> Inv s'.
Proof. induction cs as [|c r IH]; intros s s' I; cbn [execs]; [now intros [= <-]|]. destruct (exec k s c) as [s1|] eqn:E; [|discriminate]. apply IH. eapply exec_inv; eauto. Qed.
Lemma mph_inv s i : Inv s -> Inv (mph_info s i).
Proof.
  intros I. unfold mph_info. destruct (_ =? 256); [now apply say_inv|].
  assert (X : forall a b c g, defect (mkD (los s) (ais s) (rai s)) (LSig g) = mkD a b c -> (forall v, g <> SAlarm v) ->
    Inv (let s1 := mkS (ul s) (port s) (dummy s) a b c (tsl s) (tick s) (out s ++ [LSig g]) in if negb (los s || ais s || rai s) && (a || b || c) then say s1 [LSig (SAlarm true)] else if (los s || ais s || rai s) && negb (a || b || c) then say s1 [LSig (SAlarm false)] else s1)).
  { intros a b c g H N. destruct I as [A [B B'] C [D D']].
    assert (Y : forall es, (forall e, In e es -> exists v, e = LSig (SAlarm v)) -> raised (los s || ais s || rai s) es = Some (a || b || c)%bool -> Inv (mkS (ul s) (port s) (dummy s) a b c (tsl s) (tick s) ((out s ++ [LSig g]) ++ es))).
    { intros es E R. split; cbn [ul port dummy los ais rai tsl tick out].
      - intros t. rewrite !proj_app. replace (proj t es) with (@nil eff); [cbn [proj flat_map]; rewrite !app_nil_r; apply A|]. clear -E. induction es as [|e r IH]; [easy|]. cbn. destruct (E e (or_introl eq_refl)) as (v & ->). apply IH. intros; apply E; now right.
      - rewrite !socks_app. replace (socks es) with (@nil nat); [cbn [socks flat_map]; rewrite !app_nil_r; easy|]. clear -E. induction es as [|e r IH]; [easy|]. cbn. destruct (E e (or_introl eq_refl)) as (v & ->). apply IH. intros; apply E; now right.
      - rewrite !ld_app, C. cbn. clear -E. induction es as [|e r IH]; [easy|]. cbn. destruct (E e (or_introl eq_refl)) as (v & ->). cbn. apply IH. intros; apply E; now right.
      - rewrite !alarms_app, !raised_app, D, D'. cbn [fold_left]. rewrite H. split.
        + clear -E. induction es as [|e r IH]; [easy|]. cbn. destruct (E e (or_introl eq_refl)) as (v & ->). cbn. apply IH. intros; apply E; now right.
        + cbn [raised]. destruct g; try exact R. now elim (N b0). }
    cbv zeta. destruct (negb _ && _) eqn:Q1; [|destruct (_ && negb _) eqn:Q2].
    - unfold say. cbn [ul port dummy los ais rai tsl tick out]. apply Y; [intros e [<-|[]]; eauto|]. apply andb_true_iff in Q1 as [Q1 Q1']. apply negb_true_iff in Q1. rewrite Q1, Q1'. easy.
    - unfold say. cbn [ul port dummy los ais rai tsl tick out]. apply Y; [intros e [<-|[]]; eauto|]. apply andb_true_iff in Q2 as [Q2 Q2']. apply negb_true_iff in Q2'. rewrite Q2, Q2'. easy.
    - rewrite <- (app_nil_r (out s ++ [LSig g])). apply Y; [easy|]. cbn [raised]. f_equal. destruct (los s || ais s || rai s), (a || b || c); easy. }
  repeat (destruct (_ =? _); [apply X; [reflexivity|discriminate]|]). exact I.
Qed.
Lemma emit_inv s t e : Inv s -> idle e = true -> writes e = None -> Inv (on s t (fun z => emit z e)).
Proof. intros I E W. apply on_inv; [easy|]. intros z _. apply kept_idle; [easy|]. congruence. Qed.
Lemma event_inv k s t tei sapi up act s' : Inv s -> event k s t tei sapi up act = Ok s' -> Inv s'.
Proof. intros I. unfold event. destruct (lookup _ _ _); [|now intros [= <-]]. intros H. eapply execs_inv; [|exact H]. now apply emit_inv. Qed.
Lemma cb_inv k s t r w act s' : Inv s -> fd_cb k s t r w act = Ok s' -> Inv s'.
Proof.
  intros I. unfold fd_cb. destruct (m_type (tsl s t)) eqn:TY; try (now intros [= <-]).
  - assert (R : forall r s1, sign_read k s t r act = Ok s1 -> Inv s1).
    { intros [|c tei sapi|c tei sapi|tei sapi|tei sapi o|o| |i|] s1; cbn [sign_read]; try (now intros [= <-]).
      - intros [= <-]. apply on_inv; [easy|]. intros z TZ. apply kept_chan. congruence.
      - apply event_inv. apply on_inv; [easy|]. intros z TZ. apply kept_chan. congruence.
      - now apply event_inv.
      - destruct (ul s); [now intros [= <-]|]. intros H. eapply execs_inv; [|exact H]. now apply emit_inv.
      - destruct (negb (ul s)); [intros [= <-]; now apply emit_inv|]. destruct (m_lapd _); [|discriminate]. intros H. eapply execs_inv; [|exact H]. now apply emit_inv.
      - intros H. eapply execs_inv; [|exact H]. now apply mph_inv. }
    assert (W : forall s1 s2, Inv s1 -> onr s1 t (sign_write k (ul s1)) = Ok s2 -> Inv s2) by (intros s1 s2 I1; apply onr_inv; [easy|]; intros; eapply kept_sign; eauto).
    destruct r as [r|]; [destruct (sign_read k s t r act) as [s1|] eqn:E; [|discriminate]; apply R in E|]; (destruct w; [now apply W|now intros [= <-]]).
  - assert (R : forall r s1, trau_read k s t r act = Ok s1 -> Inv s1).
    { intros [|c tei sapi|c tei sapi|tei sapi|tei sapi o|o| |i|] s1; cbn [trau_read]; try (now intros [= <-]).
      - intros [= <-]. now apply emit_inv.
      - intros H. eapply execs_inv; [|exact H]. apply on_inv; [easy|]. intros z _. eapply kept_trans; [apply kept_block|]. now apply kept_idle. }
    destruct r as [r|]; [destruct (trau_read k s t r act) as [s1|] eqn:E; [|discriminate]; apply R in E|]; (destruct w; intros [= <-]; auto).
  - assert (R : forall r s1, data_read k s t true r act = Ok s1 -> Inv s1).
    { intros [|c tei sapi|c tei sapi|tei sapi|tei sapi o|o| |i|] s1; cbn [data_read]; try (now intros [= <-]).
      - intros [= <-]. now apply emit_inv.
      - intros H. eapply execs_inv; [|exact H]. now apply emit_inv.
      - intros [= <-]. apply on_inv; [easy|]. intros; apply kept_cnf. }
    assert (W : forall s1, Inv s1 -> Inv (on s1 t (data_write k true))) by (intros s1 I1; apply on_inv; [easy|]; intros; apply kept_data).
    destruct r as [r|]; [destruct (data_read k s t true r act) as [s1|] eqn:E; [|discriminate]; apply R in E|]; (destruct w; intros [= <-]; auto).
  - assert (R : forall r s1, data_read k s t false r act = Ok s1 -> Inv s1).
    { intros [|c tei sapi|c tei sapi|tei sapi|tei sapi o|o| |i|] s1; cbn [data_read]; try (now intros [= <-]).
      - intros [= <-]. now apply emit_inv.
      - intros H. eapply execs_inv; [|exact H]. now apply emit_inv.
      - intros [= <-]. apply on_inv; [easy|]. intros; apply kept_cnf.
      - intros H. eapply execs_inv; [|exact H]. now apply mph_inv. }
    assert (W : forall s1, Inv s1 -> Inv (on s1 t (data_write k false))) by (intros s1 I1; apply on_inv; [easy|]; intros; apply kept_data).
    destruct r as [r|]; [destruct (data_read k s t false r act) as [s1|] eqn:E; [|discriminate]; apply R in E|]; (destruct w; intros [= <-]; auto).
Qed.
Lemma step_inv k s v s' : Inv s -> step k s v = Ok s' -> Inv s'.
Proof.
  intros I. destruct v as [cs|t r w act|t|t m]; cbn [step].
  - now apply execs_inv.
  - destruct (m_reg _); [|now intros [= <-]]. now apply cb_inv.
  - destruct (m_tmr _); intros [= <-]; [|easy]. apply on_inv; [easy|]. intros; apply kept_timer.
  - destruct (m_lapd _); intros [= <-]; [|easy]. apply on_inv; [easy|]. intros; apply kept_lapd.
Qed.
Lemma run_inv k vs : forall s s', Inv s -> run k s vs = Ok s' -> Inv s'.
Proof. induction vs as [|v r IH]; intros s s' I; cbn [run]; [now intros [= <-]|]. destruct (step k s v) as [s1|] eqn:E; [|discriminate]. apply IH. eapply step_inv; eauto. Qed.
