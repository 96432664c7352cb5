(** C63: what the driver believes to be in flight is in flight; what it accepts. *)
From Coq Require Import List Arith Lia Bool ZArith.
From Verif Require Import Base E1Model MisdnModel MisdnSpec MisdnProofs MisdnRunProofs MisdnPoliteProofs MisdnProps MisdnDataProps.
Import ListNotations.
Open Scope Z_scope.

(** ** the flag of the driver and the trace *)
Definition conv (b : bool) (x : mts) : Prop := (exists f, m_fd x = Open f) -> m_unc x = true -> b = true.
Definition FK (z z' : loc) : Prop := exists es, les z' = les z ++ es /\ forall b b', flight b es = Some b' -> conv b (lx z) -> conv b' (lx z').
Lemma fk_trans a b c : FK a b -> FK b c -> FK a c.
Proof.
  intros (e & A & A') (f & B & B'). exists (e ++ f). split; [now rewrite B, A, app_assoc|]. intros x y H C. rewrite flight_app in H. destruct (flight x e) as [w|] eqn:F; [|discriminate H]. exact (B' w y H (A' x w F C)).
Qed.
Lemma fk_refl z : FK z z. Proof. exists []. split; [now rewrite app_nil_r|]. intros b b' [= <-]. easy. Qed.
(** the flag and the socket stay *)
Lemma fk_same z z' : les z' = les z -> m_fd (lx z') = m_fd (lx z) -> m_unc (lx z') = m_unc (lx z) -> FK z z'.
Proof. intros A B C. exists []. split; [now rewrite A, app_nil_r|]. intros b b' [= <-]. unfold conv. now rewrite B, C. Qed.
Lemma fk_emit z z' e : les z' = les z ++ [e] -> (forall b, flies b e = Some b) -> m_fd (lx z') = m_fd (lx z) -> m_unc (lx z') = m_unc (lx z) -> FK z z'.
Proof. intros A F B C. exists [e]. split; [exact A|]. intros b b' H. cbn [flight] in H. rewrite F in H. injection H as <-. unfold conv. now rewrite B, C. Qed.
Lemma fk_off z z' es : les z' = les z ++ es -> m_unc (lx z') = false -> FK z z'.
Proof. intros A B. exists es. split; [exact A|]. intros b b' _ _ _ X. congruence. Qed.

Lemma fk_want z : FK z (want_write z). Proof. unfold want_write. destruct (m_type (lx z)); now apply fk_same. Qed.
Lemma fk_config ty z z' : config ty z = Ok z' -> FK z z'.
Proof. unfold config. destruct (type_eqb _ _); [intros [= <-]; apply fk_refl|]. destruct (_ && _); [discriminate|]. intros [= <-]. now apply (fk_emit _ _ (EConf ty)). Qed.
Lemma fk_link i a b z : FK z (link i a b z). Proof. unfold link. destruct (_ && _); [now apply (fk_emit _ _ (ELink i a b))|apply fk_refl]. Qed.
Lemma fk_unlink i z : FK z (unlink i z). Proof. unfold unlink. destruct (_ && _); [now apply (fk_emit _ _ (EUnlink i))|apply fk_refl]. Qed.
Lemma fk_send i m z : FK z (send i m z).
Proof.
  unfold send. destruct (negb _); [apply fk_refl|]. destruct (m_type (lx z)); try apply fk_refl.
  - destruct (m_tmr (lx z)); [now apply (fk_emit _ _ (EAcc i m))|]. eapply fk_trans; [|apply fk_want]. now apply (fk_emit _ _ (EAcc i m)).
  - eapply fk_trans; [apply fk_want|]. now apply (fk_emit _ _ (EAcc i m)).
  - eapply fk_trans; [apply fk_want|]. now apply (fk_emit _ _ (EAcc i m)).
Qed.
Lemma fk_sa b z : FK z (sa_write b z). Proof. unfold sa_write. destruct (m_fd (lx z)); eapply fk_emit; reflexivity. Qed.
Lemma fk_lapd m z : FK z (lapd_write m z). Proof. unfold lapd_write. destruct (m_fd (lx z)); eapply fk_emit; reflexivity. Qed.
Lemma fk_block k l z : FK z (block_write k l z). Proof. unfold block_write. destruct (m_fd (lx z)); eapply fk_emit; reflexivity. Qed.
Lemma fk_data k rev z : FK z (data_write k rev z).
Proof.
  unfold data_write. set (z0 := put z _). apply fk_trans with z0; [now apply fk_same|]. clearbody z0. destruct (m_unc (lx z0)) eqn:U; [apply fk_refl|].
  assert (X : FK z0 (fst (tx_ts k z0)) /\ m_unc (lx (fst (tx_ts k z0))) = false). { unfold tx_ts. destruct (m_type (lx z0)); try (split; [now apply fk_same|exact U]); destruct (take _) as [[[a m] q]|]; (split; [now apply fk_same|exact U]). }
  destruct (tx_ts k z0) as [z1 [[w m]|]]; cbn [fst] in X; [|apply X]. destruct X as [X U1]. eapply fk_trans; [exact X|]. unfold out_data. destruct (m_fd (lx z1)) as [| |f] eqn:F.
  - destruct (k_write k (ln z1)).
    + exists [EStray w m]. split; [reflexivity|]. intros b b' _ _ (f & X'). cbn in X'. congruence.
    + eapply fk_emit; reflexivity.
  - eapply fk_emit; reflexivity.
  - destruct (k_write k (ln z1)) eqn:W.
    + eexists. split; [reflexivity|]. intros b b' H _ _ _. cbn [flight flies] in H. destruct b; [discriminate H|]. now injection H as <-.
    + apply (fk_off z1 _ [EData f w m (if rev then map rev8 m else m) false]); [reflexivity|exact U1].
Qed.
Lemma fk_sign k u z z' : sign_write k u z = Ok z' -> FK z z'.
Proof.
  unfold sign_write. set (z0 := put z _). intros H. apply fk_trans with z0; [now apply fk_same|]. clearbody z0. revert H. destruct (m_type (lx z0)); try discriminate; try (intros [= <-]; apply fk_refl); destruct (take _) as [[[a m] q]|]; try discriminate; try (intros [= <-]; apply fk_refl).
  destruct u; [destruct (m_lapd _); [|discriminate]|]; intros [= <-]; [eapply fk_emit; reflexivity|]. destruct (m_fd _); eapply fk_emit; reflexivity.
Qed.
Lemma fk_chan a b c z : FK z (tell_chan a b c z). Proof. unfold tell_chan. destruct (lookup _ _ _); [eapply fk_emit; reflexivity|apply fk_refl]. Qed.
Lemma fk_idle z e : (forall b, flies b e = Some b) -> FK z (emit z e). Proof. intros H. now apply (fk_emit _ _ e). Qed.
Lemma down_off z : exists es, les (down_ts z) = les z ++ es /\ m_unc (lx (down_ts z)) = false.
Proof.
  unfold down_ts. destruct (m_fd (lx z)) as [| |f] eqn:F; [..|destruct (m_reg (lx z))]; cbn [put emit lx w_fd w_lapd m_fd]; rewrite ?F; cbn [put emit lx les w_cur w_unc m_unc]; (eexists; split; [|reflexivity]); rewrite <- ?app_assoc; try reflexivity; now rewrite app_nil_r.
Qed.
Lemma up_off k u d t f z : m_unc (lx z) = false -> exists es, les (fst (up_ts k u d t f z)) = les z ++ es /\ m_unc (lx (fst (up_ts k u d t f z))) = false.
Proof.
  intros U. unfold up_ts. set (z0 := if _ && u then _ else z). assert (X : les z0 = les z /\ m_unc (lx z0) = false) by (subst z0; destruct (_ && u); now split). clearbody z0. destruct X as (X & Y).
  destruct (k_bind k _); cbn [negb]; [|exists []; cbn; now rewrite X, app_nil_r]. destruct (_ && _); [eexists; split; [cbn; rewrite X; reflexivity|exact Y]|].
  destruct (k_reg k _); cbn [fst]; (eexists; split; [unfold emit, next, put; cbn [les]; rewrite X, <- ?app_assoc; reflexivity|exact Y]).
Qed.
Lemma fk_update k u d t z : FK z (fst (update_ts k u d t z)).
Proof.
  unfold update_ts. destruct (type_eqb _ _); [apply fk_refl|]. destruct (down_off z) as (es & A & B). destruct (type_eqb _ _); [now apply (fk_off z _ es)|]. destruct (k_sock k _).
  - set (z1 := emit _ _). destruct (up_off k u d t (ln (down_ts z)) z1) as (es' & A' & B'); [exact B|]. eapply (fk_off z); [|exact B']. rewrite A'. subst z1. unfold emit, next, put. cbn [les]. rewrite A, <- !app_assoc. reflexivity.
  - now apply (fk_off z _ es).
Qed.

Definition FS (s : st) : Prop := forall t b, flight false (proj t (out s)) = Some b -> conv b (tsl s t).
Lemma fs_leave s t z : FS s -> FK (enter s t) z -> FS (leave s t z).
Proof.
  intros P (es & L & X) t' b H. unfold leave in *. cbn [tsl out] in *. cbn [enter les app lx] in L, X. rewrite L, proj_app in H. unfold upd. destruct (Nat.eqb_spec t' t) as [->|NE].
  - rewrite proj_own, flight_app in H. destruct (flight false (proj t (out s))) as [b0|] eqn:F; [|discriminate H]. exact (X b0 b H (P t b0 F)).
  - rewrite proj_other, app_nil_r in H by congruence. now apply P.
Qed.
Lemma fs_on s t f : FS s -> (forall z, FK z (f z)) -> FS (on s t f). Proof. intros P F. apply fs_leave; auto. Qed.
Lemma fs_onr s t f s' : FS s -> (forall z z', f z = Ok z' -> FK z z') -> onr s t f = Ok s' -> FS s'.
Proof. intros P F. unfold onr. destruct (f (enter s t)) as [z|] eqn:E; [|discriminate]. intros [= <-]. apply fs_leave; auto. Qed.
Lemma fs_ext s s' : FS s -> tsl s' = tsl s -> (forall t, proj t (out s') = proj t (out s)) -> FS s'.
Proof. intros P A B t b H. rewrite B in H. rewrite A. now apply P. Qed.
Lemma fs_loop k ts : forall s, FS s -> FS (fst (update_loop k ts s)).
Proof.
  induction ts as [|t r IH]; intros s P; [exact P|]. cbn [update_loop]. pose proof (fk_update k (ul s) (port s) t (enter s t)) as K. destruct (update_ts k (ul s) (port s) t (enter s t)) as [z [rc|]]; cbn [fst] in *; [now apply fs_leave|]. apply IH. now apply fs_leave.
Qed.
Lemma fs_line k s : FS s -> FS (fst (line_update k s)).
Proof.
  intros P. unfold line_update. set (s1 := mkS _ _ _ _ _ _ _ _ _). assert (P1 : FS s1) by (apply (fs_ext s); [exact P|easy|]; intros t; subst s1; cbn [say out]; rewrite proj_app; cbn; now rewrite app_nil_r).
  destruct (k_card k _); [exact P1|].
  assert (P2 : FS (fst (dummy_up k s1))). { apply (fs_ext s1); [exact P1|..]; unfold dummy_up; destruct (_ && _); destruct (dummy s1); try easy; try (destruct (negb _); [|destruct (k_bind k _)]); try easy; intros t; cbn [fst out]; rewrite proj_app; cbn; now rewrite app_nil_r. }
  destruct (dummy_up k s1) as [s2 [rc|]]; cbn [fst] in *; [exact P2|now apply fs_loop].
Qed.
Lemma fs_exec k s c s' : FS s -> exec k s c = Ok s' -> FS s'.
Proof.
  intros P. destruct c as [t ty|p| |t i tei sapi|t i|t i m|b]; cbn [exec].
  - destruct (valid t); [|now intros [= <-]]. apply fs_onr; auto. apply fk_config.
  - intros [= <-]. apply (fs_ext s); auto.
  - pose proof (fs_line k s P) as U. destruct (line_update k s) as [s1 rc]. cbn [fst] in U. intros [= <-]. apply (fs_ext s1); [exact U|easy|]. intros t. cbn [say out]. rewrite proj_app. cbn. now rewrite app_nil_r.
  - intros [= <-]. destruct (valid t); [|exact P]. apply fs_on; [exact P|]. intros z. apply fk_link.
  - intros [= <-]. destruct (valid t); [|exact P]. apply fs_on; [exact P|]. intros z. apply fk_unlink.
  - intros [= <-]. destruct (valid t); [|exact P]. apply fs_on; [exact P|]. intros z. apply fk_send.
  - intros [= <-]. destruct (ul s); [exact P|]. apply fs_on; [exact P|]. intros z. apply fk_sa.
Qed.
Lemma fs_execs k cs : forall s s', FS s -> execs k cs s = Ok s' -> FS s'.
Proof. induction cs as [|c r IH]; intros s s' P; cbn [execs]; [now intros [= <-]|]. destruct (exec k s c) as [s1|] eqn:E; [|discriminate]. apply IH. eapply fs_exec; eauto. Qed.
Lemma fs_mph s i : FS s -> FS (mph_info s i).
Proof.
  intros P. apply (fs_ext s); [exact P|..].
  - unfold mph_info. destruct (_ =? 256); [easy|]. repeat (destruct (_ =? _); [cbv zeta; destruct (negb _ && _); [|destruct (_ && negb _)]; easy|]). easy.
  - intros t. unfold mph_info. destruct (_ =? 256); [cbn [say out]; rewrite proj_app; cbn; now rewrite app_nil_r|].
    repeat (destruct (_ =? _); [cbv zeta; destruct (negb _ && _); [|destruct (_ && negb _)]; (cbn [say out]; rewrite !proj_app; cbn; now rewrite !app_nil_r)|]). easy.
Qed.
Lemma fs_event k s t tei sapi up act s' : FS s -> event k s t tei sapi up act = Ok s' -> FS s'.
Proof. intros P. unfold event. destruct (lookup _ _ _); [|now intros [= <-]]. apply fs_execs. apply fs_on; [exact P|]. intros z. now apply fk_idle. Qed.
Lemma fs_step k s v s' : FS s -> step k s v = Ok s' -> FS s'.
Proof.
  intros P. destruct v as [cs|t r w act|t|t m]; cbn [step].
  - now apply fs_execs.
  - destruct (m_reg _); [|now intros [= <-]]. unfold fd_cb.
    assert (ID : forall s0 e, FS s0 -> (forall b, flies b e = Some b) -> FS (on s0 t (fun z => emit z e))) by (intros s0 e P0 H; apply fs_on; [exact P0|]; intros z; now apply fk_idle).
    assert (DR : forall raw r s1, data_read k s t raw r act = Ok s1 -> FS s1).
    { intros raw q s1. destruct q; cbn [data_read]; try (now intros [= <-]).
      - intros [= <-]. now apply ID.
      - apply fs_execs. now apply ID.
      - intros [= <-]. apply fs_on; [exact P|]. intros z. eapply (fk_off z _ [ECnf]); reflexivity.
      - destruct raw; [now intros [= <-]|]. apply fs_execs. now apply fs_mph. }
    assert (TR : forall r s1, trau_read k s t r act = Ok s1 -> FS s1).
    { intros q s1. destruct q; cbn [trau_read]; try (now intros [= <-]).
      - intros [= <-]. now apply ID.
      - apply fs_execs. apply fs_on; [exact P|]. intros z. eapply fk_trans; [apply fk_block|now apply fk_idle]. }
    assert (SR : forall r s1, sign_read k s t r act = Ok s1 -> FS s1).
    { intros q s1. destruct q; cbn [sign_read]; try (now intros [= <-]).
      - intros [= <-]. apply fs_on; [exact P|]. intros z. apply fk_chan.
      - apply fs_event. apply fs_on; [exact P|]. intros z. apply fk_chan.
      - now apply fs_event.
      - destruct (ul s); [now intros [= <-]|]. apply fs_execs. now apply ID.
      - destruct (negb (ul s)); [intros [= <-]; now apply ID|]. destruct (m_lapd _); [|discriminate]. apply fs_execs. now apply ID.
      - apply fs_execs. now apply fs_mph. }
    destruct (m_type (tsl s t)); try (now intros [= <-]).
    + destruct r as [r|]; [destruct (sign_read k s t r act) as [s1|] eqn:E; [|discriminate]; apply SR in E|rename P into E]; (destruct (w && _); [|now intros [= <-]]; apply fs_onr; auto; apply fk_sign).
    + destruct r as [r|]; [destruct (trau_read k s t r act) as [s1|] eqn:E; [|discriminate]; apply TR in E|rename P into E]; (destruct (w && _); now intros [= <-]).
    + destruct r as [r|]; [destruct (data_read k s t true r act) as [s1|] eqn:E; [|discriminate]; apply DR in E|rename P into E]; (destruct (w && _); intros [= <-]; [|exact E]; apply fs_on; [exact E|]; intros z; apply fk_data).
    + destruct r as [r|]; [destruct (data_read k s t false r act) as [s1|] eqn:E; [|discriminate]; apply DR in E|rename P into E]; (destruct (w && _); intros [= <-]; [|exact E]; apply fs_on; [exact E|]; intros z; apply fk_data).
  - destruct (m_tmr _); intros [= <-]; [|exact P]. apply fs_on; [exact P|]. intros z. eapply fk_trans; [|apply fk_want]. now apply fk_same.
  - destruct (m_lapd _); intros [= <-]; [|exact P]. apply fs_on; [exact P|]. intros z. apply fk_lapd.
Qed.
Lemma fs_run k vs : forall s s', FS s -> run k s vs = Ok s' -> FS s'.
Proof. induction vs as [|v r IH]; intros s s' P; cbn [run]; [now intros [= <-]|]. destruct (step k s v) as [s1|] eqn:E; [|discriminate]. apply IH. eapply fs_step; eauto. Qed.

(** ** C63 *)
(** while a socket is polled, the driver holds its next frame back just while the last one it
    wrote in full is not confirmed: it never waits for a confirmation that is not due *)
Theorem C63_unconfirmed k u p vs s t f : run k (st_init u p) vs = Ok s -> life None (proj t (out s)) = Some (Some (f, Polled)) -> flight false (proj t (out s)) = Some (m_unc (tsl s t)).
Proof.
  intros R L. destruct (polled_fd k u p vs s t f R L) as (I & F & _). assert (P : FS s). { apply (fs_run k vs (st_init u p) s); [|exact R]. intros t' b _ (g & X). discriminate X. }
  destruct (g_fly _ _ _ _ (i_good s I t)) as (b & H & B). rewrite H. f_equal. destruct b; [now destruct (B eq_refl)|]. destruct (m_unc (tsl s t)) eqn:U; [|easy]. now rewrite (P t false H) by eauto.
Qed.
(** so a raw or HDLC timeslot that is asked and has no frame in flight writes *)
Theorem C63_written_when_idle k u p vs s t f m r : run k (st_init u p) vs = Ok s -> life None (proj t (out s)) = Some (Some (f, Polled)) -> m_type (tsl s t) = TS_RAW \/ m_type (tsl s t) = TS_HDLC ->
  queue 0 (m_q (tsl s t)) = m :: r -> m_wr (tsl s t) = true -> flight false (proj t (out s)) = Some false ->
  exists s' o, step k s (Ready t None true []) = Ok s' /\ out s' = out s ++ [LTs t (EData f (Msg 0) m o (k_write k (tick s)))] /\ (m_type (tsl s t) = TS_RAW -> Forall2 reversed m o) /\ (m_type (tsl s t) = TS_HDLC -> o = m) /\ queue 0 (m_q (tsl s' t)) = r.
Proof. intros R L T Q W F. apply (C63_written k u p vs s t f m r R L T Q W). rewrite (C63_unconfirmed k u p vs s t f R L) in F. congruence. Qed.

(** a message for a queue or link that exists, on any of the timeslots 1 to 32, is accepted: it
    becomes the last of its queue and nothing else changes *)
Theorem C63_accept k u p vs s t i m : run k (st_init u p) vs = Ok s -> (1 <= t <= 32)%nat -> m_type (tsl s t) = TS_SIGN \/ m_type (tsl s t) = TS_RAW \/ m_type (tsl s t) = TS_HDLC -> (exists a, In a (m_q (tsl s t)) /\ l_id a = i) ->
  exists s', step k s (App [CSend t i m]) = Ok s' /\ out s' = out s ++ [LTs t (EAcc i m)] /\ queue i (m_q (tsl s' t)) = queue i (m_q (tsl s t)) ++ [m] /\
    (m_wr (tsl s' t) = true \/ m_tmr (tsl s' t) = true) /\ (forall t', t' <> t -> tsl s' t' = tsl s t').
Proof.
  intros R T TY (a & IN & ID). assert (H : has i (m_q (tsl s t)) = true) by (apply existsb_exists; exists a; split; [exact IN|now apply Nat.eqb_eq]).
  assert (V : valid t = true) by (unfold valid; apply andb_true_iff; split; apply Nat.leb_le; lia).
  assert (Q : forall q, queue i (append i m q) = if has i q then queue i q ++ [m] else queue i q) by (intros q; now rewrite append_queue, Nat.eqb_refl).
  eexists. split; [cbn [step execs exec]; rewrite V; reflexivity|]. unfold on, leave, send. cbn [enter lx tsl out]. rewrite H. cbn [negb].
  destruct TY as [E | [E | E]]; rewrite E; [destruct (m_tmr (tsl s t)) eqn:TM|..]; unfold want_write, put, emit; cbn [enter lx les w_q w_wr m_type]; rewrite ?E; cbn [les lx w_q w_wr m_q m_wr m_tmr map app]; unfold upd; rewrite Nat.eqb_refl; cbn [m_q m_wr m_tmr];
    (split; [reflexivity|]; split; [etransitivity; [apply Q|]; now rewrite H|]; split; [auto|]; intros t' N; apply Nat.eqb_neq in N; now rewrite N).
Qed.
(** a message for nobody, or for a timeslot that a line does not have, changes nothing *)
Theorem C63_ignored k u p vs s t i m : run k (st_init u p) vs = Ok s -> ~ (1 <= t <= 32)%nat \/ ~ (exists a, In a (m_q (tsl s t)) /\ l_id a = i) ->
  exists s', step k s (App [CSend t i m]) = Ok s' /\ out s' = out s /\ (forall t', tsl s' t' = tsl s t').
Proof.
  intros R N. cbn [step execs exec]. destruct (valid t) eqn:V; [|exists s; easy].
  assert (H : has i (m_q (tsl s t)) = false). { destruct (has i (m_q (tsl s t))) eqn:H; [|easy]. exfalso. unfold has in H. apply existsb_exists in H. destruct H as (a & IN & ID). apply Nat.eqb_eq in ID. unfold valid in V. apply andb_true_iff in V. destruct V as [A B]. apply Nat.leb_le in A, B. destruct N as [N|N]; [now apply N|]. apply N. eauto. }
  eexists. split; [reflexivity|]. unfold on, leave, send. cbn [enter lx tsl out]. rewrite H. cbn [negb lx les enter map]. rewrite app_nil_r. split; [easy|]. intros t'. unfold upd. destruct (Nat.eqb_spec t' t) as [->|]; easy.
Qed.
(** a timeslot is given a type just when it is one of 1 to 32 and its type changes; its queues
    are then new, and nothing happens to its socket before the next update of the line *)
Theorem C63_config k u p vs s t ty s' : run k (st_init u p) vs = Ok s -> step k s (App [CConfig t ty]) = Ok s' ->
  ((1 <= t <= 32)%nat /\ m_type (tsl s t) <> ty /\ out s' = out s ++ [LTs t (EConf ty)] /\ m_type (tsl s' t) = ty /\ m_fd (tsl s' t) = m_fd (tsl s t) /\ (forall i, queue i (m_q (tsl s' t)) = []) /\ (forall t', t' <> t -> tsl s' t' = tsl s t'))
  \/ ((~ (1 <= t <= 32)%nat \/ m_type (tsl s t) = ty) /\ out s' = out s /\ forall t', tsl s' t' = tsl s t').
Proof.
  intros R. cbn [step execs exec]. destruct (valid t) eqn:V; unfold valid in V.
  - apply andb_true_iff in V. destruct V as [A B]. apply Nat.leb_le in A, B. unfold onr, config. cbn [enter lx]. destruct (type_eqb (m_type (tsl s t)) ty) eqn:TY.
    + assert (EQ : m_type (tsl s t) = ty) by (destruct (m_type (tsl s t)), ty; easy). intros [= <-]. right. split; [now right|]. unfold leave. cbn [enter les lx map out tsl]. rewrite app_nil_r. split; [easy|]. intros t'. unfold upd. destruct (Nat.eqb_spec t' t) as [->|]; easy.
    + assert (NE : m_type (tsl s t) <> ty) by (intros X; rewrite X in TY; destruct ty; discriminate TY). destruct (_ && _); [discriminate|]. intros [= <-]. left. unfold leave. cbn [put emit enter les lx map out tsl app]. unfold upd. rewrite Nat.eqb_refl. cbn [w_type m_type m_fd m_q].
      split; [lia|]. split; [exact NE|]. split; [easy|]. split; [easy|]. split; [easy|]. split; [intros i; destruct ty; try easy; cbn; now destruct i|]. intros t' N. apply Nat.eqb_neq in N. now rewrite N.
  - intros [= <-]. right. split; [|easy]. left. intros X. destruct X as [A B]. apply Nat.leb_le in A, B. rewrite A, B in V. discriminate V.
Qed.
(** without a usable card an update opens, closes and polls nothing; it returns the error of the
    system call, or that of a missing device (ENODEV, 19) *)
Theorem C62_no_card k u p vs s rc : run k (st_init u p) vs = Ok s -> k_card k (tick s) = Some rc ->
  exists s', step k s (App [CUpdate]) = Ok s' /\ out s' = out s ++ [LUpdate; LRet (if rc <? 0 then rc else -19)] /\ (forall t, tsl s' t = tsl s t).
Proof.
  intros R C. cbn [step execs exec]. unfold line_update. cbn [say tick]. rewrite C. eexists. split; [reflexivity|]. cbn [say out tsl]. rewrite <- app_assoc. now split.
Qed.

(** ** cases that meet the hypotheses *)
Example C63_accept_met : exists s, run k0 (st_init false 0) [App [CConfig 32 TS_RAW; CConfig 1 TS_SIGN; CLink 1 4 9 62]] = Ok s /\ m_type (tsl s 32) = TS_RAW /\ (exists a, In a (m_q (tsl s 32)) /\ l_id a = 0%nat) /\ exists a, In a (m_q (tsl s 1)) /\ l_id a = 4%nat.
Proof. eexists. split; [reflexivity|]. split; [reflexivity|]. split; eexists; (split; [now left|reflexivity]). Qed.
Example C62_no_card_met : exists s, run (mkK (fun _ => Some 0) (fun _ => true) (fun _ => true) (fun _ => true) (fun _ => true) (fun _ => true) (fun _ _ => 0)) (st_init false 0) [App [CConfig 1 TS_RAW; CUpdate]] = Ok s /\ rets (out s) = [-19].
Proof. eexists. split; reflexivity. Qed.
Example C63_idle_met : match run k0 (st_init false 0) [App [CConfig 2 TS_RAW; CUpdate; CSend 2 0 [128;3]]] with Ok s => life None (proj 2 (out s)) = Some (Some (1%nat, Polled)) /\ flight false (proj 2 (out s)) = Some false /\ m_wr (tsl s 2) = true /\ queue 0 (m_q (tsl s 2)) = [[128;3]] | Bad _ => False end.
Proof. now vm_compute. Qed.
