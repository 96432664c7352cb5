(** C81, mISDN: a line taken out of service, then freed. *)
From Coq Require Import List Arith Lia Bool ZArith.
From Verif Require Import Base E1Model MisdnModel MisdnSpec MisdnProofs MisdnRunProofs MisdnPoliteProofs MisdnProps.
Import ListNotations.
Open Scope Z_scope.

(** ** Model: the end of a line *)
(** e1_input.c:530-573 e1inp_line_use_cb: when the last reference is gone the line is taken out
    of the list and freed with its timeslots; no function of the driver is called and no
    timeslot is looked at.  The osmo_fd of a timeslot and its delay timer are in that memory; the
    LAPD instance has no parent (lapd.c:681) and keeps the osmo_fd as its callback data.
    [strikes]: the select loop, a timer or LAPD calls the driver with memory of the line *)
Definition strikes (s : st) (v : ev) : bool :=
  match v with App _ => false | Ready t _ _ _ => m_reg (tsl s t) | TxTimer t => m_tmr (tsl s t) | LapdOut t _ => m_lapd (tsl s t) end.
(** what happens after the end: does anything use the memory that was freed? *)
Definition used_after_free (s : st) (vs : list ev) : bool := existsb (strikes s) vs.

(** ** which timeslots an update looks at *)
Definition CK (z z' : loc) : Prop := m_cur (lx z') = m_cur (lx z).
Lemma ck_trans a b c : CK a b -> CK b c -> CK a c. Proof. unfold CK. congruence. Qed.
Lemma ck_want z : CK z (want_write z). Proof. unfold want_write. now destruct (m_type (lx z)). Qed.
Lemma ck_config ty z z' : config ty z = Ok z' -> CK z z'.
Proof. unfold config. destruct (type_eqb _ _); [now intros [= <-]|]. destruct (_ && _); [discriminate|]. now intros [= <-]. Qed.
Lemma ck_link i a b z : CK z (link i a b z). Proof. unfold link. now destruct (_ && _). Qed.
Lemma ck_unlink i z : CK z (unlink i z). Proof. unfold unlink. now destruct (_ && _). Qed.
Lemma ck_send i m z : CK z (send i m z).
Proof. unfold send. destruct (negb _); [easy|]. destruct (m_type (lx z)); try easy; [destruct (m_tmr (lx z)); [easy|]| |]; unfold CK; cbv zeta; unfold want_write, emit, put; cbn [lx w_q m_type]; now destruct (m_type (lx z)). Qed.
Lemma ck_data k rev z : CK z (data_write k rev z).
Proof.
  unfold data_write. set (z0 := put z _). apply ck_trans with z0; [easy|]. clearbody z0. destruct (m_unc (lx z0)); [easy|].
  assert (X : CK z0 (fst (tx_ts k z0))). { unfold tx_ts. destruct (m_type (lx z0)); try easy; now destruct (take _) as [[[a m] q]|]. }
  destruct (tx_ts k z0) as [z1 [[w m]|]]; cbn [fst] in X; [|exact X]. eapply ck_trans; [exact X|]. unfold out_data. destruct (m_fd (lx z1)); try (now destruct (k_write k (ln z1))).
Qed.
Lemma ck_sign k u z z' : sign_write k u z = Ok z' -> CK z z'.
Proof.
  unfold sign_write. set (z0 := put z _). intros H. apply ck_trans with z0; [easy|]. clearbody z0. revert H. destruct (m_type (lx z0)); try discriminate; try (now intros [= <-]); destruct (take _) as [[[a m] q]|]; try discriminate; try (now intros [= <-]).
  destruct u; [destruct (m_lapd _); [|discriminate]|]; now intros [= <-].
Qed.
Lemma ck_chan a b c z : CK z (tell_chan a b c z). Proof. unfold tell_chan. now destruct (lookup _ _ _). Qed.

Definition CS (s : st) : Prop := forall t, ~ (1 <= t <= 31)%nat -> m_cur (tsl s t) = TS_NONE.
Lemma cs_leave s t z : CS s -> ((1 <= t <= 31)%nat \/ CK (enter s t) z) -> CS (leave s t z).
Proof. intros P K t' N. unfold leave, upd. cbn [tsl]. destruct (Nat.eqb_spec t' t) as [->|]; [|now apply P]. destruct K as [K|K]; [now elim N|]. rewrite K. now apply P. Qed.
Lemma cs_on s t f : CS s -> (forall z, CK z (f z)) -> CS (on s t f). Proof. intros P F. apply cs_leave; auto. Qed.
Lemma cs_onr s t f s' : CS s -> (forall z z', f z = Ok z' -> CK z z') -> onr s t f = Ok s' -> CS s'.
Proof. intros P F. unfold onr. destruct (f (enter s t)) as [z|] eqn:E; [|discriminate]. intros [= <-]. apply cs_leave; auto. Qed.
Lemma cs_ext s s' : CS s -> tsl s' = tsl s -> CS s'. Proof. intros P A t N. rewrite A. now apply P. Qed.
Lemma cs_loop k ts : (forall t, In t ts -> (1 <= t <= 31)%nat) -> forall s, CS s -> CS (fst (update_loop k ts s)).
Proof.
  induction ts as [|t r IH]; intros T s P; [exact P|]. cbn [update_loop]. destruct (update_ts k (ul s) (port s) t (enter s t)) as [z [rc|]]; cbn [fst] in *; [apply cs_leave; [exact P|left; apply T; now left]|].
  apply IH; [intros t' I; apply T; now right|]. apply cs_leave; [exact P|left; apply T; now left].
Qed.
Lemma cs_line k s : CS s -> CS (fst (line_update k s)).
Proof.
  intros P. unfold line_update. set (s1 := mkS _ _ _ _ _ _ _ _ _). assert (P1 : CS s1) by (now apply (cs_ext s)). destruct (k_card k _); [exact P1|].
  destruct (dummy_desc k s1) as (_ & D & _). assert (P2 : CS (fst (dummy_up k s1))) by (now apply (cs_ext s1)).
  destruct (dummy_up k s1) as [s2 [rc|]]; cbn [fst] in *; [exact P2|]. apply cs_loop; [|exact P2]. intros t I. apply slots_in in I. exact I.
Qed.
Lemma cs_exec k s c s' : CS s -> exec k s c = Ok s' -> CS s'.
Proof.
  intros P. destruct c as [t ty|p| |t i tei sapi|t i|t i m|b]; cbn [exec].
  - destruct (valid t); [|now intros [= <-]]. apply cs_onr; auto. apply ck_config.
  - intros [= <-]. now apply (cs_ext s).
  - pose proof (cs_line k s P) as U. destruct (line_update k s) as [s1 rc]. cbn [fst] in U. intros [= <-]. now apply (cs_ext s1).
  - intros [= <-]. destruct (valid t); [|exact P]. apply cs_on; [exact P|]. intros z. apply ck_link.
  - intros [= <-]. destruct (valid t); [|exact P]. apply cs_on; [exact P|]. intros z. apply ck_unlink.
  - intros [= <-]. destruct (valid t); [|exact P]. apply cs_on; [exact P|]. intros z. apply ck_send.
  - intros [= <-]. destruct (ul s); [exact P|]. apply cs_on; [exact P|]. easy.
Qed.
Lemma cs_execs k cs : forall s s', CS s -> execs k cs s = Ok s' -> CS s'.
Proof. induction cs as [|c r IH]; intros s s' P; cbn [execs]; [now intros [= <-]|]. destruct (exec k s c) as [s1|] eqn:E; [|discriminate]. apply IH. eapply cs_exec; eauto. Qed.
Lemma mph_tsl s i : tsl (mph_info s i) = tsl s.
Proof. unfold mph_info. destruct (_ =? 256); [easy|]. repeat (destruct (_ =? _); [cbv zeta; destruct (negb _ && _); [|destruct (_ && negb _)]; easy|]). easy. Qed.
Lemma cs_event k s t tei sapi up act s' : CS s -> event k s t tei sapi up act = Ok s' -> CS s'.
Proof. intros P. unfold event. destruct (lookup _ _ _); [|now intros [= <-]]. apply cs_execs. now apply cs_on. Qed.
Lemma cs_step k s v s' : CS s -> step k s v = Ok s' -> CS s'.
Proof.
  intros P. destruct v as [cs|t r w act|t|t m]; cbn [step].
  - now apply cs_execs.
  - destruct (m_reg _); [|now intros [= <-]]. unfold fd_cb.
    assert (DR : forall raw r s1, data_read k s t raw r act = Ok s1 -> CS s1).
    { intros raw q s1. destruct q; cbn [data_read]; try (now intros [= <-]).
      - intros [= <-]. now apply cs_on.
      - apply cs_execs. now apply cs_on.
      - intros [= <-]. now apply cs_on.
      - destruct raw; [now intros [= <-]|]. apply cs_execs. apply (cs_ext s); [exact P|apply mph_tsl]. }
    assert (TR : forall r s1, trau_read k s t r act = Ok s1 -> CS s1).
    { intros q s1. destruct q; cbn [trau_read]; try (now intros [= <-]).
      - intros [= <-]. now apply cs_on.
      - apply cs_execs. now apply cs_on. }
    assert (SR : forall r s1, sign_read k s t r act = Ok s1 -> CS s1).
    { intros q s1. destruct q; cbn [sign_read]; try (now intros [= <-]).
      - intros [= <-]. apply cs_on; [exact P|]. intros z. apply ck_chan.
      - apply cs_event. apply cs_on; [exact P|]. intros z. apply ck_chan.
      - now apply cs_event.
      - destruct (ul s); [now intros [= <-]|]. apply cs_execs. now apply cs_on.
      - destruct (negb (ul s)); [intros [= <-]; now apply cs_on|]. destruct (m_lapd _); [|discriminate]. apply cs_execs. now apply cs_on.
      - apply cs_execs. apply (cs_ext s); [exact P|apply mph_tsl]. }
    destruct (m_type (tsl s t)); try (now intros [= <-]).
    + destruct r as [r|]; [destruct (sign_read k s t r act) as [s1|] eqn:E; [|discriminate]; apply SR in E|rename P into E]; (destruct (w && _); [|now intros [= <-]]; apply cs_onr; auto; apply ck_sign).
    + destruct r as [r|]; [destruct (trau_read k s t r act) as [s1|] eqn:E; [|discriminate]; apply TR in E|rename P into E]; (destruct (w && _); now intros [= <-]).
    + destruct r as [r|]; [destruct (data_read k s t true r act) as [s1|] eqn:E; [|discriminate]; apply DR in E|rename P into E]; (destruct (w && _); intros [= <-]; [|exact E]; apply cs_on; [exact E|]; intros z; apply ck_data).
    + destruct r as [r|]; [destruct (data_read k s t false r act) as [s1|] eqn:E; [|discriminate]; apply DR in E|rename P into E]; (destruct (w && _); intros [= <-]; [|exact E]; apply cs_on; [exact E|]; intros z; apply ck_data).
  - destruct (m_tmr _); intros [= <-]; [|exact P]. apply cs_on; [exact P|]. intros z. eapply ck_trans; [|apply ck_want]. easy.
  - destruct (m_lapd _); intros [= <-]; [|exact P]. now apply cs_on.
Qed.
Lemma cs_run k vs : forall s s', CS s -> run k s vs = Ok s' -> CS s'.
Proof. induction vs as [|v r IH]; intros s s' P; cbn [run]; [now intros [= <-]|]. destruct (step k s v) as [s1|] eqn:E; [|discriminate]. apply IH. eapply cs_step; eauto. Qed.

(** ** C81, mISDN *)
(** all timeslots unused and an update that succeeds: every socket is closed, also the one of
    the D-channel, nothing happens any more by itself, and the line may be freed *)
Theorem C81_misdn k u p vs s s' : run k (st_init u p) vs = Ok s -> (forall t, m_type (tsl s t) = TS_NONE) -> line_update k s = (s', 0) ->
  (forall t, life None (proj t (out s')) = Some None) /\ life_dummy None (out s') = Some None /\
  (forall v, (forall cs, v <> App cs) -> step k s' v = Ok s') /\ (forall vs2, used_after_free s' vs2 = false).
Proof.
  intros R TY LU. pose proof (reach_inv _ _ _ _ _ R) as I. pose proof (update_inv k s I) as I'. rewrite LU in I'. cbn [fst] in I'.
  assert (C : CS s') by (pose proof (cs_line k s) as X; rewrite LU in X; apply X; apply (cs_run k vs (st_init u p)); [easy|exact R]).
  assert (N : forall t, m_cur (tsl s' t) = TS_NONE).
  { intros t. destruct (le_lt_dec 1 t) as [A|A]; [destruct (le_lt_dec t 31) as [B|B]|]; [|apply C; lia..]. destruct (C62_update k u p vs s s' t R LU (conj A B)) as (es & _ & _ & X & _). now rewrite X, TY. }
  assert (T' : forall t, m_type (tsl s' t) = TS_NONE \/ ~ (1 <= t <= 31)%nat /\ tsl s' t = tsl s t).
  { intros t. destruct (le_lt_dec 1 t) as [A|A]; [destruct (le_lt_dec t 31) as [B|B]|]; [left; destruct (C62_update k u p vs s s' t R LU (conj A B)) as (es & _ & _ & _ & X); now rewrite X, TY|..]; right; (split; [lia|]).
    all: unfold line_update in LU; set (s1 := mkS _ _ _ _ _ _ _ _ _) in LU; assert (I1 : Inv s1) by (apply (tick_inv (say s [LUpdate])); [now apply say_inv|cbn; lia]); destruct (k_card k _) as [rc|]; [injection LU as <- _; reflexivity|].
    all: pose proof (dummy_inv k s1 I1) as I2; destruct (dummy_desc k s1) as (_ & D2 & _); destruct (dummy_up k s1) as [s2 [rc|]]; cbn [fst] in *; [injection LU as <- _; now rewrite D2|].
    all: destruct (loop_desc k slots s2 I2 (seq_NoDup 31 1)) as (_ & _ & L3 & _); rewrite LU in L3; cbn [fst] in L3; destruct (L3 t) as [X _]; [intros Y; apply slots_in in Y; unfold inslot in Y; lia|]; now rewrite X, D2. }
  assert (TT : forall t, m_type (tsl s' t) = TS_NONE) by (intros t; destruct (T' t) as [X|[_ X]]; [exact X|rewrite X; apply TY]).
  assert (F : forall t f, m_fd (tsl s' t) <> Open f) by (intros t f X; destruct (g_place _ _ _ _ (i_good s' I' t) f X) as [Y _]; now elim Y).
  assert (RG : forall t, m_reg (tsl s' t) = false) by (intros t; destruct (m_reg (tsl s' t)) eqn:E; [|easy]; destruct (sh_reg _ (g_shape _ _ _ _ (i_good s' I' t)) E) as (f & X); now elim (F t f)).
  assert (LA : forall t, m_lapd (tsl s' t) = false) by (intros t; destruct (m_lapd (tsl s' t)) eqn:E; [|easy]; destruct (sh_lapd _ (g_shape _ _ _ _ (i_good s' I' t)) E) as (f & X); now elim (F t f)).
  assert (TM : forall t, m_tmr (tsl s' t) = false) by (intros t; destruct (m_tmr (tsl s' t)) eqn:E; [|easy]; destruct (sh_tmr _ (g_shape _ _ _ _ (i_good s' I' t)) E) as (X & _); rewrite TT in X; discriminate X).
  split; [|split; [|split]].
  - intros t. destruct (g_life _ _ _ _ (i_good s' I' t)) as (v & L & V). unfold stage_ok in V. destruct (m_fd (tsl s' t)) as [| |f] eqn:E; [now rewrite L, V..|now elim (F t f)].
  - pose proof (C62_dchannel k u p vs s s' R LU) as D. pose proof (i_dummy s' I') as ID. rewrite ID in *. destruct (dummy s') as [| |f]; try easy. exfalso. destruct (proj1 D) as (_ & t & _ & X); [eauto|]. rewrite TT in X. discriminate X.
  - intros v NA. destruct v as [cs|t r w act|t|t m]; cbn [step]; [now elim (NA cs)|now rewrite RG|now rewrite TM|now rewrite LA].
  - intros vs2. induction vs2 as [|v r IH]; [easy|]. unfold used_after_free in *. cbn [existsb]. rewrite IH, orb_false_r. destruct v; cbn [strikes]; auto.
Qed.
(** refuted: a line that is merely released; a line whose last update failed because the card is
    gone (the sockets stay in the select loop) *)
Theorem C81_misdn_put_refuted : match run k0 (st_init true 0) [App [CConfig 1 TS_SIGN; CConfig 2 TS_RAW; CUpdate]] with
  Ok s => used_after_free s [Ready 2 (Some (RPhData [1])) false []] = true /\ used_after_free s [LapdOut 1 [1]] = true | Bad _ => False end.
Proof. now vm_compute. Qed.
Definition k_gone : kern := mkK (fun n => if (n <? 4)%nat then None else Some (-19)) (fun _ => true) (fun _ => true) (fun _ => true) (fun _ => true) (fun _ => true) (fun _ _ => 0).
Theorem C81_misdn_gone_refuted : match run k_gone (st_init false 0) [App [CConfig 2 TS_RAW; CUpdate; CConfig 2 TS_NONE; CUpdate]] with
  Ok s => rets (out s) = [0; -19] /\ forallb (fun t => type_eqb (m_type (tsl s t)) TS_NONE) (seq 0 32) = true /\ used_after_free s [Ready 2 (Some (RPhData [1])) false []] = true | Bad _ => False end.
Proof. now vm_compute. Qed.
Example C81_misdn_met : match run k0 (st_init true 0) [App [CConfig 1 TS_SIGN; CConfig 2 TS_RAW; CUpdate; CLink 1 1 10 62; CSend 1 1 [7]]; Ready 1 None true []; App [CUnlink 1 1; CConfig 1 TS_NONE; CConfig 2 TS_NONE]] with
  Ok s => snd (line_update k0 s) = 0 /\ forallb (fun t => type_eqb (m_type (tsl s t)) TS_NONE) (seq 0 40) = true /\ used_after_free s [Ready 2 (Some (RPhData [1])) false []] = true | Bad _ => False end.
Proof. now vm_compute. Qed.
(** before anything was configured nothing happens by itself *)
Theorem C62_start k u p v : (forall cs, v <> App cs) -> step k (st_init u p) v = Ok (st_init u p).
Proof. intros B. destruct v; try reflexivity. now elim (B cs). Qed.
