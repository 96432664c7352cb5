(** C63, C64: data and alarms of the mISDN driver. *)
From Coq Require Import List Arith Lia Bool ZArith.
From Verif Require Import Base E1Model MisdnModel MisdnSpec MisdnProofs MisdnRunProofs MisdnPoliteProofs MisdnProps.
Import ListNotations.
Open Scope Z_scope.

(** ** what gives the layers above nothing *)
Definition Quiet (z z' : loc) : Prop := exists es, les z' = les z ++ es /\ filter rx es = [].
Lemma q_trans a b c : Quiet a b -> Quiet b c -> Quiet a c.
Proof. intros (e & A & A') (f & B & B'). exists (e ++ f). rewrite B, A, app_assoc, filter_app, A', B'. easy. Qed.
Lemma q_same z z' : les z' = les z -> Quiet z z'. Proof. intros H. exists []. now rewrite app_nil_r. Qed.
Lemma q_emit z z' e : les z' = les z ++ [e] -> rx e = false -> Quiet z z'. Proof. intros H R. exists [e]. cbn. now rewrite R. Qed.
Lemma q_want z : Quiet z (want_write z). Proof. apply q_same. unfold want_write. now destruct (m_type (lx z)). Qed.
Lemma q_config ty z z' : config ty z = Ok z' -> Quiet z z'.
Proof. unfold config. destruct (type_eqb _ _); [intros [= <-]; now apply q_same|]. destruct (_ && _); [discriminate|]. intros [= <-]. now eapply q_emit. Qed.
Lemma q_link i a b z : Quiet z (link i a b z). Proof. unfold link. destruct (_ && _); [now eapply q_emit|now apply q_same]. Qed.
Lemma q_unlink i z : Quiet z (unlink i z). Proof. unfold unlink. destruct (_ && _); [now eapply q_emit|now apply q_same]. Qed.
Lemma q_send i m z : Quiet z (send i m z).
Proof.
  unfold send. destruct (negb _); [now apply q_same|]. destruct (m_type (lx z)); try (now apply q_same).
  - destruct (m_tmr (lx z)); [now eapply q_emit|]. eapply q_trans; [|apply q_want]. now eapply q_emit.
  - eapply q_trans; [apply q_want|]. now eapply q_emit.
  - eapply q_trans; [apply q_want|]. now eapply q_emit.
Qed.
Lemma q_sa b z : Quiet z (sa_write b z). Proof. unfold sa_write. destruct (m_fd (lx z)); now eapply q_emit. Qed.
Lemma q_lapd m z : Quiet z (lapd_write m z). Proof. unfold lapd_write. destruct (m_fd (lx z)); now eapply q_emit. Qed.
Lemma q_block k l z : Quiet z (block_write k l z). Proof. unfold block_write. destruct (m_fd (lx z)); now eapply q_emit. Qed.
Lemma q_data k rev z : Quiet z (data_write k rev z).
Proof.
  unfold data_write. set (z0 := put z _). apply q_trans with z0; [now apply q_same|]. clearbody z0. destruct (m_unc (lx z0)); [now apply q_same|].
  assert (X : Quiet z0 (fst (tx_ts k z0))). { unfold tx_ts. destruct (m_type (lx z0)); try (now apply q_same); destruct (take _) as [[[a m] q]|]; now apply q_same. }
  destruct (tx_ts k z0) as [z1 [[w m]|]]; cbn [fst] in X; [|exact X]. eapply q_trans; [exact X|]. unfold out_data. destruct (m_fd (lx z1)); try (destruct (k_write k _)); now eapply q_emit.
Qed.
Lemma q_sign k u z z' : sign_write k u z = Ok z' -> Quiet z z'.
Proof.
  unfold sign_write. set (z0 := put z _). intros H. apply q_trans with z0; [now apply q_same|]. clearbody z0. revert H. destruct (m_type (lx z0)); try discriminate; try (intros [= <-]; now apply q_same); destruct (take _) as [[[a m] q]|]; try discriminate; try (intros [= <-]; now apply q_same).
  destruct u; [destruct (m_lapd _); [|discriminate]|]; intros [= <-]; [now eapply q_emit|]. destruct (m_fd _); now eapply q_emit.
Qed.
Lemma q_chan a b c z : Quiet z (tell_chan a b c z). Proof. unfold tell_chan. destruct (lookup _ _ _); [now eapply q_emit|now apply q_same]. Qed.

Definition noise (e : leff) : bool := reception e || signal e.
Definition Still (s s' : st) : Prop := exists es, out s' = out s ++ es /\ filter noise es = [].
Lemma st_trans a b c : Still a b -> Still b c -> Still a c.
Proof. intros (e & A & A') (f & B & B'). exists (e ++ f). rewrite B, A, app_assoc, filter_app, A', B'. easy. Qed.
Lemma st_refl s : Still s s. Proof. exists []. now rewrite app_nil_r. Qed.
Lemma st_leave s t z : Quiet (enter s t) z -> Still s (leave s t z).
Proof. intros (es & A & B). cbn [enter les app] in A. exists (map (LTs t) es). cbn [leave out]. rewrite A. split; [easy|]. clear A. induction es as [|e r IH]; [easy|]. cbn [filter map] in *. destruct e; cbn in *; try discriminate; auto. Qed.
Lemma st_loop k ts : forall s, Inv s -> Still s (fst (update_loop k ts s)).
Proof.
  induction ts as [|t r IH]; intros s I; [apply st_refl|]. cbn [update_loop]. destruct (update_spec k (ul s) (port s) t (enter s t)) as (es & U); [apply (i_good s I t)|].
  pose proof (updated_keep _ _ _ _ (enter s t) _ _ _ (g_shape _ _ _ _ (i_good s I t)) U) as K. destruct (update_ts k (ul s) (port s) t (enter s t)) as [z o]. cbn [fst snd] in *.
  assert (L : Still s (leave s t z)).
  { apply st_leave. exists es. split; [apply (kp_les _ _ _ _ _ K)|]. assert (D : filter rx (down_es (tsl s t)) = []) by (unfold down_es; destruct (m_fd (tsl s t)); try easy; now destruct (m_reg (tsl s t))).
    destruct U as [C|C T|rc C T R K'|rc q n wr m C T R P N M K'|n C T N]; cbn [enter lx] in *; auto; rewrite filter_app, D; cbn [app]; unfold up_es; destruct (group_of _ _); try easy; assert (q = 1 \/ q = 2 \/ q = 3)%nat as Q by lia; destruct Q as [-> | [-> | ->]]; easy. }
  assert (I' : Inv (leave s t z)) by (apply leave_inv; [easy|now exists es]). destruct o; [exact L|]. eapply st_trans; [exact L|now apply IH].
Qed.
Lemma st_update k s : Inv s -> Still s (fst (line_update k s)).
Proof.
  intros I. unfold line_update. set (s1 := mkS _ _ _ _ _ _ _ _ _). assert (S1 : Still s s1) by (exists [LUpdate]; easy).
  assert (I1 : Inv s1) by (apply (tick_inv (say s [LUpdate])); [now apply say_inv|cbn; lia]). destruct (k_card k _); [exact S1|].
  assert (S2 : Still s1 (fst (dummy_up k s1))). { unfold dummy_up. destruct (_ && _); destruct (dummy s1); try apply st_refl; try (destruct (k_sock k _); cbn [negb]; [destruct (k_bind k _)|]); cbn [fst]; try (eexists; split; [reflexivity|]; reflexivity). }
  pose proof (dummy_inv k s1 I1) as I2. destruct (dummy_up k s1) as [s2 [rc|]]; cbn [fst] in *; [eapply st_trans; eauto|]. eapply st_trans; [exact S1|]. eapply st_trans; [exact S2|]. now apply st_loop.
Qed.
Lemma st_exec k s c s' : Inv s -> exec k s c = Ok s' -> Still s s'.
Proof.
  intros I. destruct c as [t ty|p| |t i tei sapi|t i|t i m|b]; cbn [exec].
  - destruct (valid t); [|intros [= <-]; apply st_refl]. unfold onr. destruct (config ty _) eqn:C; [|discriminate]. intros [= <-]. apply st_leave. eapply q_config; eauto.
  - intros [= <-]. exists []. now rewrite app_nil_r.
  - pose proof (st_update k s I) as U. destruct (line_update k s) as [s1 rc]. intros [= <-]. eapply st_trans; [exact U|]. now exists [LRet rc].
  - intros [= <-]. destruct (valid t); [apply st_leave, q_link|apply st_refl].
  - intros [= <-]. destruct (valid t); [apply st_leave, q_unlink|apply st_refl].
  - intros [= <-]. destruct (valid t); [apply st_leave, q_send|apply st_refl].
  - intros [= <-]. destruct (ul s); [apply st_refl|apply st_leave, q_sa].
Qed.
Lemma st_execs k cs : forall s s', Inv s -> execs k cs s = Ok s' -> Still s s'.
Proof. induction cs as [|c r IH]; intros s s' I; cbn [execs]; [intros [= <-]; apply st_refl|]. destruct (exec k s c) as [s1|] eqn:E; [|discriminate]. intros H. eapply st_trans; [eapply st_exec; eauto|]. eapply IH; eauto. eapply exec_inv; eauto. Qed.

(** ** C63 *)
(** messages leave in the order they were taken, once, and only messages that were taken *)
Theorem C63_fifo k u p vs s t i : run k (st_init u p) vs = Ok s -> waiting i [] (proj t (out s)) = Some (queue i (m_q (tsl s t))).
Proof. intros R. apply (i_good s (reach_inv _ _ _ _ _ R) t). Qed.
(** at most one frame of a timeslot is not confirmed *)
Theorem C63_flight k u p vs s t : run k (st_init u p) vs = Ok s -> exists b, flight false (proj t (out s)) = Some b.
Proof. intros R. destruct (g_fly _ _ _ _ (i_good s (reach_inv _ _ _ _ _ R) t)) as (b & F & _). eauto. Qed.
(** signalling goes out with the TEI and SAPI of its link and the channel the kernel told for it *)
Theorem C63_address k u p vs s t i : run k (st_init u p) vs = Ok s -> exists v, addr i None (proj t (out s)) = Some v.
Proof. intros R. rewrite (g_adr _ _ _ _ (i_good s (reach_inv _ _ _ _ _ R) t) i). eauto. Qed.
(** a timeslot sends and delivers what it is configured for: raw octets with their bits reversed,
    HDLC as it is, TRAU blocks, signalling through the kernel's LAPD or this library's *)
Theorem C63_content k u p vs s t : obliging k -> forallb polite vs = true -> run k (st_init u p) vs = Ok s -> contents u TS_NONE (proj t (out s)).
Proof. intros O V R. destruct (reach_pol k False u p vs s O V ltac:(easy) R) as [I P]. pose proof (run_ul _ _ _ _ R) as U. cbn in U. rewrite <- U. apply (P t). Qed.
(** waiting messages are asked for *)
Theorem C63_asked k u p vs s t : obliging k -> full k -> forallb polite vs = true -> run k (st_init u p) vs = Ok s -> (1 <= t <= 31)%nat -> asked s t.
Proof.
  intros O F V R T. destruct (reach_pol k False u p vs s O V ltac:(easy) R) as [I P]. specialize (P t). unfold asked.
  assert (C : m_cur (tsl s t) = m_type (tsl s t)). { destruct (type_eqb_spec (m_cur (tsl s t)) (m_type (tsl s t))) as [E|E]; [easy|]. destruct (p_cur _ _ _ _ _ _ _ P E T). discriminate. }
  pose proof (p_ask _ _ _ _ _ _ _ P F C) as A. destruct (m_type (tsl s t)); auto.
Qed.
Theorem C63_asked_sign k u p vs s t : obliging k -> forallb polite vs = true -> forallb keeps_links vs = true -> run k (st_init u p) vs = Ok s -> (1 <= t <= 31)%nat -> asked_sign s t.
Proof.
  intros O V N R T. destruct (reach_pol k True u p vs s O V (fun _ => N) R) as [I P]. specialize (P t). unfold asked_sign.
  assert (C : m_cur (tsl s t) = m_type (tsl s t)). { destruct (type_eqb_spec (m_cur (tsl s t)) (m_type (tsl s t))) as [E|E]; [easy|]. destruct (p_cur _ _ _ _ _ _ _ P E T). discriminate. }
  intros Y. apply (p_asks _ _ _ _ _ _ _ P Logic.I C Y).
Qed.

(** ** receiving *)
Lemma oldest_lookup tei sapi q a : oldest tei sapi q a -> lookup tei sapi q = Some a.
Proof.
  intros (b & c & -> & A & B & F). unfold lookup. induction F as [|x b X F IH]; cbn [app find].
  - rewrite A, B, !Z.eqb_refl. easy.
  - destruct (Z.eqb_spec (l_sapi x) sapi), (Z.eqb_spec (l_tei x) tei); cbn [andb]; try exact IH. now destruct X.
Qed.
Lemma no_lookup tei sapi q : no_link tei sapi q -> lookup tei sapi q = None.
Proof. unfold no_link, lookup. induction 1 as [|x b X F IH]; cbn [find]; [easy|]. destruct (Z.eqb_spec (l_sapi x) sapi), (Z.eqb_spec (l_tei x) tei); cbn [andb]; try exact IH. now destruct X. Qed.
Lemma set_lookup tei sapi c q : match lookup tei sapi q with Some a => exists a', lookup tei sapi (set_chan tei sapi c q) = Some a' /\ l_id a' = l_id a | None => lookup tei sapi (set_chan tei sapi c q) = None end.
Proof.
  unfold lookup. induction q as [|x r IH]; [easy|]. cbn [find set_chan]. destruct ((l_sapi x =? sapi) && (l_tei x =? tei)) eqn:E; cbn [find l_sapi l_tei]; rewrite E; [eexists; split; [reflexivity|easy]|exact IH].
Qed.
(** an emission, then commands *)
Lemma noise_reception es : filter noise es = [] -> filter reception es = [] /\ filter signal es = [].
Proof. induction es as [|e r IH]; [easy|]. cbn [filter]. unfold noise at 1. destruct (reception e), (signal e); cbn [orb]; try discriminate. exact IH. Qed.
Definition Gives (s s' : st) (l : list leff) : Prop := exists es, out s' = out s ++ es /\ filter noise es = l.
Lemma gv_still a b c l : Gives a b l -> Still b c -> Gives a c l.
Proof. intros (e & A & A') (f & B & B'). exists (e ++ f). rewrite B, A, app_assoc, filter_app, A', B', app_nil_r. easy. Qed.
Lemma still_gv a b c l : Still a b -> Gives b c l -> Gives a c l.
Proof. intros (e & A & A') (f & B & B'). exists (e ++ f). rewrite B, A, app_assoc, filter_app, A', B'. easy. Qed.
Lemma gv_of s s' : Still s s' -> Gives s s' []. Proof. easy. Qed.
Lemma emit_gives k s t e act s' : Inv s -> idle e = true -> writes e = None -> rx e = true -> execs k act (on s t (fun z => emit z e)) = Ok s' -> Gives s s' [LTs t e].
Proof.
  intros I A B C H. assert (I1 : Inv (on s t (fun z => emit z e))) by (now apply emit_inv). eapply gv_still; [|eapply st_execs; eauto]. exists [LTs t e]. split; [easy|]. cbn [filter]. unfold noise. destruct e; try discriminate; easy.
Qed.
(** what a line indication gives *)
Definition mph_sigs (s : st) (i : Z) (l : list leff) : Prop := forall v, says i v -> l = LSig v :: turned (alarms (out s)) (defect (alarms (out s)) (LSig v)).
Lemma says_fun i v v' : says i v -> says i v' -> v = v'.
Proof.
  intros A B. assert (K : forall v, says i v -> (i = 16 /\ v = SLos false) \/ (i = 17 /\ v = SLos true) \/ (i = 18 /\ v = SAis false) \/ (i = 19 /\ v = SAis true) \/ (i = 20 /\ v = SRai false) \/ (i = 21 /\ v = SRai true) \/ (256 <= i /\ v = SSa (i - 256))).
  { intros w W. destruct W as [| | | | | |b H]; auto 10. do 6 right. split; [lia|]. f_equal. lia. }
  apply K in A. apply K in B. intuition (subst; try lia; congruence).
Qed.
Lemma high i : Z.land i (Z.lnot 255) = 256 <-> 256 <= i < 512.
Proof.
  replace (Z.land i (Z.lnot 255)) with (Z.ldiff i (Z.ones 8)) by (now rewrite Z.ldiff_land). rewrite Z.ldiff_ones_r by lia. rewrite Z.shiftl_mul_pow2, Z.shiftr_div_pow2 by lia. change (2 ^ 8) with 256.
  split; intros H; [assert (i / 256 = 1) by lia|assert (i / 256 = 1) by (symmetry; apply Z.div_unique with (i - 256); lia); lia]. pose proof (Z.div_mod i 256). pose proof (Z.mod_pos_bound i 256). lia.
Qed.
Lemma mph_gives s i : Inv s -> (forall v, says i v -> Gives s (mph_info s i) (LSig v :: turned (alarms (out s)) (defect (alarms (out s)) (LSig v)))) /\ ((forall v, ~ says i v) -> mph_info s i = s).
Proof.
  intros I. destruct (i_alarm s I) as [AL _]. rewrite AL. unfold mph_info. destruct (Z.eqb_spec (Z.land i (Z.lnot 255)) 256) as [H|H].
  { apply high in H. assert (E : Z.land i 255 = i - 256). { change 255 with (Z.ones 8). rewrite Z.land_ones by lia. change (2 ^ 8) with 256. symmetry. apply Z.mod_unique with 1; lia. }
    assert (SV : says i (SSa (i - 256))). { replace i with (256 + (i - 256)) at 1 by lia. apply SaysSa. lia. }
    split; [|intros N; now elim (N _ SV)]. intros v V. rewrite <- (says_fun _ _ _ SV V). rewrite E. cbn [defect]. unfold turned. rewrite Bool.eqb_reflx. eexists. split; [reflexivity|]. reflexivity. }
  assert (X : forall a b c g, says i g -> defect (mkD (los s) (ais s) (rai s)) (LSig g) = mkD a b c ->
    let r := (let s1 := mkS (ul s) (port s) (dummy s) a b c (tsl s) (tick s) (out s ++ [LSig g]) in if negb (los s || ais s || rai s) && (a || b || c) then say s1 [LSig (SAlarm true)] else if (los s || ais s || rai s) && negb (a || b || c) then say s1 [LSig (SAlarm false)] else s1) in
    (forall v, says i v -> Gives s r (LSig v :: turned (mkD (los s) (ais s) (rai s)) (defect (mkD (los s) (ais s) (rai s)) (LSig v)))) /\ ((forall v, ~ says i v) -> r = s)).
  { intros a b c g SG D r. split; [|intros N; now elim (N _ SG)]. intros v V. rewrite <- (says_fun _ _ _ SG V), D. subst r. cbv zeta. unfold turned, any. cbn [d_los d_ais d_rai].
    destruct (los s || ais s || rai s), (a || b || c); cbn [negb andb Bool.eqb]; unfold Gives, say; cbn [out]; [exists [LSig g]|exists [LSig g; LSig (SAlarm false)]|exists [LSig g; LSig (SAlarm true)]|exists [LSig g]]; rewrite <- ?app_assoc; easy. }
  destruct (Z.eqb_spec i 16) as [->|N16]; [apply X; [constructor|reflexivity]|].
  destruct (Z.eqb_spec i 17) as [->|N17]; [apply X; [constructor|reflexivity]|].
  destruct (Z.eqb_spec i 18) as [->|N18]; [apply X; [constructor|reflexivity]|].
  destruct (Z.eqb_spec i 19) as [->|N19]; [apply X; [constructor|reflexivity]|].
  destruct (Z.eqb_spec i 20) as [->|N20]; [apply X; [constructor|reflexivity]|].
  destruct (Z.eqb_spec i 21) as [->|N21]; [apply X; [constructor|reflexivity]|].
  split; [|easy]. intros v V. exfalso. inversion V; subst; try easy. apply H, high. lia.
Qed.
Definition given (s : st) (t : nat) (r : rd) (l : list leff) : Prop :=
  match m_type (tsl s t), r with
  | TS_SIGN, RMph i | TS_HDLC, RMph i => (forall v, says i v -> l = LSig v :: turned (alarms (out s)) (defect (alarms (out s)) (LSig v))) /\ ((forall v, ~ says i v) -> l = [])
  | ty, _ => exists d, l = map (LTs t) d /\ delivered (ul s) ty (m_q (tsl s t)) r d
  end.
Lemma event_gives k s t tei sapi up act s' : Inv s -> event k s t tei sapi up act = Ok s' -> match lookup tei sapi (m_q (tsl s t)) with Some a => Gives s s' [LTs t (EUp (l_id a) up)] | None => Still s s' end.
Proof. intros I. unfold event. destruct (lookup _ _ _) as [a|]; [now apply emit_gives|]. intros [= <-]. apply st_refl. Qed.
Lemma says_dec i : (exists v, says i v) \/ forall v, ~ says i v.
Proof.
  destruct (Z.eqb_spec (Z.land i (Z.lnot 255)) 256) as [E|E]; [apply high in E|].
  { left. exists (SSa (i - 256)). replace i with (256 + (i - 256)) at 1 by lia. apply SaysSa. lia. }
  destruct (Z.eq_dec i 16) as [->|]; [left; eexists; constructor|]. destruct (Z.eq_dec i 17) as [->|]; [left; eexists; constructor|]. destruct (Z.eq_dec i 18) as [->|]; [left; eexists; constructor|]. destruct (Z.eq_dec i 19) as [->|]; [left; eexists; constructor|]. destruct (Z.eq_dec i 20) as [->|]; [left; eexists; constructor|]. destruct (Z.eq_dec i 21) as [->|]; [left; eexists; constructor|].
  right. intros v V. inversion V; subst; try easy. apply E, high. lia.
Qed.
Lemma mph_act k s i act s' : Inv s -> execs k act (mph_info s i) = Ok s' -> exists l, Gives s s' l /\ (forall v, says i v -> l = LSig v :: turned (alarms (out s)) (defect (alarms (out s)) (LSig v))) /\ ((forall v, ~ says i v) -> l = []).
Proof.
  intros I H. destruct (mph_gives s i I) as [A B]. pose proof (st_execs k act _ _ (mph_inv s i I) H) as S.
  destruct (says_dec i) as [(v & V)|N].
  - exists (LSig v :: turned (alarms (out s)) (defect (alarms (out s)) (LSig v))). split; [eapply gv_still; eauto|]. split; [intros w W; now rewrite (says_fun _ _ _ V W)|]. intros M. now elim (M _ V).
  - exists []. split; [rewrite (B N) in S; now apply gv_of|]. split; [intros v V; now elim (N v)|easy].
Qed.
Lemma read_gives k s t r act s' : Inv s ->
  (match m_type (tsl s t) with TS_SIGN => sign_read k s t r act | TS_TRAU => trau_read k s t r act | TS_RAW => data_read k s t true r act | TS_HDLC => data_read k s t false r act | _ => Ok s end = Ok s') -> exists l, Gives s s' l /\ given s t r l.
Proof.
  intros I. unfold given. assert (NO : Still s s' -> (match m_type (tsl s t), r with TS_SIGN, RMph _ | TS_HDLC, RMph _ => False | ty, _ => delivered (ul s) ty (m_q (tsl s t)) r [] end) -> exists l, Gives s s' l /\ match m_type (tsl s t), r with
    | TS_SIGN, RMph i | TS_HDLC, RMph i => (forall v, says i v -> l = LSig v :: turned (alarms (out s)) (defect (alarms (out s)) (LSig v))) /\ ((forall v, ~ says i v) -> l = [])
    | ty, _ => exists d, l = map (LTs t) d /\ delivered (ul s) ty (m_q (tsl s t)) r d end).
  { intros S D. exists []. split; [now apply gv_of|]. destruct (m_type (tsl s t)), r; try easy; exists []; (split; [easy|exact D]). }
  destruct (m_type (tsl s t)) eqn:TY.
  - intros [= <-]. apply NO; [apply st_refl|now destruct r].
  - destruct r as [|c tei sapi|c tei sapi|tei sapi|tei sapi o|o| |i|]; cbn [sign_read]; try (intros [= <-]; apply NO; [apply st_refl|easy]).
    + intros [= <-]. apply NO; [apply st_leave, q_chan|easy].
    + intros H. assert (I1 : Inv (on s t (tell_chan tei sapi c))) by (apply on_inv; [easy|]; intros z TZ; apply kept_chan; congruence).
      assert (S1 : Still s (on s t (tell_chan tei sapi c))) by (apply st_leave, q_chan). apply event_gives in H; [|easy].
      assert (Q : m_q (tsl (on s t (tell_chan tei sapi c)) t) = set_chan tei sapi c (m_q (tsl s t))).
      { unfold on, leave, upd. cbn [tsl]. rewrite Nat.eqb_refl. unfold tell_chan. cbn [enter lx]. pose proof (set_lookup tei sapi c (m_q (tsl s t))) as SL. destruct (lookup tei sapi (m_q (tsl s t))) eqn:L; [easy|]. cbn [enter lx]. clear -L. unfold lookup in L. induction (m_q (tsl s t)) as [|x r IH]; [easy|]. cbn [find set_chan] in *. destruct (_ && _); [discriminate|]. now rewrite <- IH. }
      rewrite Q in H. pose proof (set_lookup tei sapi c (m_q (tsl s t))) as SL. destruct (lookup tei sapi (m_q (tsl s t))) as [a|] eqn:L.
      * destruct SL as (a' & SL & E). rewrite SL, E in H. exists [LTs t (EUp (l_id a) true)]. split; [eapply still_gv; eauto|]. exists [EUp (l_id a) true]. split; [easy|]. cbn [delivered]. split; [intros b B; apply oldest_lookup in B; congruence|]. intros N. apply no_lookup in N. congruence.
      * rewrite SL in H. exists []. split; [eapply still_gv; [exact S1|now apply gv_of]|]. exists []. split; [easy|]. cbn [delivered]. split; [intros b B; apply oldest_lookup in B; congruence|easy].
    + intros H. apply event_gives in H; [|easy]. destruct (lookup tei sapi (m_q (tsl s t))) as [a|] eqn:L.
      * exists [LTs t (EUp (l_id a) false)]. split; [easy|]. exists [EUp (l_id a) false]. split; [easy|]. cbn [delivered]. split; [intros b B; apply oldest_lookup in B; congruence|]. intros N. apply no_lookup in N. congruence.
      * exists []. split; [now apply gv_of|]. exists []. split; [easy|]. cbn [delivered]. split; [intros b B; apply oldest_lookup in B; congruence|easy].
    + destruct (ul s) eqn:U; [intros [= <-]; apply NO; [apply st_refl|easy]|]. intros H. exists [LTs t (ERx tei sapi o)]. split; [eapply emit_gives; eauto|]. now exists [ERx tei sapi o].
    + destruct (ul s) eqn:U; cbn [negb]; [|intros [= <-]; apply NO; [apply st_leave; now eapply q_emit|easy]]. destruct (m_lapd _); [|discriminate]. intros H. exists [LTs t (ELapdRx o)]. split; [eapply emit_gives; eauto|]. now exists [ELapdRx o].
    + intros H. now apply mph_act in H.
  - destruct r as [|c tei sapi|c tei sapi|tei sapi|tei sapi o|o| |i|]; cbn [trau_read]; try (intros [= <-]; apply NO; [apply st_refl|easy]).
    + intros [= <-]. apply NO; [apply st_leave; now eapply q_emit|easy].
    + intros H. set (g := fun z => _) in H. assert (I1 : Inv (on s t g)). { apply on_inv; [easy|]. intros z _. eapply kept_trans; [apply kept_block|]. now apply kept_idle. }
      apply st_execs in H; [|easy]. exists [LTs t (ERx 0 0 o)]. split; [|now exists [ERx 0 0 o]]. eapply gv_still; [|exact H].
      destruct (q_block k (length o) (enter s t)) as (es & E & F). exists (map (LTs t) es ++ [LTs t (ERx 0 0 o)]). unfold on, leave, g. cbn [out emit les]. rewrite E, filter_app. cbn [enter les app]. rewrite map_app. split; [easy|].
      assert (X : filter noise (map (LTs t) es) = []). { clear -F. induction es as [|e r IH]; [easy|]. cbn [filter map] in *. destruct e; cbn in *; try discriminate; auto. } now rewrite X.
  - destruct r as [|c tei sapi|c tei sapi|tei sapi|tei sapi o|o| |i|]; cbn [data_read]; try (intros [= <-]; apply NO; [apply st_refl|easy]).
    + intros [= <-]. apply NO; [apply st_leave; now eapply q_emit|easy].
    + intros H. exists [LTs t (ERx 0 0 (map rev8 o))]. split; [eapply emit_gives; eauto|]. exists [ERx 0 0 (map rev8 o)]. split; [easy|]. cbn [delivered]. exists (map rev8 o). split; [apply rev8_list|easy].
    + intros [= <-]. apply NO; [apply st_leave; now eapply q_emit|easy].
  - destruct r as [|c tei sapi|c tei sapi|tei sapi|tei sapi o|o| |i|]; cbn [data_read]; try (intros [= <-]; apply NO; [apply st_refl|easy]).
    + intros [= <-]. apply NO; [apply st_leave; now eapply q_emit|easy].
    + intros H. exists [LTs t (ERx 0 0 o)]. split; [eapply emit_gives; eauto|]. now exists [ERx 0 0 o].
    + intros [= <-]. apply NO; [apply st_leave; now eapply q_emit|easy].
    + intros H. now apply mph_act in H.
  - intros [= <-]. apply NO; [apply st_refl|now destruct r].
Qed.
Lemma cb_gives k s t r w act s' : Inv s -> fd_cb k s t r w act = Ok s' -> match r with Some r => exists l, Gives s s' l /\ given s t r l | None => Still s s' end.
Proof.
  intros I. unfold fd_cb. assert (RG : forall r s1, match m_type (tsl s t) with TS_SIGN => sign_read k s t r act | TS_TRAU => trau_read k s t r act | TS_RAW => data_read k s t true r act | TS_HDLC => data_read k s t false r act | _ => Ok s end = Ok s1 -> exists l, Gives s s1 l /\ given s t r l) by (intros; eapply read_gives; eauto).
  assert (FIN : forall s1, Still s1 s' -> (match r with Some r => exists l, Gives s s1 l /\ given s t r l | None => Still s s1 end) -> match r with Some r => exists l, Gives s s' l /\ given s t r l | None => Still s s' end).
  { intros s1 S H. destruct r; [|eapply st_trans; eauto]. destruct H as (l & A & B). exists l. split; [eapply gv_still; eauto|easy]. }
  destruct (m_type (tsl s t)) eqn:TY.
  - intros [= <-]. destruct r; [now apply RG|apply st_refl].
  - destruct r as [r|].
    + destruct (sign_read k s t r act) as [s1|] eqn:E; [|discriminate]. apply RG in E. intros H. apply (FIN s1); [|exact E]. destruct w; [|injection H as <-; apply st_refl]. unfold onr in H. destruct (sign_write k (ul s1) (enter s1 t)) eqn:W; [|discriminate]. injection H as <-. apply st_leave. eapply q_sign; eauto.
    + intros H. destruct w; [|injection H as <-; apply st_refl]. unfold onr in H. destruct (sign_write k (ul s) (enter s t)) eqn:W; [|discriminate]. injection H as <-. apply st_leave. eapply q_sign; eauto.
  - destruct r as [r|]; [|destruct w; intros [= <-]; apply st_refl]. destruct (trau_read k s t r act) as [s1|] eqn:E; [|discriminate]. apply RG in E. intros H. apply (FIN s1); [|exact E]. destruct w; injection H as <-; apply st_refl.
  - destruct r as [r|]; [|destruct w; intros [= <-]; [apply st_leave, q_data|apply st_refl]]. destruct (data_read k s t true r act) as [s1|] eqn:E; [|discriminate]. apply RG in E. intros H. apply (FIN s1); [|exact E]. destruct w; injection H as <-; [apply st_leave, q_data|apply st_refl].
  - destruct r as [r|]; [|destruct w; intros [= <-]; [apply st_leave, q_data|apply st_refl]]. destruct (data_read k s t false r act) as [s1|] eqn:E; [|discriminate]. apply RG in E. intros H. apply (FIN s1); [|exact E]. destruct w; injection H as <-; [apply st_leave, q_data|apply st_refl].
  - intros [= <-]. destruct r; [now apply RG|apply st_refl].
Qed.
(** a datagram gives the layers above what it says, and nothing else: whatever the application
    does in the callback and whatever is written afterwards *)
Theorem C63_rx k u p vs s t r w act s' : run k (st_init u p) vs = Ok s -> m_reg (tsl s t) = true -> step k s (Ready t (Some r) w act) = Ok s' ->
  exists es d, out s' = out s ++ es /\ filter reception es = map (LTs t) d /\ delivered u (m_type (tsl s t)) (m_q (tsl s t)) r d.
Proof.
  intros R G H. pose proof (run_ul _ _ _ _ R) as U. cbn in U. cbn [step] in H. rewrite G in H. apply cb_gives in H; [|eapply reach_inv; eauto]. destruct H as (l & (es & A & B) & D). rewrite <- U.
  assert (FR : filter reception es = filter reception l). { rewrite <- B. clear. induction es as [|e r IH]; [easy|]. cbn [filter]. unfold noise at 1. destruct (reception e) eqn:E; cbn [orb]; [cbn [filter]; now rewrite E, IH|]. destruct (signal e); cbn [filter]; rewrite ?E; exact IH. }
  assert (NL : forall e, In e l -> noise e = true) by (intros e J; rewrite <- B in J; now apply filter_In in J).
  assert (X : (exists d, l = map (LTs t) d /\ delivered (ul s) (m_type (tsl s t)) (m_q (tsl s t)) r d) -> exists es0 d, out s' = out s ++ es0 /\ filter reception es0 = map (LTs t) d /\ delivered (ul s) (m_type (tsl s t)) (m_q (tsl s t)) r d).
  { intros (d & -> & DD). exists es, d. split; [easy|]. split; [|easy]. rewrite FR. clear -NL. induction d as [|e r IH]; [easy|]. cbn [map filter]. pose proof (NL (LTs t e) (or_introl eq_refl)) as N. unfold noise in N. cbn [signal orb] in N. rewrite orb_false_r in N. rewrite N, IH; [easy|]. intros x J. apply NL. now right. }
  assert (Y : (forall i, r = RMph i -> (m_type (tsl s t) = TS_SIGN \/ m_type (tsl s t) = TS_HDLC) -> exists es0 d, out s' = out s ++ es0 /\ filter reception es0 = map (LTs t) d /\ delivered (ul s) (m_type (tsl s t)) (m_q (tsl s t)) r d)).
  { intros i -> T. exists es, []. split; [easy|]. assert (Z : filter reception l = []).
    { unfold given in D. destruct (says_dec i) as [(v & V)|N]; [assert (L : l = LSig v :: turned (alarms (out s)) (defect (alarms (out s)) (LSig v))) by (destruct T as [T|T]; rewrite T in D; now apply D); rewrite L; cbn [filter reception]; unfold turned; now destruct (Bool.eqb _ _)|]. assert (L : l = []) by (destruct T as [T|T]; rewrite T in D; now apply D). now rewrite L. }
    rewrite FR, Z. split; [easy|]. destruct T as [T|T]; rewrite T; reflexivity. }
  unfold given in D. destruct (m_type (tsl s t)) eqn:TY, r; try (apply X; exact D); (eapply Y; [reflexivity|auto]).
Qed.
(** ... and receptions and line signals come from datagrams only *)
Theorem C63_rx_only k u p vs s v s' : run k (st_init u p) vs = Ok s -> step k s v = Ok s' -> (forall t r w act, v <> Ready t (Some r) w act) -> exists es, out s' = out s ++ es /\ filter reception es = [] /\ filter signal es = [].
Proof.
  intros R H N. pose proof (reach_inv _ _ _ _ _ R) as I. assert (S : Still s s').
  { destruct v as [cs|t [r|] w act|t|t m]; cbn [step] in H.
    - eapply st_execs; eauto.
    - now elim (N t r w act).
    - destruct (m_reg _); [|injection H as <-; apply st_refl]. now apply cb_gives in H.
    - destruct (m_tmr _); injection H as <-; [|apply st_refl]. apply st_leave. eapply q_trans; [|apply q_want]. now apply q_same.
    - destruct (m_lapd _); injection H as <-; [|apply st_refl]. apply st_leave, q_lapd. }
  destruct S as (es & A & B). exists es. apply noise_reception in B. easy.
Qed.
(** ** C64: alarms *)
(** the line's alarm is signalled when the first of loss of signal, alarm indication and remote
    alarm appears and when the last is gone, never twice *)
Theorem C64_alarm k u p vs s : run k (st_init u p) vs = Ok s -> raised false (out s) = Some (any (alarms (out s))).
Proof. intros R. destruct (i_alarm s (reach_inv _ _ _ _ _ R)) as [A B]. now rewrite B, A. Qed.
(** an indication of the card on a signalling or HDLC timeslot is signalled as it says, followed
    by the line's alarm if that changed; one that says nothing is ignored *)
Theorem C64_signal k u p vs s t i w act s' : run k (st_init u p) vs = Ok s -> m_reg (tsl s t) = true -> m_type (tsl s t) = TS_SIGN \/ m_type (tsl s t) = TS_HDLC -> step k s (Ready t (Some (RMph i)) w act) = Ok s' ->
  exists es, out s' = out s ++ es /\ (forall v, says i v -> filter signal es = LSig v :: turned (alarms (out s)) (defect (alarms (out s)) (LSig v))) /\ ((forall v, ~ says i v) -> filter signal es = []).
Proof.
  intros R G T H. cbn [step] in H. rewrite G in H. apply cb_gives in H; [|eapply reach_inv; eauto]. destruct H as (l & (es & A & B) & D). exists es. split; [easy|].
  assert (FR : filter signal es = filter signal l). { rewrite <- B. clear. induction es as [|e r IH]; [easy|]. cbn [filter]. unfold noise at 1. destruct (signal e) eqn:E; [rewrite orb_true_r; cbn [filter]; now rewrite E, IH|]. destruct (reception e); cbn [filter orb]; rewrite ?E; exact IH. }
  assert (D' : (forall v, says i v -> l = LSig v :: turned (alarms (out s)) (defect (alarms (out s)) (LSig v))) /\ ((forall v, ~ says i v) -> l = [])) by (unfold given in D; destruct T as [T|T]; rewrite T in D; exact D).
  destruct D' as [D1 D2]. rewrite FR. split; [intros v V; rewrite (D1 v V); cbn [filter signal]; unfold turned; now destruct (Bool.eqb _ _)|]. intros N. now rewrite (D2 N).
Qed.
(** nothing else is signalled *)
Theorem C64_only k u p vs s t r w act s' : run k (st_init u p) vs = Ok s -> m_reg (tsl s t) = true -> (forall i, r = RMph i -> m_type (tsl s t) <> TS_SIGN /\ m_type (tsl s t) <> TS_HDLC) -> step k s (Ready t (Some r) w act) = Ok s' ->
  exists es, out s' = out s ++ es /\ filter signal es = [].
Proof.
  intros R G T H. cbn [step] in H. rewrite G in H. apply cb_gives in H; [|eapply reach_inv; eauto]. destruct H as (l & (es & A & B) & D). exists es. split; [easy|].
  assert (FR : filter signal es = filter signal l). { rewrite <- B. clear. induction es as [|e r IH]; [easy|]. cbn [filter]. unfold noise at 1. destruct (signal e) eqn:E; [rewrite orb_true_r; cbn [filter]; now rewrite E, IH|]. destruct (reception e); cbn [filter orb]; rewrite ?E; exact IH. }
  rewrite FR. assert (X : exists d, l = map (LTs t) d). { unfold given in D. destruct (m_type (tsl s t)) eqn:TY, r; try (destruct D as (d & -> & _); eauto); (destruct (T i eq_refl) as [? ?]; easy). }
  destruct X as (d & ->). clear. induction d; [easy|]. exact IHd.
Qed.
(** raw and TRAU timeslots do not pass indications on: a line without signalling and HDLC
    timeslots never tells of an alarm *)
Theorem C64_raw_refuted : exists s, run k0 (st_init false 0) [App [CConfig 1 TS_RAW; CConfig 2 TS_TRAU; CUpdate]; Ready 1 (Some (RMph 17)) false []; Ready 2 (Some (RMph 17)) false []] = Ok s /\ alarms (out s) = mkD false false false /\ m_reg (tsl s 1) = true /\ m_reg (tsl s 2) = true.
Proof. eexists. split; [vm_compute; reflexivity|]. repeat split; vm_compute; reflexivity. Qed.

(** ** sending *)
Lemma polled_fd k u p vs s t f : run k (st_init u p) vs = Ok s -> life None (proj t (out s)) = Some (Some (f, Polled)) -> Inv s /\ m_fd (tsl s t) = Open f /\ m_reg (tsl s t) = true.
Proof.
  intros R L. pose proof (reach_inv _ _ _ _ _ R) as I. split; [easy|]. destruct (g_life _ _ _ _ (i_good s I t)) as (v & H & V). rewrite L in H. injection H as <-. unfold stage_ok in V. destruct (m_fd (tsl s t)) as [| |f']; try discriminate. destruct V as (g & [= <- <-] & V). split; [easy|]. now apply V.
Qed.
(** when there is room and no frame is in flight, a raw or HDLC timeslot that asked for room
    writes its oldest message *)
Theorem C63_written k u p vs s t f m r : run k (st_init u p) vs = Ok s -> life None (proj t (out s)) = Some (Some (f, Polled)) -> m_type (tsl s t) = TS_RAW \/ m_type (tsl s t) = TS_HDLC ->
  queue 0 (m_q (tsl s t)) = m :: r -> m_wr (tsl s t) = true -> m_unc (tsl s t) = false ->
  exists s' o, step k s (Ready t None true []) = Ok s' /\ out s' = out s ++ [LTs t (EData f (Msg 0) m o (k_write k (tick s)))] /\ (m_type (tsl s t) = TS_RAW -> Forall2 reversed m o) /\ (m_type (tsl s t) = TS_HDLC -> o = m) /\ queue 0 (m_q (tsl s' t)) = r.
Proof.
  intros R L T Q W U. destruct (polled_fd k u p vs s t f R L) as (I & F & G). pose proof (sh_q _ (g_shape _ _ _ _ (i_good s I t))) as SQ.
  assert (QQ : m_q (tsl s t) = [mkLk 0 0 0 0 (m :: r)]). { destruct T as [T|T]; rewrite T in SQ; destruct SQ as (ms & E); rewrite E in Q |- *; cbn in Q; now subst ms. }
  assert (STEP : forall rev, on s t (data_write k rev) = leave s t (data_write k rev (enter s t)) /\ exists x, m_q x = [mkLk 0 0 0 0 r] /\ data_write k rev (enter s t) = mkL x [EData f (Msg 0) m (if rev then map rev8 m else m) (k_write k (tick s))] (S (tick s))).
  { intros rev. split; [easy|]. unfold data_write. cbn [put lx enter w_wr m_unc]. rewrite U. unfold tx_ts. cbn [put lx w_wr m_type m_q m_tmr]. rewrite QQ. cbn [take l_q l_id l_tei l_sapi l_chan].
    assert (X : match m_type (tsl s t) with TS_NONE | TS_TRAU | TS_I460 => False | _ => True end) by (destruct T as [T|T]; now rewrite T).
    destruct (m_type (tsl s t)) eqn:TY; try easy; unfold out_data; unfold put, enter, w_q, w_wr; cbn [lx m_fd ln les]; rewrite F; destruct (k_write k (tick s)) eqn:KW; unfold emit, next, put; cbn; rewrite ?KW; eexists; (split; [|reflexivity]); reflexivity. }
  assert (OUT : forall rev x, data_write k rev (enter s t) = mkL x [EData f (Msg 0) m (if rev then map rev8 m else m) (k_write k (tick s))] (S (tick s)) -> m_q x = [mkLk 0 0 0 0 r] -> out (leave s t (data_write k rev (enter s t))) = out s ++ [LTs t (EData f (Msg 0) m (if rev then map rev8 m else m) (k_write k (tick s)))] /\ queue 0 (m_q (tsl (leave s t (data_write k rev (enter s t))) t)) = r).
  { intros rev x E X. rewrite E. unfold leave, upd. cbn [out les map tsl lx]. rewrite Nat.eqb_refl, X. easy. }
  cbn [step]. rewrite G, W. unfold fd_cb. destruct T as [T|T]; rewrite T.
  - destruct (STEP true) as (_ & x & X & E). destruct (OUT true x E X) as [O1 O2]. exists (leave s t (data_write k true (enter s t))), (map rev8 m). split; [easy|]. split; [exact O1|]. split; [intros _; apply rev8_list|]. split; [discriminate|exact O2].
  - destruct (STEP false) as (_ & x & X & E). destruct (OUT false x E X) as [O1 O2]. exists (leave s t (data_write k false (enter s t))), m. split; [easy|]. split; [exact O1|]. split; [discriminate|]. split; [easy|exact O2].
Qed.
(** a signalling timeslot that asked for room sends the oldest message of a link, and starts the
    delay timer; when that expires it asks for room again *)
Theorem C63_signalling k u p vs s t f i : run k (st_init u p) vs = Ok s -> life None (proj t (out s)) = Some (Some (f, Polled)) -> m_type (tsl s t) = TS_SIGN -> (u = true -> m_lapd (tsl s t) = true) ->
  queue i (m_q (tsl s t)) <> [] -> m_wr (tsl s t) = true ->
  exists s' j m, step k s (Ready t None true []) = Ok s' /\ queue j (m_q (tsl s t)) = m :: queue j (m_q (tsl s' t)) /\ m_tmr (tsl s' t) = true /\
    (if u then out s' = out s ++ [LTs t (ELapdTx j m)] else exists c sapi tei, out s' = out s ++ [LTs t (ESign f j c sapi tei m)]).
Proof.
  intros R L T LA Q W. destruct (polled_fd k u p vs s t f R L) as (I & F & G). pose proof (run_ul _ _ _ _ R) as U. cbn in U. cbn [step]. rewrite G, W. cbn [andb]. unfold fd_cb. rewrite T. unfold onr, sign_write. cbn [put lx enter w_wr m_type m_q m_tmr m_lapd m_fd]. rewrite T, U.
  destruct (take (m_q (tsl s t))) as [[[a m] q]|] eqn:TK; [|now rewrite (take_none _ TK) in Q]. destruct (take_spec _ _ _ _ (sh_ids _ (g_shape _ _ _ _ (i_good s I t))) TK) as (_ & T2 & _).
  destruct u.
  - cbn [put lx w_q w_wr m_lapd m_q]. rewrite (LA eq_refl). eexists _, (l_id a), m. split; [reflexivity|]. unfold leave, upd. cbn [tsl emit put lx]. rewrite Nat.eqb_refl. cbn [w_q m_q m_tmr]. split; [exact T2|]. split; reflexivity.
  - cbn [put lx w_q w_wr m_fd m_q]. rewrite F. eexists _, (l_id a), m. split; [reflexivity|]. unfold leave, upd. cbn [tsl emit put lx]. rewrite Nat.eqb_refl. cbn [w_q m_q m_tmr]. split; [exact T2|]. split; [reflexivity|]. eexists _, _, _. reflexivity.
Qed.
Theorem C63_timer k u p vs s t s' : run k (st_init u p) vs = Ok s -> m_tmr (tsl s t) = true -> step k s (TxTimer t) = Ok s' -> m_wr (tsl s' t) = true /\ m_q (tsl s' t) = m_q (tsl s t) /\ out s' = out s.
Proof.
  intros R T H. cbn [step] in H. rewrite T in H. injection H as <-. pose proof (reach_inv _ _ _ _ _ R) as I. destruct (sh_tmr _ (g_shape _ _ _ _ (i_good s I t)) T) as [TY _]. unfold on, leave, upd, want_write. cbn [tsl out put lx enter w_q m_type]. rewrite TY, Nat.eqb_refl. cbn. now rewrite app_nil_r.
Qed.
(** a confirmation lets the next message out *)
Theorem C63_confirm k u p vs s t s' : run k (st_init u p) vs = Ok s -> m_reg (tsl s t) = true -> m_type (tsl s t) = TS_RAW \/ m_type (tsl s t) = TS_HDLC -> step k s (Ready t (Some RCnf) false []) = Ok s' ->
  m_wr (tsl s' t) = true /\ m_unc (tsl s' t) = false /\ flight false (proj t (out s')) = Some false.
Proof.
  intros R G T H. pose proof (reach_inv _ _ _ _ _ R) as I. destruct (g_fly _ _ _ _ (i_good s I t)) as (b & F & _). cbn [step] in H. rewrite G in H. unfold fd_cb in H.
  assert (E : s' = on s t (fun z => emit (put z (w_wr (w_unc (lx z) false) true)) ECnf)) by (destruct T as [T|T]; rewrite T in H; cbn [data_read andb] in H; now injection H as <-).
  subst s'. unfold on, leave, upd. cbn [tsl out enter emit put lx les map app]. rewrite Nat.eqb_refl. cbn [w_wr w_unc m_wr m_unc]. split; [easy|]. split; [easy|]. rewrite proj_app. cbn. rewrite Nat.eqb_refl. cbn. now rewrite flight_app, F.
Qed.
(** every TRAU block received is answered with as many octets of the multiplexers *)
Theorem C63_trau k u p vs s t f o s' : run k (st_init u p) vs = Ok s -> life None (proj t (out s)) = Some (Some (f, Polled)) -> m_type (tsl s t) = TS_TRAU -> step k s (Ready t (Some (RPhData o)) false []) = Ok s' ->
  out s' = out s ++ [LTs t (EBlock f (map (k_mux k (tick s)) (seq 0 (length o)))); LTs t (ERx 0 0 o)].
Proof.
  intros R L T H. destruct (polled_fd k u p vs s t f R L) as (I & F & G). cbn [step] in H. rewrite G in H. unfold fd_cb in H. rewrite T in H. cbn [trau_read execs andb] in H. injection H as <-. unfold on, leave, block_write. cbn [out enter emit next lx ln les]. rewrite F. reflexivity.
Qed.
(** the channel the kernel tells for a link (with DL_INFORMATION_IND and DL_ESTABLISH_IND) *)
Theorem C63_channel k u p vs s t c tei sapi a s' : run k (st_init u p) vs = Ok s -> m_reg (tsl s t) = true -> m_type (tsl s t) = TS_SIGN -> oldest tei sapi (m_q (tsl s t)) a ->
  (step k s (Ready t (Some (RInform c tei sapi)) false []) = Ok s' -> out s' = out s ++ [LTs t (EChan (l_id a) c)]) /\
  (step k s (Ready t (Some (REstab c tei sapi)) false []) = Ok s' -> out s' = out s ++ [LTs t (EChan (l_id a) c); LTs t (EUp (l_id a) true)]).
Proof.
  intros R G T O. apply oldest_lookup in O. cbn [step]. rewrite G. unfold fd_cb. rewrite T. cbn [sign_read andb]. split.
  - intros [= <-]. unfold on, leave, tell_chan. cbn [out enter lx]. rewrite O. reflexivity.
  - unfold event. assert (Q : m_q (tsl (on s t (tell_chan tei sapi c)) t) = set_chan tei sapi c (m_q (tsl s t))). { unfold on, leave, upd, tell_chan. cbn [tsl enter lx]. rewrite Nat.eqb_refl, O. reflexivity. }
    rewrite Q. pose proof (set_lookup tei sapi c (m_q (tsl s t))) as SL. rewrite O in SL. destruct SL as (a' & SL & E). rewrite SL. cbn [execs]. intros [= <-]. rewrite E. unfold on at 1, leave at 1. cbn [out enter emit les lx map app]. unfold on, leave, tell_chan. cbn [out enter lx]. rewrite O. cbn [emit put les enter app map]. now rewrite <- app_assoc.
Qed.
(** ** what does not hold *)
(** a short write: the message is lost and the queue behind it waits until the next is sent *)
Theorem C63_short_refuted : exists k s, (forall n, (6 <= n)%nat -> k_write k n = true) /\ run k (st_init false 0) [App [CConfig 1 TS_HDLC; CUpdate; CSend 1 0 [1]; CSend 1 0 [2]]; Ready 1 None true []] = Ok s /\
  queue 0 (m_q (tsl s 1)) = [[2]] /\ m_wr (tsl s 1) = false /\ m_unc (tsl s 1) = false.
Proof. exists (k_short 5). eexists. split; [intros n N; cbn; destruct (Nat.eqb_spec n 5); [lia|easy]|]. split; [vm_compute; reflexivity|]. repeat split; vm_compute; reflexivity. Qed.
(** a message sent after the timeslot was configured but before the line was updated waits *)
Theorem C63_early_refuted : exists s, run k0 (st_init false 0) [App [CConfig 1 TS_HDLC; CSend 1 0 [1]; CUpdate]] = Ok s /\ queue 0 (m_q (tsl s 1)) = [[1]] /\ m_wr (tsl s 1) = false /\ m_unc (tsl s 1) = false.
Proof. eexists. split; [vm_compute; reflexivity|]. repeat split; vm_compute; reflexivity. Qed.
(** taking down one signalling link stops the delay timer of all of the timeslot *)
Theorem C63_unlink_refuted : exists s, run k0 (st_init false 0) [App [CConfig 1 TS_SIGN; CUpdate; CLink 1 1 0 0; CLink 1 2 0 1; CSend 1 1 [1]; CSend 1 2 [2]]; Ready 1 None true []; App [CUnlink 1 1]] = Ok s /\ queue 2 (m_q (tsl s 1)) = [[2]] /\ m_wr (tsl s 1) = false /\ m_tmr (tsl s 1) = false.
Proof. eexists. split; [vm_compute; reflexivity|]. repeat split; vm_compute; reflexivity. Qed.
(** message buffers that are not freed: receive errors on other than signalling timeslots, raw
    frames on a signalling timeslot of the kernel's LAPD *)
Theorem C63_leak_refuted : exists s, run k0 (st_init false 0) [App [CConfig 1 TS_SIGN; CConfig 2 TS_RAW; CUpdate]; Ready 1 (Some (RPhData [1])) false []; Ready 2 (Some RdErr) false []] = Ok s /\ In ELeak (proj 1 (out s)) /\ In ELeak (proj 2 (out s)).
Proof. eexists. split; [vm_compute; reflexivity|]. split; vm_compute; tauto. Qed.
(** a confirmation that never comes: nothing more is written, however often there is room *)
Theorem C63_lost_confirm k u p vs s t s' : run k (st_init u p) vs = Ok s -> m_type (tsl s t) = TS_RAW \/ m_type (tsl s t) = TS_HDLC -> m_unc (tsl s t) = true -> step k s (Ready t None true []) = Ok s' -> out s' = out s /\ m_unc (tsl s' t) = true /\ m_q (tsl s' t) = m_q (tsl s t).
Proof.
  intros R T U H. cbn [step] in H. destruct (m_reg _); [|injection H as <-; easy]. unfold fd_cb in H.
  assert (X : forall rev, let s1 := on s t (data_write k rev) in out s1 = out s /\ m_unc (tsl s1 t) = true /\ m_q (tsl s1 t) = m_q (tsl s t)). { intros rev. unfold on, leave, upd, data_write. cbn [enter put lx w_wr m_unc]. rewrite U. cbn [les map tsl out lx]. rewrite Nat.eqb_refl. cbn. now rewrite app_nil_r. }
  destruct T as [T|T]; rewrite T in H; destruct (true && m_wr (tsl s t)); injection H as <-; try easy; apply X.
Qed.
(** ** the hypotheses are met *)
Example C63_written_met : exists s, run k0 (st_init false 0) [App [CConfig 2 TS_RAW; CUpdate; CSend 2 0 [128;3]; CSend 2 0 [4]]] = Ok s /\ life None (proj 2 (out s)) = Some (Some (1%nat, Polled)) /\ queue 0 (m_q (tsl s 2)) = [[128;3];[4]] /\ m_wr (tsl s 2) = true /\ m_unc (tsl s 2) = false /\ m_type (tsl s 2) = TS_RAW.
Proof. eexists. split; [vm_compute; reflexivity|]. repeat split; vm_compute; reflexivity. Qed.
Example C63_signalling_met u : exists s f, run k0 (st_init u 0) [App [CConfig 1 TS_SIGN; CUpdate; CLink 1 7 5 62; CSend 1 7 [1;2]]] = Ok s /\ life None (proj 1 (out s)) = Some (Some (f, Polled)) /\ (u = true -> m_lapd (tsl s 1) = true) /\ queue 7 (m_q (tsl s 1)) = [[1;2]] /\ m_wr (tsl s 1) = true /\ oldest 5 62 (m_q (tsl s 1)) (mkLk 7 5 62 0 [[1;2]]).
Proof. destruct u; eexists _, _; (split; [vm_compute; reflexivity|]); (split; [vm_compute; reflexivity|]); (split; [easy|]); (split; [vm_compute; reflexivity|]); (split; [vm_compute; reflexivity|]); exists [], []; now cbn. Qed.
Example C64_met : exists s, run k0 (st_init false 0) [App [CConfig 1 TS_SIGN; CConfig 16 TS_HDLC; CUpdate]; Ready 1 (Some (RMph 17)) false []; Ready 16 (Some (RMph 21)) false []; Ready 16 (Some (RMph 16)) false []; Ready 16 (Some (RMph 20)) false []; Ready 16 (Some (RMph (256 + 31))) false []] = Ok s /\
  filter signal (out s) = [LSig (SLos true); LSig (SAlarm true); LSig (SRai true); LSig (SLos false); LSig (SRai false); LSig (SAlarm false); LSig (SSa 31)].
Proof. eexists. split; [vm_compute; reflexivity|]. vm_compute. reflexivity. Qed.
