(** C84: the transmit delay of a signalling timeslot in time. *)
From Coq Require Import List Arith Lia Bool ZArith.
From Verif Require Import Base E1Model PaceModel PaceSpec.
Import ListNotations.
Open Scope Z_scope.

(** ** What one event does *)
Record PInv (delay : Z) (s : pst) : Prop := {
  i_ty : t_type (p_ts s) = TS_SIGN;
  i_tm : t_timer (p_ts s) <> TGarbage;
  i_ex : t_wr (p_ts s) = true -> t_timer (p_ts s) = TIdle;
  i_due : due s <= now s + delay;
  i_since : since s <= now s }.
Definition awake (s : pst) : Prop := backlog (t_links (p_ts s)) = 0%nat \/ t_wr (p_ts s) = true \/ t_timer (p_ts s) = TPending.
Lemma init_inv delay wr t : 0 <= delay -> PInv delay (p_init wr t).
Proof. intros D. constructor; cbn; try easy; lia. Qed.
Lemma deq_none ls : dequeue ls = None -> backlog ls = 0%nat.
Proof.
  induction ls as [|l r IH]; [easy|]. cbn [dequeue backlog fold_right]. destruct (lk_q l) as [|m q]; [|discriminate]. destruct (dequeue r) as [[[x m] r']|]; [discriminate|]. intros _. cbn. now apply IH.
Qed.
Lemma deq_some ls l m ls' : dequeue ls = Some (l, m, ls') -> exists u q v, ls = u ++ l :: v /\ backlog u = 0%nat /\ lk_q l = m :: q /\ ls' = u ++ mkLink (lk_id l) (lk_type l) (lk_tei l) (lk_sapi l) q :: v.
Proof.
  revert ls'. induction ls as [|x r IH]; cbn [dequeue]; intros ls' E; [discriminate E|]. destruct (lk_q x) as [|m' q'] eqn:Q.
  - destruct (dequeue r) as [[[y m'] r']|] eqn:DR; [|discriminate E]. injection E as -> -> <-. destruct (IH r' eq_refl) as (u & q & v & -> & B & QQ & ->). exists (x :: u), q, v. cbn [app backlog fold_right]. rewrite Q. cbn. easy.
  - injection E as -> -> <-. now exists [], q', r.
Qed.
Lemma backlog_app u v : backlog (u ++ v) = (backlog u + backlog v)%nat.
Proof. induction u as [|l u IH]; [reflexivity|]. cbn [app backlog fold_right]. fold (backlog (u ++ v)). fold (backlog u). rewrite IH. lia. Qed.
(** the five events *)
Inductive effect (delay : Z) (s : pst) (t : Z) : pev -> pst -> list (nat * msg) -> Prop :=
| XSend id m : existsb (fun l => Nat.eqb (lk_id l) id) (t_links (p_ts s)) = true -> effect delay s t (PSend id m) (to s t (ts_send (p_ts s) id m) (due s)) []
| XMake id ty tei sapi : effect delay s t (PMake id ty tei sapi)
    (to s t (mkTs TS_SIGN (t_links (p_ts s) ++ [mkLink id ty tei sapi []]) (t_q (p_ts s)) (t_i460 (p_ts s)) (t_timer (p_ts s)) (t_wr (p_ts s))) (due s)) []
| XDestroy id : effect delay s t (PDestroy id)
    (to s t (mkTs TS_SIGN (filter (fun l => negb (Nat.eqb (lk_id l) id)) (t_links (p_ts s))) (t_q (p_ts s)) (t_i460 (p_ts s)) TIdle (t_wr (p_ts s))) (due s)) []
| XIdle : t_wr (p_ts s) = false -> effect delay s t PWritable (to s t (p_ts s) (due s)) []
| XNone : t_wr (p_ts s) = true -> backlog (t_links (p_ts s)) = 0%nat ->
    effect delay s t PWritable (to s t (mkTs TS_SIGN (t_links (p_ts s)) (t_q (p_ts s)) (t_i460 (p_ts s)) (t_timer (p_ts s)) false) (due s)) []
| XTx l m q u v : t_wr (p_ts s) = true -> t_links (p_ts s) = u ++ l :: v -> backlog u = 0%nat -> lk_q l = m :: q ->
    effect delay s t PWritable (to s t (mkTs TS_SIGN (u ++ mkLink (lk_id l) (lk_type l) (lk_tei l) (lk_sapi l) q :: v) (t_q (p_ts s)) (t_i460 (p_ts s)) TPending false) (t + delay)) [(lk_id l, m)]
| XFire : t_timer (p_ts s) = TPending -> due s <= t ->
    effect delay s t PFire (to s t (mkTs TS_SIGN (t_links (p_ts s)) (t_q (p_ts s)) (t_i460 (p_ts s)) TIdle true) (due s)) [].
Lemma step_effect delay s t e s' o : PInv delay s -> pstep delay s t e = Some (s', o) -> now s <= t /\ effect delay s t e s' o.
Proof.
  intros [TY TM EX _ _] E. unfold pstep in E. destruct (Z.ltb_spec t (now s)) as [|L]; [discriminate E|]. split; [exact L|]. destruct e as [id m|id ty tei sapi|id| |].
  - destruct (existsb _ _) eqn:X; [|discriminate E]. injection E as <- <-. now constructor.
  - unfold ts_link_create in E. rewrite TY in E. injection E as <- <-. constructor.
  - unfold ts_link_destroy in E. destruct (find _ _) as [l|]; [|discriminate E]. rewrite TY in E. destruct (t_timer (p_ts s)) eqn:TT; cbn [osmo_timer_del] in E; [| |contradiction]; injection E as <- <-; constructor.
  - unfold ts_write_ready in E. destruct (t_wr (p_ts s)) eqn:W; cbn [negb] in E; [|injection E as <- <-; now constructor].
    cbn zeta in E. rewrite TY in E. unfold e1inp_tx_ts in E. cbn [t_type t_links t_q t_i460 t_timer t_wr] in E. destruct (dequeue (t_links (p_ts s))) as [[[l m] ls]|] eqn:DQ.
    + destruct (deq_some _ _ _ _ DQ) as (u & q & v & LS & B & Q & ->). cbn [t_timer] in E. rewrite (EX eq_refl) in E. cbn in E. injection E as <- <-. now apply (XTx delay s t l m q u v).
    + cbn in E. injection E as <- <-. apply XNone; [easy|]. now apply deq_none.
  - destruct (t_timer (p_ts s)) eqn:TT; try discriminate E. destruct (Z.leb_spec (due s) t) as [LE|]; [|discriminate E]. unfold ts_timeout in E. rewrite TT, TY in E. injection E as <- <-. now apply XFire.
Qed.
Lemma step_inv delay s t e s' o : 0 <= delay -> PInv delay s -> pstep delay s t e = Some (s', o) -> PInv delay s'.
Proof.
  intros D H E. destruct (step_effect _ _ _ _ _ _ H E) as [L X]. destruct H as [TY TM EX DU SI]. destruct X; unfold to.
  all: constructor; cbn [p_ts due since now t_type t_timer t_wr t_links ts_send]; try easy; try lia.
  all: try (match goal with |- (if ?b then _ else _) <= _ => destruct b; lia end).
  rewrite orb_true_iff, negb_true_iff. intros [W|W]; [now apply EX|]. unfold osmo_timer_pending in W. now destruct (t_timer (p_ts s)).
Qed.
Lemma run_inv delay es : 0 <= delay -> forall s s' o, PInv delay s -> prun delay s es = Some (s', o) -> PInv delay s'.
Proof.
  intros D. induction es as [|[t e] es IH]; cbn [prun]; intros s s' o H E; [injection E as <- _; exact H|]. destruct (pstep delay s t e) as [[s1 o1]|] eqn:E1; [|discriminate E]. cbn [fst snd] in E.
  destruct (prun delay s1 es) as [[s2 o2]|] eqn:E2; [|discriminate E]. injection E as <- _. eapply IH; [|exact E2]. exact (step_inv _ _ _ _ _ _ D H E1).
Qed.

(** ** Not too fast *)
Lemma spaced_cons {A} d a (o : list (Z * A)) : spaced d o -> match o with [] => True | b :: _ => fst a + d <= fst b end -> spaced d (a :: o).
Proof.
  intros S H u x y v E. destruct u as [|z u]; cbn [app] in E; [|injection E as _ E; exact (S u x y v E)]. injection E as -> E. rewrite E in H. exact H.
Qed.
Lemma spaced_run delay es : 0 <= delay -> no_destroy es -> forall s s' o last, PInv delay s ->
  (forall t, last = Some t -> (t_timer (p_ts s) = TPending /\ due s = t + delay) \/ t + delay <= now s) ->
  prun delay s es = Some (s', o) -> spaced delay o /\ match last, o with Some t, b :: _ => t + delay <= fst b | _, _ => True end.
Proof.
  intros D. induction es as [|[t e] es IH]; cbn [prun]; intros ND s s' o last H LA E.
  - injection E as _ <-. split; [intros u a b v X; destruct u; discriminate X|now destruct last].
  - destruct (pstep delay s t e) as [[s1 o1]|] eqn:E1; [|discriminate E]. cbn [fst snd] in E. destruct (prun delay s1 es) as [[s2 o2]|] eqn:E2; [|discriminate E]. injection E as <- <-.
    pose proof (step_inv _ _ _ _ _ _ D H E1) as H1. destruct (step_effect _ _ _ _ _ _ H E1) as [L X]. assert (ND2 : no_destroy es) by (intros u i I; apply (ND u i); now right).
    assert (KEEP : o1 = [] -> (forall w, last = Some w -> (t_timer (p_ts s1) = TPending /\ due s1 = w + delay) \/ w + delay <= now s1) -> spaced delay (map (fun x => (t, x)) o1 ++ o2) /\ match last, map (fun x => (t, x)) o1 ++ o2 with Some w, b :: _ => w + delay <= fst b | _, _ => True end).
    { intros -> Q. cbn [map app]. exact (IH ND2 s1 s2 o2 last H1 Q E2). }
    destruct X as [id m EX|id ty tei sapi|id|W|W B|l m q u v W LS B Q|TT LE].
    + apply KEEP; [easy|]. intros w LW. destruct (LA w LW) as [[A1 A2]|A]; [left; cbn; easy|right; cbn; lia].
    + apply KEEP; [easy|]. intros w LW. destruct (LA w LW) as [[A1 A2]|A]; [left; cbn; easy|right; cbn; lia].
    + exfalso. apply (ND t id). now left.
    + apply KEEP; [easy|]. intros w LW. destruct (LA w LW) as [[A1 A2]|A]; [left; cbn; easy|right; cbn; lia].
    + apply KEEP; [easy|]. intros w LW. destruct (LA w LW) as [[A1 A2]|A]; [left; cbn; easy|right; cbn; lia].
    + cbn [map app]. destruct (IH ND2 _ s2 o2 (Some t) H1) as [I1 I2]; [intros w Ew; injection Ew as <-; left; cbn; easy|exact E2|]. split.
      * apply spaced_cons; [exact I1|]. destruct o2; [easy|exact I2].
      * destruct last as [w|]; [|easy]. cbn [fst]. destruct (LA w eq_refl) as [[A1 A2]|A]; [|lia]. apply (i_ex _ _ H) in W. congruence.
    + apply KEEP; [easy|]. intros w LW. destruct (LA w LW) as [[A1 A2]|A]; [right; cbn; lia|right; cbn; lia].
Qed.
(** Any two transmissions of a signalling timeslot between which no link is destroyed are the transmit
    delay apart. *)
Theorem C84_spacing delay wr t0 before during s s' ob o : 0 <= delay -> prun delay (p_init wr t0) before = Some (s, ob) ->
  prun delay s during = Some (s', o) -> no_destroy during -> spaced delay o.
Proof.
  intros D E1 E2 ND. pose proof (run_inv delay before D _ _ _ (init_inv delay wr t0 D) E1) as H. destruct (spaced_run delay during D ND s s' o None H) as [S _]; [discriminate|exact E2|exact S].
Qed.
(** so within any time [len] there are at most [len / delay + 1]. *)
Lemma spaced_tail {A} d (x : Z * A) o : spaced d (x :: o) -> spaced d o.
Proof. intros S u a b v E. apply (S (x :: u) a b v). cbn [app]. now rewrite E. Qed.
Lemma spaced_first {A} d (x : Z * A) o : 0 <= d -> spaced d (x :: o) -> forall y, In y o -> fst x + d <= fst y.
Proof.
  intros D. revert x. induction o as [|z o IH]; [easy|]. intros x S y [<-|I]; [exact (S [] x z o eq_refl)|]. pose proof (S [] x z o eq_refl). pose proof (IH z (spaced_tail _ _ _ S) y I). lia.
Qed.
Lemma window_bound {A} d (o : list (Z * A)) : 0 < d -> spaced d o -> forall from len, 0 <= len -> Z.of_nat (length (in_window from len o)) <= len / d + 1.
Proof.
  intros D. induction o as [|x o IH]; intros S from len L; [cbn; pose proof (Z.div_pos len d); lia|]. pose proof (spaced_tail _ _ _ S) as S2. pose proof (spaced_first d x o ltac:(lia) S) as FS.
  unfold in_window. cbn [filter]. fold (in_window from len o). destruct ((from <=? fst x) && (fst x <=? from + len)) eqn:W; [|now apply IH]. apply andb_prop in W as [W1 W2]. apply Z.leb_le in W1, W2. cbn [length].
  destruct (Z.le_gt_cases d (from + len - fst x)) as [G|G].
  - assert (E : in_window from len o = in_window (fst x + d) (from + len - fst x - d) o).
    { unfold in_window. apply filter_ext_in. intros y I. pose proof (FS y I). f_equal; [rewrite !(proj2 (Z.leb_le _ _)); lia|f_equal; lia]. }
    rewrite E. specialize (IH S2 (fst x + d) (from + len - fst x - d) ltac:(lia)). assert (Q : (from + len - fst x - d) / d + 1 <= len / d); [|lia].
    replace ((from + len - fst x - d) / d + 1) with ((from + len - fst x - d + 1 * d) / d) by (apply Z.div_add; lia). apply Z.div_le_mono; lia.
  - assert (E : in_window from len o = []).
    { unfold in_window. destruct (filter _ o) as [|y r] eqn:F; [easy|]. assert (I : In y (filter (fun x0 => (from <=? fst x0) && (fst x0 <=? from + len)) o)) by (rewrite F; now left). apply filter_In in I as [I J]. apply andb_prop in J as [_ J]. apply Z.leb_le in J. pose proof (FS y I). lia. }
    rewrite E. cbn [length]. pose proof (Z.div_pos len d L D). lia.
Qed.
Theorem C84_rate delay wr t0 before during s s' ob o from len : 0 < delay -> 0 <= len -> prun delay (p_init wr t0) before = Some (s, ob) ->
  prun delay s during = Some (s', o) -> no_destroy during -> Z.of_nat (length (in_window from len o)) <= len / delay + 1.
Proof. intros D L E1 E2 ND. apply window_bound; [exact D| |exact L]. apply (C84_spacing delay wr t0 before during s s' ob o); [lia|exact E1|exact E2|exact ND]. Qed.

(** ** Not too slow *)
Definition deadline (delay eps : Z) (s : pst) : Z := if t_wr (p_ts s) then since s + eps else due s + 2 * eps.
Lemma deadline_le delay eps s : 0 <= delay -> 0 <= eps -> PInv delay s -> deadline delay eps s <= now s + delay + 2 * eps.
Proof. intros D EP []. unfold deadline. destruct (t_wr (p_ts s)); lia. Qed.
Definition add_q (id : nat) (m : msg) (l : link) : link := if Nat.eqb (lk_id l) id then mkLink (lk_id l) (lk_type l) (lk_tei l) (lk_sapi l) (lk_q l ++ [m]) else l.
Lemma send_more id m ls : (backlog ls <= backlog (map (add_q id m) ls))%nat.
Proof. induction ls as [|l r IH]; [easy|]. cbn [map backlog fold_right]. fold (backlog r). fold (backlog (map (add_q id m) r)). unfold add_q at 1. destruct (Nat.eqb (lk_id l) id); cbn [lk_q]; rewrite ?app_length; cbn; lia. Qed.
Lemma send_some id m ls : existsb (fun l => Nat.eqb (lk_id l) id) ls = true -> backlog (map (add_q id m) ls) <> 0%nat.
Proof.
  induction ls as [|l r IH]; [easy|]. cbn [existsb map backlog fold_right]. fold (backlog (map (add_q id m) r)). unfold add_q at 1. destruct (Nat.eqb (lk_id l) id); cbn [orb lk_q]; [rewrite app_length; cbn; lia|]. intros E. apply IH in E. lia.
Qed.
Lemma awake_step delay s t e s' o : PInv delay s -> awake s -> (forall id, e = PDestroy id -> t_timer (p_ts s) = TIdle \/ backlog (filter (fun l => negb (Nat.eqb (lk_id l) id)) (t_links (p_ts s))) = 0%nat) ->
  pstep delay s t e = Some (s', o) -> awake s'.
Proof.
  intros H A G E. destruct (step_effect _ _ _ _ _ _ H E) as [L X]. unfold awake in *. destruct X as [id m EX|id ty tei sapi|id|W|W B|l m q u v W LS B Q|TT LE]; cbn [to p_ts t_links t_wr t_timer].
  - right. cbn [ts_send t_wr t_timer]. pose proof (i_tm _ _ H). destruct (t_timer (p_ts s)); cbn; [left; apply orb_true_r|now right|contradiction].
  - rewrite backlog_app. cbn. destruct A as [A|A]; [left; lia|now right].
  - destruct (G id eq_refl) as [TI|Z0]; [|now left]. destruct A as [A|[A|A]]; [left|right; now left|congruence].
    clear - A. induction (t_links (p_ts s)) as [|l r IH]; [reflexivity|]. cbn [backlog fold_right filter] in *. fold (backlog r) in A. destruct (negb _); cbn [backlog fold_right]; fold (backlog (filter (fun l => negb (Nat.eqb (lk_id l) id)) r)); rewrite IH; lia.
  - exact A.
  - now left.
  - right. now right.
  - right. now left.
Qed.
Lemma awake_run delay es : 0 <= delay -> forall s s' o, PInv delay s -> awake s -> gentle delay s es -> prun delay s es = Some (s', o) -> awake s'.
Proof.
  intros D. induction es as [|[t e] es IH]; cbn [prun gentle]; intros s s' o H A G E; [injection E as <- _; exact A|]. destruct G as [G1 G2]. destruct (pstep delay s t e) as [[s1 o1]|] eqn:E1; [|discriminate E]. cbn [fst snd] in E, G2.
  destruct (prun delay s1 es) as [[s2 o2]|] eqn:E2; [|discriminate E]. injection E as <- _. refine (IH s1 s2 o2 (step_inv _ _ _ _ _ _ D H E1) _ G2 E2).
  refine (awake_step _ _ _ _ _ _ H A _ E1). intros id ->. exact G1.
Qed.
(** what the deadline does in one event that does not destroy a link, while messages wait *)
Lemma deadline_step delay eps s t e s' o : 0 <= delay -> 0 <= eps -> PInv delay s -> awake s -> backlog (t_links (p_ts s)) <> 0%nat -> in_time eps s t -> (forall id, e <> PDestroy id) -> pstep delay s t e = Some (s', o) ->
  awake s' /\ t <= deadline delay eps s /\ if match o with [] => true | _ => false end then deadline delay eps s' <= deadline delay eps s else deadline delay eps s' <= deadline delay eps s + delay + 2 * eps.
Proof.
  intros D EP H A NB [T1 T2] ND E. assert (AW : awake s') by (refine (awake_step _ _ _ _ _ _ H A _ E); intros id ->; now contradiction (ND id)). split; [exact AW|].
  assert (TD : t <= deadline delay eps s). { unfold deadline. destruct A as [A|[A|A]]; [contradiction| |]; [rewrite A; now apply T1|]. destruct (t_wr (p_ts s)); [now apply T1|]. specialize (T2 A). lia. }
  split; [exact TD|]. destruct (step_effect _ _ _ _ _ _ H E) as [L X]. destruct A as [A|A]; [contradiction|]. unfold deadline in *.
  destruct X as [id m EX|id ty tei sapi|id|W|W B|l m q u v W LS B Q|TT LE]; cbn [to p_ts t_links t_wr t_timer since due ts_send].
  - destruct (t_wr (p_ts s)) eqn:W; cbn [orb negb andb]; [lia|]. destruct A as [A|A]; [discriminate A|]. rewrite A. cbn. lia.
  - destruct (t_wr (p_ts s)); cbn [negb andb]; lia.
  - now contradiction (ND id).
  - rewrite W. cbn. lia.
  - contradiction.
  - rewrite W in *. cbn. lia.
  - cbn [andb]. assert (W : t_wr (p_ts s) = false) by (destruct (t_wr (p_ts s)) eqn:W; [apply (i_ex _ _ H) in W; congruence|easy]). rewrite W in *. cbn [negb andb]. specialize (T2 TT). lia.
Qed.
Lemma end_deadline delay eps s t : 0 <= eps -> awake s -> backlog (t_links (p_ts s)) <> 0%nat -> in_time eps s t -> t <= deadline delay eps s.
Proof. intros EP A NB [T1 T2]. unfold deadline. destruct A as [A|[A|A]]; [contradiction| |]; [rewrite A; now apply T1|]. destruct (t_wr (p_ts s)); [now apply T1|]. specialize (T2 A). lia. Qed.
Lemma backlog_step delay s t e s' o : PInv delay s -> (forall id, e <> PDestroy id) -> pstep delay s t e = Some (s', o) -> (backlog (t_links (p_ts s)) <= backlog (t_links (p_ts s')) + length o)%nat.
Proof.
  intros H ND E. destruct (step_effect _ _ _ _ _ _ H E) as [L X]. destruct X as [id m EX|id ty tei sapi|id|W|W B|l m q u v W LS B Q|TT LE]; cbn [to p_ts t_links length ts_send].
  - rewrite Nat.add_0_r. apply (send_more id m).
  - rewrite backlog_app. lia.
  - now contradiction (ND id).
  - lia.
  - lia.
  - rewrite LS, !backlog_app. cbn [backlog fold_right lk_q]. rewrite Q. cbn [length]. lia.
  - lia.
Qed.
Lemma not_destroy t e es : no_destroy ((t, e) :: es) -> (forall id, e <> PDestroy id) /\ no_destroy es.
Proof. intros N. split; [intros id ->; apply (N t id); now left|]. intros u id I. apply (N u id). now right. Qed.
Lemma progress_run delay eps es : 0 <= delay -> 0 <= eps -> forall s s' o till k, no_destroy es -> PInv delay s -> awake s -> prun delay s es = Some (s', o) -> prompt delay eps s es till ->
  deadline delay eps s + Z.of_nat k * (delay + 2 * eps) < till -> (Nat.min (backlog (t_links (p_ts s))) (S k) <= length o)%nat.
Proof.
  intros D EP. induction es as [|[t e] es IH]; cbn [prun prompt]; intros s s' o till k ND H A E P T.
  - injection E as _ <-. destruct (Nat.eq_dec (backlog (t_links (p_ts s))) 0) as [Z0|NB]; [rewrite Z0; cbn; lia|]. exfalso. pose proof (end_deadline delay eps s till EP A NB P). nia.
  - destruct (Nat.eq_dec (backlog (t_links (p_ts s))) 0) as [Z0|NB]; [rewrite Z0; cbn; lia|]. destruct P as [P1 P2]. destruct (pstep delay s t e) as [[s1 o1]|] eqn:E1; [|discriminate E]. cbn [fst snd] in E, P2.
    destruct (prun delay s1 es) as [[s2 o2]|] eqn:E2; [|discriminate E]. injection E as <- <-. destruct (not_destroy _ _ _ ND) as [N1 N2].
    destruct (deadline_step delay eps s t e s1 o1 D EP H A NB P1 N1 E1) as (A1 & TD & DS). pose proof (step_inv _ _ _ _ _ _ D H E1) as H1. pose proof (backlog_step _ _ _ _ _ _ H N1 E1) as BS.
    rewrite app_length, map_length. destruct o1 as [|x r].
    + cbn [length] in *. specialize (IH s1 s2 o2 till k N2 H1 A1 E2 P2 ltac:(lia)). lia.
    + destruct k as [|k]; [cbn [length]; lia|]. specialize (IH s1 s2 o2 till k N2 H1 A1 E2 P2 ltac:(nia)). assert (R1 : r = []); [|subst r; cbn [length] in *; lia].
      destruct (step_effect _ _ _ _ _ _ H E1) as [_ X]. inversion X; reflexivity.
Qed.
(** A waiting message is transmitted, whatever else is sent, at least every [delay + 2 eps]: of [n]
    waiting messages [k] are out by [k] times this. *)
Theorem C84_progress delay eps wr t0 before during s s' ob o till k : 0 <= delay -> 0 <= eps -> prun delay (p_init wr t0) before = Some (s, ob) -> gentle delay (p_init wr t0) before ->
  prun delay s during = Some (s', o) -> no_destroy during -> prompt delay eps s during till -> now s + Z.of_nat k * (delay + 2 * eps) < till ->
  (Nat.min (backlog (t_links (p_ts s))) k <= length o)%nat.
Proof.
  intros D EP E1 G E2 ND P T. pose proof (run_inv delay before D _ _ _ (init_inv delay wr t0 D) E1) as H. assert (A : awake s) by (refine (awake_run delay before D _ s ob (init_inv delay wr t0 D) _ G E1); now left).
  destruct k as [|k]; [lia|]. apply (progress_run delay eps during D EP s s' o till k ND H A E2 P). pose proof (deadline_le delay eps s D EP H). lia.
Qed.

(** *** one message *)
Definition no_send_before (us : list link) (es : list (Z * pev)) : Prop := forall t id m, In (t, PSend id m) es -> forall l, In l us -> lk_id l <> id.
Lemma split_first u l v u1 l1 v1 : u ++ l :: v = u1 ++ l1 :: v1 -> backlog u1 = 0%nat -> lk_q l1 <> [] ->
  (exists a b, u = a ++ l1 :: b /\ u1 = a) \/ (u = u1 /\ l = l1 /\ v = v1) \/ (backlog u = 0%nat /\ lk_q l = [] ).
Proof.
  revert u1. induction u as [|x u IH]; intros u1 E B Q.
  - destruct u1 as [|y u1]; cbn [app] in E; [injection E as -> ->; right; left; easy|]. injection E as <- E. right. right. split; [easy|]. cbn [backlog fold_right] in B. destruct (lk_q l); [easy|cbn in B; lia].
  - destruct u1 as [|y u1]; cbn [app] in E; [injection E as -> E; left; now exists [], u|]. injection E as <- E. cbn [backlog fold_right] in B. fold (backlog u1) in B. destruct (IH u1 E ltac:(lia) Q) as [(a & b & -> & ->)|[(-> & -> & ->)|[B1 B2]]].
    + left. now exists (x :: a), b.
    + right. left. easy.
    + right. right. split; [|exact B2]. cbn [backlog fold_right]. fold (backlog u). lia.
Qed.
Lemma latency_run delay eps es : 0 <= delay -> 0 <= eps -> forall s s' o till u l v q1 m q2, no_destroy es -> no_send_before u es -> PInv delay s -> awake s -> prun delay s es = Some (s', o) -> prompt delay eps s es till ->
  t_links (p_ts s) = u ++ l :: v -> lk_q l = q1 ++ m :: q2 -> deadline delay eps s + Z.of_nat (backlog u + length q1) * (delay + 2 * eps) < till ->
  exists t, In (t, (lk_id l, m)) o /\ t <= deadline delay eps s + Z.of_nat (backlog u + length q1) * (delay + 2 * eps).
Proof.
  intros D EP. induction es as [|[t e] es IH]; cbn [prun prompt]; intros s s' o till u l v q1 m q2 ND NS H A E P LS LQ T.
  - exfalso. assert (NB : backlog (t_links (p_ts s)) <> 0%nat) by (rewrite LS, backlog_app; cbn [backlog fold_right]; rewrite LQ, app_length; cbn [length]; lia). pose proof (end_deadline delay eps s till EP A NB P). nia.
  - assert (NB : backlog (t_links (p_ts s)) <> 0%nat) by (rewrite LS, backlog_app; cbn [backlog fold_right]; rewrite LQ, app_length; cbn [length]; lia).
    destruct P as [P1 P2]. destruct (pstep delay s t e) as [[s1 o1]|] eqn:E1; [|discriminate E]. cbn [fst snd] in E, P2. destruct (prun delay s1 es) as [[s2 o2]|] eqn:E2; [|discriminate E]. injection E as <- <-. destruct (not_destroy _ _ _ ND) as [N1 N2].
    destruct (deadline_step delay eps s t e s1 o1 D EP H A NB P1 N1 E1) as (A1 & TD & DS). pose proof (step_inv _ _ _ _ _ _ D H E1) as H1. assert (NS2 : no_send_before u es) by (intros w i mm I; apply (NS w i mm); now right).
    assert (NEXT : forall u2 l2 v2 p2 r2, o1 = [] -> t_links (p_ts s1) = u2 ++ l2 :: v2 -> lk_q l2 = p2 ++ m :: r2 -> lk_id l2 = lk_id l -> backlog u2 = backlog u -> length p2 = length q1 -> map lk_id u2 = map lk_id u ->
      exists t1, In (t1, (lk_id l, m)) (map (fun x => (t, x)) o1 ++ o2) /\ t1 <= deadline delay eps s + Z.of_nat (backlog u + length q1) * (delay + 2 * eps)).
    { intros u2 l2 v2 p2 r2 O1 L2 Q2 ID B2 LP MP. subst o1. cbn [length] in DS. destruct (IH s1 s2 o2 till u2 l2 v2 p2 m r2 N2) as (t1 & I1 & I2); [|exact H1|exact A1|exact E2|exact P2|exact L2|exact Q2|rewrite B2, LP; lia|].
      - intros w i mm I x X. assert (Y : In (lk_id x) (map lk_id u)) by (rewrite <- MP; now apply in_map). apply in_map_iff in Y as (y & Y1 & Y2). rewrite <- Y1. exact (NS2 w i mm I y Y2).
      - rewrite ID, B2, LP in *. exists t1. split; [exact I1|lia]. }
    destruct (step_effect _ _ _ _ _ _ H E1) as [L X]. destruct X as [id mm EX|id ty tei sapi|id|W|W B|l1 m1 q u1 v1 W LS1 B Q|TT LE].
    + assert (MU : map (add_q id mm) u = u).
      { transitivity (map (fun x : link => x) u); [|apply map_id]. apply map_ext_in. intros x X. unfold add_q. destruct (Nat.eqb_spec (lk_id x) id) as [Y|]; [|easy]. exfalso. exact (NS t id mm (or_introl eq_refl) x X Y). }
      apply (NEXT u (add_q id mm l) (map (add_q id mm) v) q1 (q2 ++ if Nat.eqb (lk_id l) id then [mm] else [])); try easy.
      * cbn [to p_ts ts_send t_links]. rewrite LS. change (map (add_q id mm) (u ++ l :: v) = u ++ add_q id mm l :: map (add_q id mm) v). now rewrite map_app, MU.
      * unfold add_q. destruct (Nat.eqb (lk_id l) id); cbn [lk_q]; rewrite LQ; [now rewrite <- app_assoc|now rewrite app_nil_r].
      * unfold add_q. now destruct (Nat.eqb (lk_id l) id).
    + apply (NEXT u l (v ++ [mkLink id ty tei sapi []]) q1 q2); try easy. cbn [to p_ts t_links]. rewrite LS, <- app_assoc. reflexivity.
    + now contradiction (N1 id).
    + apply (NEXT u l v q1 q2); easy.
    + contradiction.
    + rewrite LS in LS1. destruct (split_first u l v u1 l1 v1 LS1 B ltac:(congruence)) as [(a & b & -> & ->)|[(-> & -> & ->)|[_ Y]]].
      * rewrite <- app_assoc in LS1. cbn [app] in LS1. apply app_inv_head in LS1. injection LS1 as LS1. cbn [map app length] in *.
        set (l1' := mkLink (lk_id l1) (lk_type l1) (lk_tei l1) (lk_sapi l1) q) in *. assert (BB : S (backlog (a ++ l1' :: b)) = backlog (a ++ l1 :: b)) by (rewrite !backlog_app; cbn [backlog fold_right]; unfold l1'; cbn [lk_q]; rewrite Q; cbn [length]; lia).
        match type of H1 with PInv _ ?x => set (sx := x) in * end. destruct (IH sx s2 o2 till (a ++ l1' :: b) l v q1 m q2 N2) as (t1 & I1 & I2).
        -- intros w i mm I x X. assert (Y : exists y, In y (a ++ l1 :: b) /\ lk_id y = lk_id x).
           { apply in_app_or in X as [X|[<-|X]]; [exists x|exists l1|exists x]; (split; [apply in_or_app|reflexivity]); [now left|right; now left|right; now right]. }
           destruct Y as (y & Y1 & <-). exact (NS2 w i mm I y Y1).
        -- exact H1.
        -- exact A1.
        -- exact E2.
        -- exact P2.
        -- unfold sx. cbn [to p_ts t_links]. rewrite <- app_assoc. cbn [app]. rewrite <- ?LS1. reflexivity.
        -- exact LQ.
        -- rewrite <- BB in T. nia.
        -- exists t1. split; [now right|]. rewrite <- BB. nia.
      * destruct q1 as [|x q1]; cbn [app] in LQ.
        -- rewrite LQ in Q. injection Q as <- <-. exists t. split; [now left|]. nia.
        -- rewrite LQ in Q. injection Q as <- <-. cbn [map app length] in *. match type of H1 with PInv _ ?x => set (sx := x) in * end. destruct (IH sx s2 o2 till u1 (mkLink (lk_id l1) (lk_type l1) (lk_tei l1) (lk_sapi l1) (q1 ++ m :: q2)) v1 q1 m q2 N2 NS2 H1 A1 E2 P2) as (t1 & I1 & I2); [reflexivity|reflexivity|nia|].
           exists t1. split; [now right|nia].
      * rewrite LQ in Y. destruct q1; discriminate Y.
    + apply (NEXT u l v q1 q2); easy.
Qed.
(** A message waiting on a link is transmitted within [delay + 2 eps] for each message that goes before
    it: those waiting on links made before this one, and those waiting on this link before it; if none is
    sent on links made before this one meanwhile. *)
Theorem C84_latency delay eps wr t0 before during s s' ob o till u l v q1 m q2 : 0 <= delay -> 0 <= eps -> prun delay (p_init wr t0) before = Some (s, ob) -> gentle delay (p_init wr t0) before ->
  prun delay s during = Some (s', o) -> no_destroy during -> prompt delay eps s during till ->
  t_links (p_ts s) = u ++ l :: v -> lk_q l = q1 ++ m :: q2 -> no_send_before u during ->
  let bound := now s + Z.of_nat (backlog u + length q1 + 1) * (delay + 2 * eps) in
  bound < till -> exists t, In (t, (lk_id l, m)) o /\ t <= bound.
Proof.
  intros D EP E1 G E2 ND P LS LQ NS bound T. pose proof (run_inv delay before D _ _ _ (init_inv delay wr t0 D) E1) as H. assert (A : awake s) by (refine (awake_run delay before D _ s ob (init_inv delay wr t0 D) _ G E1); now left).
  pose proof (deadline_le delay eps s D EP H) as DL. unfold bound in *. destruct (latency_run delay eps during D EP s s' o till u l v q1 m q2 ND NS H A E2 P LS LQ) as (t & I1 & I2); [nia|]. exists t. split; [exact I1|nia].
Qed.

(** *** the conditions are needed, and met *)
Lemma prun_app delay a : forall s b, prun delay s (a ++ b) = do x <- prun delay s a; do y <- prun delay (fst x) b; Some (fst y, (snd x ++ snd y)%list).
Proof.
  induction a as [|[t e] a IH]; intros s b; cbn [app prun]; [cbn [fst snd app]; destruct (prun delay s b) as [[]|]; reflexivity|]. destruct (pstep delay s t e) as [[s1 o1]|]; [|reflexivity]. cbn [fst snd]. rewrite IH.
  destruct (prun delay s1 a) as [[s2 o2]|]; [|reflexivity]. cbn [fst snd]. destruct (prun delay s2 b) as [[s3 o3]|]; [|reflexivity]. cbn [fst snd]. now rewrite app_assoc.
Qed.
(** Destroying a link deletes the timer of the timeslot: the next message goes out at once. *)
Theorem C84_destroy_refuted : forall m m', exists s o, prun 50000 (p_init false 0) [(0, PMake 0 SIGN_OML 25 62); (0, PMake 1 SIGN_RSL 1 0); (0, PSend 0 m); (1, PWritable); (2, PDestroy 0); (3, PSend 1 m'); (4, PWritable)] = Some (s, o) /\
  o = [(1, (0%nat, m)); (4, (1%nat, m'))] /\ ~ spaced 50000 o.
Proof.
  intros m m'. eexists. eexists. split; [vm_compute; reflexivity|]. split; [reflexivity|]. intros S. pose proof (S [] _ _ [] eq_refl) as X. cbn in X. lia.
Qed.
(** Nor is a message on a later link sure to go out while the earlier link is kept busy: between any two
    messages of the first link there is time for none of the second. *)
Theorem C84_starved_refuted : forall m m' k, exists s o, prun 50000 (p_init false 0)
   ([(0, PMake 0 SIGN_OML 25 62); (0, PMake 1 SIGN_RSL 1 0); (0, PSend 1 m'); (0, PSend 0 m); (0, PWritable)] ++ concat (map (fun i => [(Z.of_nat i * 50000, PFire); (Z.of_nat i * 50000, PSend 0 m); (Z.of_nat i * 50000, PWritable)]) (seq 1 k))) = Some (s, o) /\
  (forall t, ~ In (t, (1%nat, m')) o) /\ length o = S k.
Proof.
  intros m m' k. assert (G : forall j i, exists s o, prun 50000 (mkP (mkTs TS_SIGN [mkLink 0 SIGN_OML 25 62 []; mkLink 1 SIGN_RSL 1 0 [m']] [] 0 TPending false) (Z.of_nat i * 50000 + 50000) (Z.of_nat i * 50000) (Z.of_nat i * 50000))
      (concat (map (fun i => [(Z.of_nat i * 50000, PFire); (Z.of_nat i * 50000, PSend 0 m); (Z.of_nat i * 50000, PWritable)]) (seq (S i) j))) = Some (s, o) /\ (forall t, ~ In (t, (1%nat, m')) o) /\ length o = j).
  { induction j as [|j IH]; intros i; [eexists; exists []; cbn; easy|]. destruct (IH (S i)) as (s & o & E & N & LN). exists s, ((Z.of_nat (S i) * 50000, (0%nat, m)) :: o). split; [|split; [|cbn [length]; now rewrite LN]].
    - assert (Q : Z.of_nat (S i) * 50000 = Z.of_nat i * 50000 + 50000) by lia. cbn [seq map concat app prun]. rewrite Q in *. set (z := Z.of_nat i * 50000) in *. clearbody z.
      unfold pstep at 1. cbn [now p_ts t_timer due]. rewrite (proj2 (Z.ltb_ge (z + 50000) z)), Z.leb_refl by lia. unfold ts_timeout, to. cbn [t_timer t_type t_links t_q t_i460 t_wr p_ts negb andb fst snd].
      unfold pstep at 1. cbn [now p_ts t_timer due]. rewrite Z.ltb_irrefl. cbn [existsb t_links lk_id Nat.eqb orb fst snd]. unfold ts_send, to. cbn [t_timer t_type t_links t_q t_i460 t_wr p_ts negb andb orb fst snd due since now osmo_timer_pending map lk_id Nat.eqb app lk_q lk_type lk_tei lk_sapi].
      unfold pstep at 1. cbn [now p_ts t_timer due]. rewrite Z.ltb_irrefl. unfold ts_write_ready, e1inp_tx_ts. cbn [t_timer t_type t_links t_q t_i460 t_wr p_ts negb andb orb fst snd dequeue lk_q osmo_timer_schedule osmo_timer_del lk_id lk_type lk_tei lk_sapi].
      unfold to. cbn [t_timer t_type t_links t_q t_i460 t_wr p_ts negb andb orb fst snd due since now]. rewrite E. cbn [fst snd map app]. reflexivity.
    - intros t [X|X]; [|exact (N t X)]. assert (Y : 0%nat = 1%nat) by congruence. discriminate Y. }
  destruct (G k 0%nat) as (s & o & E & N & LN). exists s, ((0, (0%nat, m)) :: o). change (Z.of_nat 0 * 50000) with 0 in E. match type of E with prun _ _ ?x = _ => set (tl := x) in * end. clearbody tl. split; [|split; [|cbn [length]; now rewrite LN]].
  - rewrite prun_app. match goal with |- context [prun 50000 (p_init false 0) ?x] => set (h := prun 50000 (p_init false 0) x) end. vm_compute in h. subst h. cbn [fst snd]. change (0 + 50000) with 50000 in E. rewrite E. reflexivity.
  - intros t [X|X]; [|exact (N t X)]. assert (Y : 0%nat = 1%nat) by congruence. discriminate Y.
Qed.
(** A line with two links, three messages, a prompt host: all conditions of the theorems above hold, the
    messages go out at 400, 50800 and 101500 microseconds. *)
Theorem C84_example : forall a b c, let delay := 50000 in let eps := 1000 in
  let before := [(0, PMake 0 SIGN_OML 25 62); (10, PMake 1 SIGN_RSL 1 0); (20, PSend 1 a)] in
  let during := [(400, PWritable); (30000, PSend 1 b); (40000, PSend 1 c); (50500, PFire); (50800, PWritable); (101000, PFire); (101500, PWritable)] in
  match prun delay (p_init false 0) before with
  | Some (s, ob) => gentle delay (p_init false 0) before /\ no_destroy during /\ prompt delay eps s during 152000 /\ t_links (p_ts s) = [mkLink 0 SIGN_OML 25 62 []; mkLink 1 SIGN_RSL 1 0 [a]] /\
    exists s', prun delay s during = Some (s', [(400, (1%nat, a)); (50800, (1%nat, b)); (101500, (1%nat, c))])
  | None => False end.
Proof.
  intros a b c. vm_compute. split; [easy|]. split; [|split; [|split; [easy|eexists; reflexivity]]].
  - intros t id H. repeat (destruct H as [H|H]; [discriminate H|]). exact H.
  - repeat split; intros; try discriminate.
Qed.
Print Assumptions C84_spacing.
Print Assumptions C84_rate.
Print Assumptions C84_progress.
Print Assumptions C84_latency.
