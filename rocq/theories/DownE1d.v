(** C81, osmo-e1d: a line taken out of service, then freed. *)
From Coq Require Import List Arith Lia Bool ZArith.
From Verif Require Import Base E1Model E1dModel E1dSpec E1dProofs E1dRunProofs E1dProps.
Import ListNotations.
Open Scope Z_scope.

(** ** Model: the end of a line *)
(** e1_input.c:530-573 e1inp_line_use_cb, as in DownMisdn.v.  [strikes]: the select loop or LAPD
    calls the driver with memory of line [l].  The delay timer is not looked at: E1dModel has no
    removal of signalling links, which stops it (e1_input.c:809-833; C81_misdn, C81_dahdi). *)
Definition slot (t : nat) : bool := (1 <=? t)%nat && (t <? 32)%nat.
Definition strikes (s : st) (l : nat) (v : ev) : bool :=
  match v with
  | Ready a t _ _ _ => Nat.eqb a l && slot t && e_reg (tsl s l t)
  | LapdOut a t _ => Nat.eqb a l && slot t && e_lapd (tsl s l t)
  | _ => false
  end.
Definition used_after_free (s : st) (l : nat) (vs : list ev) : bool := existsb (strikes s l) vs.
Definition by_itself (l : nat) (v : ev) : Prop := match v with Ready a t _ _ _ | LapdOut a t _ => a = l /\ (1 <= t < 32)%nat | _ => False end.

(** ** C81, osmo-e1d *)
(** All timeslots of the line unused and an update that succeeds while the daemon is connected
    before and after: every descriptor of the line is closed, nothing of the line happens any more
    by itself, the line may be freed. *)
Theorem C81_e1d d vs s s' l : run d st_init vs = Ok s -> exist s l = true -> (forall t, (1 <= t < 32)%nat -> e_type (tsl s l t) = TS_NONE) -> line_update d s l = Ok (s', 0) -> fsm s' = Some true ->
  (forall t f m, (1 <= t < 32)%nat -> In (DOpen l t m f) (out s') -> ~ is_open f (out s')) /\ (forall v, by_itself l v -> step d s' v = Ok s') /\ (forall vs2, used_after_free s' l vs2 = false).
Proof.
  intros H EX TY E F. destruct (C57_update d vs s l s' 0 H EX E) as (_ & UP & _). destruct (UP F eq_refl) as (k & info & _ & CL). clear UP.
  apply reach_inv in H as I. pose proof (line_update_ok d s l I EX) as L. rewrite E in L. destruct L as (I' & A & _ & _ & _ & C). pose proof (i_w s' I') as w'.
  assert (X : forall t, (1 <= t < 32)%nat -> e_fd (tsl s' l t) = None /\ e_lapd (tsl s' l t) = false).
  { intros t T. destruct C as [(s1 & C1 & A1 & (w2 & S2 & _ & U) & _)|(_ & L)]; [|destruct L; congruence].
    destruct U as [(_ & _ & [(_ & i & Q & U)|(X & _)])|(X & _)]; [|discriminate|destruct X; congruence]. specialize (U t T). unfold set_up in U. cbv zeta in U.
    assert (T1 : e_type (tsl s1 l t) = TS_NONE) by (destruct A1 as (_ & _ & _ & _ & A1); destruct (A1 l t) as (-> & _); now apply TY). rewrite T1 in U. exact U. }
  assert (RG : forall t, (1 <= t < 32)%nat -> e_reg (tsl s' l t) = false) by (intros t T; apply (w_none s' w'), X, T).
  split; [|split].
  - intros t f m T D. exact (proj1 (CL t T) (TY t T) f m D).
  - intros v B. destruct v; cbn [by_itself] in B; try easy; destruct B as [-> T]; cbn [step]; [now rewrite (RG _ T)|now rewrite (proj2 (X _ T))].
  - intros vs2. induction vs2 as [|v r IH]; [easy|]. unfold used_after_free in *. cbn [existsb]. rewrite IH, orb_false_r. unfold strikes, slot. destruct v; try reflexivity; (destruct (Nat.eqb _ _); [|easy]; destruct (Nat.leb_spec 1 t); [|easy]; destruct (Nat.ltb_spec t 32); [|easy]; cbn [andb]; first [apply RG; lia|apply X; lia]).
Qed.
(** refuted: a line that is merely released; a line whose last update found the daemon not
    connected: the update returns 0, but the LAPD instance stays (its T203 may still fire) *)
Theorem C81_e1d_put_refuted : match run good st_init start with
  Ok s => used_after_free s 0 [Ready 0 3 (Some (RdData [1])) false []] = true /\ used_after_free s 0 [LapdOut 0 1 [1]] = true | Bad _ => False end.
Proof. now vm_compute. Qed.
Definition gone : daemon := mkDm (fun n => (n <? 20)%nat) (fun _ => Some modes) (fun _ => true) (fun _ => true) (fun _ => 160) (fun _ => repeat 1 160).
Theorem C81_e1d_lost_refuted : match run gone st_init (start ++ [Ready 0 3 (Some RdErr) false []; App [CConfig 0 1 TS_NONE; CConfig 0 2 TS_NONE; CConfig 0 3 TS_NONE; CConfig 0 4 TS_NONE; CConfig 0 5 TS_NONE]]) with
  Ok s => forallb (fun t => type_eqb (e_type (tsl s 0%nat t)) TS_NONE) (seq 0 32) = true /\ match line_update gone s 0 with Ok (s', rc) => rc = 0 /\ fsm s' = Some false /\ used_after_free s' 0 [LapdOut 0 1 [1]] = true | Bad _ => False end | Bad _ => False end.
Proof. now vm_compute. Qed.
Example C81_e1d_met : match run real st_init (start ++ [App [CSend 0 1 [7]; CConfig 0 1 TS_NONE; CConfig 0 2 TS_NONE; CConfig 0 3 TS_NONE; CConfig 0 4 TS_NONE; CConfig 0 5 TS_NONE]]) with
  Ok s => forallb (fun t => type_eqb (e_type (tsl s 0%nat t)) TS_NONE) (seq 0 32) = true /\ used_after_free s 0 [LapdOut 0 1 [1]] = true /\ match line_update real s 0 with Ok (s', rc) => rc = 0 /\ fsm s' = Some true | Bad _ => False end | Bad _ => False end.
Proof. now vm_compute. Qed.
(** a LAPD instance is made by an update of the line only *)
Definition PL (s : st) : Prop := forall l t, e_lapd (tsl s l t) = true -> flag s l = true.
Lemma pl_set s l t x : PL s -> (e_lapd x = true -> e_lapd (tsl s l t) = true \/ flag s l = true) -> PL (set_ts s l t x).
Proof.
  intros P X l' t' E. unfold set_ts, IpaccessModel.upd in *. cbn [tsl flag] in *. destruct (Nat.eqb_spec l' l) as [->|]; [|eapply P; eauto].
  destruct (Nat.eqb_spec t' t) as [Q|]; [|eapply P; eauto]. subst t'. destruct (X E) as [Y|Y]; [eapply P; eauto|exact Y].
Qed.
Lemma pl_keep s l t x : PL s -> e_lapd x = e_lapd (tsl s l t) -> PL (set_ts s l t x). Proof. intros P E. apply pl_set; [exact P|]. rewrite E. auto. Qed.
Lemma pl_same s s' : PL s -> tsl s' = tsl s -> flag s' = flag s -> PL s'. Proof. intros P A B l t. rewrite A, B. apply P. Qed.
Lemma pl_emit s e : PL s -> PL (emit s e). Proof. intros P. now apply (pl_same s). Qed.
Lemma pl_next s : PL s -> PL (next s). Proof. intros P. now apply (pl_same s). Qed.
Lemma pl_fsm s a b c : PL s -> PL (set_fsm s a b c). Proof. intros P. now apply (pl_same s). Qed.
Lemma pl_each f ts : (forall s t s', PL s -> f s t = Ok s' -> PL s') -> forall s s', PL s -> each f ts s = Ok s' -> PL s'.
Proof. intros F. induction ts as [|t r IH]; intros s s' P; cbn [each]; [now intros [= <-]|]. destruct (f s t) as [s1|] eqn:E; [|discriminate]. apply IH. eapply F; eauto. Qed.
Lemma pl_lost s s' : PL s -> conn_lost s = Ok s' -> PL s'.
Proof.
  intros P. unfold conn_lost. destruct (fsm s) as [[|]|]; try (now intros [= <-]). set (s0 := if client s then _ else s). assert (P0 : PL s0) by (unfold s0; destruct (client s); [now apply (pl_same s)|exact P]). clearbody s0.
  destruct (each _ all_lines s0) as [s1|] eqn:E; [|discriminate]. intros [= <-]. apply pl_fsm. revert P0 E. apply pl_each. clear. intros s l s' P. destruct (_ && _); [|now intros [= <-]].
  unfold terminate_line. revert P. apply pl_each. clear. intros s t s' P. unfold terminate_ts. destruct (e_fd _); [|now intros [= <-]]. destruct (e_reg _); [|discriminate]. intros [= <-]. do 2 apply pl_emit. now apply pl_keep.
Qed.
Definition FL (F : nat -> Prop) (s : st) : Prop := PL s /\ forall l, F l -> flag s l = true.
Lemma fl_set (F : nat -> Prop) s l t x : F l -> FL F s -> FL F (set_ts s l t x). Proof. intros L [P G]. split; [|exact G]. apply pl_set; auto. Qed.
Lemma lost_flag s s' : conn_lost s = Ok s' -> flag s' = flag s.
Proof.
  assert (E : forall (f : st -> nat -> res st) ts, (forall s t s', f s t = Ok s' -> flag s' = flag s) -> forall s s', each f ts s = Ok s' -> flag s' = flag s).
  { intros f ts F. induction ts as [|t r IH]; intros s0 s1; cbn [each]; [now intros [= <-]|]. destruct (f s0 t) as [s2|] eqn:X; [|discriminate]. intros Y. rewrite (IH _ _ Y). eapply F; eauto. }
  unfold conn_lost. destruct (fsm s) as [[|]|]; try (now intros [= <-]). set (s0 := if client s then _ else s). assert (P0 : flag s0 = flag s) by (unfold s0; now destruct (client s)). clearbody s0.
  destruct (each _ all_lines s0) as [s1|] eqn:X; [|discriminate]. intros [= <-]. cbn [set_fsm flag]. rewrite <- P0. revert X. apply E. clear -E. intros s l s'. destruct (_ && _); [|now intros [= <-]].
  unfold terminate_line. apply E. clear. intros s t s'. unfold terminate_ts. destruct (e_fd _); [|now intros [= <-]]. destruct (e_reg _); [|discriminate]. now intros [= <-].
Qed.
Lemma fl_lost F s s' : FL F s -> conn_lost s = Ok s' -> FL F s'. Proof. intros [P G] E. split; [eapply pl_lost; eauto|]. now rewrite (lost_flag _ _ E). Qed.
Lemma fl_ts (F : nat -> Prop) d info s l t s' o : F l -> FL F s -> update_ts d info s l t = Ok (s', o) -> FL F s'.
Proof.
  intros L.
  assert (CL : forall s, FL F s -> FL F (close_ts s l t)) by (intros s0 P; unfold close_ts; destruct (e_fd _); [now apply (fl_set F s0)|exact P]).
  assert (RG : forall s ty fd, FL F s -> FL F (fst (reg_ts d s l t ty fd))) by (intros s0 ty fd P; unfold reg_ts; destruct (d_reg d _); now apply (fl_set F s0)).
  unfold update_ts. intros P. set (s0 := unreg_ts s l t). assert (P0 : FL F s0) by (unfold s0, unreg_ts; destruct (e_fd _); [destruct (e_reg _); [now apply (fl_set F s)|]|]; exact P). clearbody s0. clear P.
  destruct (_ && _); [now intros [= <- _]|]. destruct (type_eqb _ TS_NONE); [intros [= <- _]; now apply CL, fl_set|].
  set (ty := e_type _). set (s1 := match_ts info s0 l t ty). assert (P1 : FL F s1) by (unfold s1, match_ts; destruct (type_eqb ty TS_SIGN); destruct (mode_eqb _ _); try apply CL; try (apply fl_set; [exact L|]); exact P0). clearbody s1.
  destruct (e_fd (tsl s1 l t)) as [fd|].
  - intros [= E]. pose proof (RG s1 ty fd P1) as X. rewrite E in X. exact X.
  - destruct (d_open d _).
    + intros [= E]. match type of E with reg_ts d ?z l t ty ?f = _ => pose proof (RG z ty f) as X end. rewrite E in X. apply X. now apply (fl_set F (next s1)).
    + destruct (conn_lost (next s1)) as [s2|] eqn:E; [|discriminate]. intros [= <- _]. revert E. now apply fl_lost.
Qed.
Lemma fl_body (F : nat -> Prop) d s l s' rc : F l -> FL F s -> update_body d s l = Ok (s', rc) -> FL F s'.
Proof.
  intros L.
  intros P. unfold update_body. destruct (fsm s) as [[|]|]; try (now intros [= <- _]). destruct (d_query d _) as [info|].
  - assert (P1 : FL F (next s)) by exact P. revert P1. generalize (next s). induction slots as [|t r IH]; intros s1 P1; cbn [update_loop]; [now intros [= <- _]|].
    destruct (update_ts d info s1 l t) as [[s2 o]|] eqn:E; [|discriminate]. apply (fl_ts F _ _ _ _ _ _ _ L P1) in E. cbn [fst snd]. destruct o; [now intros [= <- _]|]. now apply IH.
  - destruct (conn_lost (next s)) as [s2|] eqn:E; [|discriminate]. intros [= <- _]. revert E. now apply fl_lost.
Qed.
Lemma fl_connect F d s s' : FL F s -> connect d s = Ok s' -> FL F s'.
Proof.
  assert (EA : forall (f : st -> nat -> res st) ts, (forall s t s', FL F s -> f s t = Ok s' -> FL F s') -> forall s s', FL F s -> each f ts s = Ok s' -> FL F s').
  { intros f ts X. induction ts as [|t r IH]; intros s0 s1 P; cbn [each]; [now intros [= <-]|]. destruct (f s0 t) as [s2|] eqn:E; [|discriminate]. apply IH. eapply X; eauto. }
  intros P. unfold connect. destruct (fsm s) as [[|]|]; try (now intros [= <-]). set (z := if client s then _ else _). assert (P0 : FL F (snd z)) by (unfold z; now destruct (client s)). destruct z as [ok s0]. cbn [snd] in P0. clear P.
  destruct ok; [|intros [= <-]; exact P0]. set (s1 := set_fsm _ true _ _). assert (P1 : FL F s1) by (unfold s1; destruct (client s0); exact P0). clearbody s1. revert P1. apply EA. clear.
  intros s l s' [P G]. destruct (flag s l) eqn:L; cbn [andb]; [|now intros [= <-]]. destruct (exist s l); [|now intros [= <-]]. destruct (update_body d s l) as [[s1 rc]|] eqn:E; [|discriminate]. intros [= <-].
  destruct (fl_body (fun x => F x \/ x = l) d s l s1 rc) as [P1 G1]; [now right|split; [exact P|intros x [X| ->]; auto]|exact E|]. split; auto.
Qed.
Lemma pl_line d s l s' rc : PL s -> line_update d s l = Ok (s', rc) -> PL s'.
Proof.
  intros P. unfold line_update. set (s0 := emit (set_flag s l) _). assert (P0 : FL (fun x => x = l) s0).
  { split; [|intros x ->; unfold s0, set_flag, IpaccessModel.upd; cbn; now rewrite Nat.eqb_refl]. intros x t E. cbn in *. unfold IpaccessModel.upd. destruct (Nat.eqb x l); [reflexivity|]. eapply P; eauto. }
  clearbody s0. destruct (match fsm s0 with Some _ => _ | None => _ end) as [s1|] eqn:E; [|discriminate]. intros U.
  assert (P1 : FL (fun x => x = l) s1) by (destruct (fsm s0); [injection E as <-; exact P0|]; revert E; apply fl_connect; exact P0).
  now destruct (fl_body (fun x => x = l) d s1 l s' rc eq_refl P1 U).
Qed.
Lemma pl_send s l t m : PL s -> PL (send s l t m).
Proof.
  intros P. assert (W : forall s, PL s -> PL (want_write s l t)) by (intros s0 P0; unfold want_write; destruct (fsm s0) as [[|]|]; try exact P0; destruct (e_type _); try exact P0; now apply pl_keep).
  unfold send. destruct (e_type _); try exact P; [destruct (e_tmr _)| |]; try apply W; try apply pl_emit; apply pl_keep; auto.
Qed.
Lemma pl_exec d s c s' : PL s -> exec d s c = Ok s' -> PL s'.
Proof.
  intros P. destruct c as [l t ty|l|l t m]; cbn [exec].
  - intros [= <-]. destruct (_ && _); [|exact P]. unfold config. destruct (type_eqb _ _); [exact P|]. apply pl_emit. now apply pl_keep.
  - destruct (exist s l); [|now intros [= <-]]. destruct (line_update d s l) as [[s1 rc]|] eqn:E; [|discriminate]. intros [= <-]. apply pl_emit. cbn. eapply pl_line; eauto.
  - intros [= <-]. destruct (_ && _); [|exact P]. now apply pl_send.
Qed.
Lemma pl_execs d cs : forall s s', PL s -> execs d cs s = Ok s' -> PL s'.
Proof. induction cs as [|c r IH]; intros s s' P; cbn [execs]; [now intros [= <-]|]. destruct (exec d s c) as [s1|] eqn:E; [|discriminate]. apply IH. eapply pl_exec; eauto. Qed.
Lemma pl_qw d s l t h s' : PL s -> queue_write d s l t h = Ok s' -> PL s'.
Proof.
  intros P. unfold queue_write. destruct (e_q _) as [|m q]; [intros [= <-]; now apply pl_keep|]. set (s0 := set_ts s l t _). assert (P0 : PL s0) by now apply pl_keep. clearbody s0.
  assert (P1 : PL (fst (do_write d s0 l t m))) by (unfold do_write; destruct (e_fd _); exact P0). destruct (do_write d s0 l t m) as [s1 r]. cbn [fst] in P1. destruct (if h then _ else _); [now apply pl_lost|now intros [= <-]].
Qed.
Lemma pl_tw d s l t s' : PL s -> trau_write d s l t = Ok s' -> PL s'.
Proof. intros P. unfold trau_write. destruct (e_fd _); [|now apply pl_lost]. cbv zeta. destruct (_ <=? 0); [apply pl_lost; exact P|now intros [= <-]]. Qed.
Lemma pl_sw s l t s' : PL s -> sign_write s l t = Ok s' -> PL s'.
Proof.
  intros P. unfold sign_write. set (s0 := set_ts s l t _). assert (P0 : PL s0) by now apply pl_keep. clearbody s0. destruct (e_q _); [now intros [= <-]|]. destruct (e_lapd _) eqn:E; [|discriminate]. intros [= <-]. apply pl_emit. now apply pl_keep.
Qed.
Lemma pl_step d s v s' : PL s -> step d s v = Ok s' -> PL s'.
Proof.
  intros P. destruct v as [l|cs| |l t r w act|l t|l t m|l]; cbn [step].
  - intros [= <-]. destruct (_ && _); exact P.
  - now apply pl_execs.
  - destruct (fsm_tmr s); [|now intros [= <-]]. intros E. destruct (fl_connect (fun _ => False) d _ s' (conj (pl_fsm _ _ _ _ P) (fun x f => False_ind _ f)) E) as [X _]. exact X.
  - destruct (e_reg _); [|now intros [= <-]]. unfold fd_cb. destruct (fsm s) as [[|]|]; try (now intros [= <-]). set (w0 := w && _). clearbody w0.
    assert (RS : forall r s1, sign_read d s l t r act = Ok s1 -> PL s1) by (intros [|[|o q]] s1; cbn [sign_read]; try (now apply pl_lost); destruct (e_lapd _); [|discriminate]; apply pl_execs; exact P).
    assert (RT : forall r s1, trau_read d s l t r act = Ok s1 -> PL s1).
    { intros [|[|o q]] s1; cbn [trau_read]; try (now apply pl_lost). destruct (negb _); [now intros [= <-]|]. destruct (execs d act _) as [s2|] eqn:E; [|discriminate]. apply pl_tw. revert E. apply pl_execs. exact P. }
    assert (RR : forall r s1, raw_read d s l t r act = Ok s1 -> PL s1) by (intros [|[|o q]] s1; cbn [raw_read]; try (now apply pl_lost); destruct (negb _); [now intros [= <-]|]; apply pl_execs; exact P).
    assert (RH : forall r s1, hdlc_read d s l t r act = Ok s1 -> PL s1) by (intros [|[|o q]] s1; cbn [hdlc_read]; try (now apply pl_lost); apply pl_execs; exact P).
    destruct (e_type _); try (now intros [= <-]).
    + destruct r as [r|]; [destruct (sign_read d s l t r act) as [s1|] eqn:E; [|discriminate]; apply RS in E|rename P into E]; (destruct w0; [now apply pl_sw|now intros [= <-]]).
    + destruct r as [r|]; [apply RT|now intros [= <-]].
    + destruct r as [r|]; [destruct (raw_read d s l t r act) as [s1|] eqn:E; [|discriminate]; apply RR in E|rename P into E]; (destruct w0; [now apply pl_qw|now intros [= <-]]).
    + destruct r as [r|]; [destruct (hdlc_read d s l t r act) as [s1|] eqn:E; [|discriminate]; apply RH in E|rename P into E]; (destruct w0; [now apply pl_qw|now intros [= <-]]).
  - destruct (e_tmr _); intros [= <-]; [|exact P]. set (s0 := set_ts s l t _). assert (P0 : PL s0) by now apply pl_keep. clearbody s0. unfold want_write. destruct (fsm s0) as [[|]|]; try exact P0; destruct (e_type _); try exact P0; now apply pl_keep.
  - destruct (e_lapd _); [|now intros [= <-]]. unfold write_msg. destruct (fsm s) as [[|]|]; try (now intros [= <-]). destruct (e_fd _); [|now apply pl_lost]. cbv zeta. destruct (_ <? 0); [apply pl_lost; exact P|now intros [= <-]].
  - destruct (exist s l); [|now intros [= <-]]. destruct (client s); [now intros [= <-]|discriminate].
Qed.
Lemma pl_run d vs : forall s s', PL s -> run d s vs = Ok s' -> PL s'.
Proof. induction vs as [|v r IH]; intros s s' P; cbn [run]; [now intros [= <-]|]. destruct (step d s v) as [s1|] eqn:E; [|discriminate]. apply IH. eapply pl_step; eauto. Qed.
(** before the first update of a line nothing of it happens by itself, whatever was configured and
    whatever other lines do *)
Theorem C57_before_update d vs s l t m r w act : run d st_init vs = Ok s -> ~ In (DUpdate l) (out s) -> step d s (LapdOut l t m) = Ok s /\ step d s (Ready l t r w act) = Ok s.
Proof.
  intros R N. apply reach_inv in R as I. pose proof (i_w s I) as W. pose proof (pl_run d vs st_init s) as P. specialize (P ltac:(intros x y E; discriminate E) R).
  assert (F : flag s l = false) by (destruct (flag s l) eqn:F; [elim N; now apply (w_upd s W)|reflexivity]).
  cbn [step]. split.
  - destruct (e_lapd (tsl s l t)) eqn:E; [|reflexivity]. rewrite (P l t E) in F. discriminate F.
  - destruct (e_reg (tsl s l t)) eqn:E; [|reflexivity]. destruct (e_fd (tsl s l t)) as [f|] eqn:D; [|rewrite (w_none s W _ _ D) in E; discriminate E]. destruct (w_in s W _ _ _ D) as (_ & _ & PL0). unfold place in PL0. exfalso. destruct PL0 as (X & _). congruence.
Qed.
(** before anything was configured nothing happens by itself *)
Theorem C57_start d v : (forall l, v <> Create l) -> (forall cs, v <> App cs) -> step d st_init v = Ok st_init.
Proof. intros A B. destruct v; try reflexivity; [now elim (A l)|now elim (B cs)]. Qed.
