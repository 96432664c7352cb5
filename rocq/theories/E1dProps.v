(** C57, C58: the osmo-e1d driver. *)
From Coq Require Import List Arith Lia Bool ZArith.
From Verif Require Import Base LapdProofs E1Model IpaccessModel E1dModel E1dSpec E1dProofs E1dRunProofs.
Import ListNotations.
Open Scope Z_scope.

(** * C57: connection and descriptors *)

(** descriptors are opened, registered, used, unregistered and closed in order: nothing is
    done with one that is closed, no close or registration is done twice *)
Theorem C57_life d vs s : run d st_init vs = Ok s -> forall f, exists p, phase f 0 (out s) = Some p.
Proof.
  intros H f. apply reach_inv in H as [w _]. destruct (phase f 0 (out s)) as [p|] eqn:E; [eauto|]. exfalso.
  assert (N : forall l t, e_fd (tsl s l t) <> Some f). { intros l t X. apply (w_in s w) in X as (X & _). unfold ph in X. congruence. }
  destruct (w_out s w f N) as [X|[X _]]; unfold ph in X; congruence.
Qed.
Lemma phase_three f es : forall p, phase f 3 es = Some p -> p = 3%nat.
Proof. induction es as [|e r IH]; intros p; cbn [phase]; [congruence|]. destruct (advance f 3 e) as [q|] eqn:A; [|easy]. assert (q = 3%nat) as -> by (destruct e; cbn [advance] in A; try destruct (Nat.eqb _ f); cbn in A; congruence). apply IH. Qed.
Lemma opened_once f es : forall p q, phase f p es = Some q -> p <> 0%nat -> forall l t m, ~ In (DOpen l t m f) es.
Proof.
  induction es as [|e r IH]; intros p q H N l t m; cbn [phase] in H; [easy|]. destruct (advance f p e) as [p'|] eqn:A; [|easy]. intros [->|I].
  - cbn [advance] in A. rewrite Nat.eqb_refl in A. apply Nat.eqb_neq in N. rewrite N in A. discriminate.
  - eapply (IH p' q H); [|exact I]. destruct e; cbn [advance] in A; try (congruence); destruct (Nat.eqb _ f); try congruence; repeat match goal with H : context [if ?b then _ else _] |- _ => destruct b end; congruence.
Qed.
Lemma opened_for f es : forall p q, phase f p es = Some q -> forall l t m l' t' m', In (DOpen l t m f) es -> In (DOpen l' t' m' f) es -> l' = l /\ t' = t.
Proof.
  induction es as [|e r IH]; intros p q H l t m l' t' m' A B; [easy|]. cbn [phase] in H. destruct (advance f p e) as [p'|] eqn:AD; [|easy].
  assert (O : forall a b c, e = DOpen a b c f -> p' <> 0%nat).
  { intros a b c ->. cbn [advance] in AD. rewrite Nat.eqb_refl in AD. destruct (Nat.eqb p 0); congruence. }
  destruct A as [A|A]; destruct B as [B|B].
  - split; congruence.
  - exfalso. eapply opened_once; [exact H|eapply O; exact A|exact B].
  - exfalso. eapply opened_once; [exact H|eapply O; exact B|exact A].
  - eapply IH; eauto.
Qed.
Definition is_open (f : nat) (es : list deff) : Prop := phase f 0 es = Some 1%nat \/ phase f 0 es = Some 2%nat.
(** no descriptor is lost: one that is open was opened for a timeslot of an existing, updated
    line while the driver is connected, and that timeslot has it *)
Theorem C57_no_leak d vs s f : run d st_init vs = Ok s -> is_open f (out s) ->
  fsm s = Some true /\ exists l t m, In (DOpen l t m f) (out s) /\ In (DUpdate l) (out s) /\ exist s l = true /\ (1 <= t < 32)%nat /\ e_fd (tsl s l t) = Some f.
Proof.
  intros H O. apply reach_inv in H as I. pose proof (i_w s I) as w.
  assert (N : ~ forall l t, e_fd (tsl s l t) <> Some f). { intros N. destruct (w_out s w f N) as [X|[X _]]; unfold ph in X; destruct O; congruence. }
  assert (X : exists l t, e_fd (tsl s l t) = Some f).
  { destruct (existsb (fun l => existsb (fun t => match e_fd (tsl s l t) with Some g => Nat.eqb g f | None => false end) (seq 0 32)) (seq 0 256)) eqn:E.
    - apply existsb_exists in E as (l & _ & E). apply existsb_exists in E as (t & _ & E). exists l, t. destruct (e_fd (tsl s l t)); [|easy]. apply Nat.eqb_eq in E. congruence.
    - exfalso. apply N. intros l t E2. destruct (w_in s w _ _ _ E2) as (_ & _ & _ & _ & P3 & P4). assert (existsb (fun l => existsb (fun t => match e_fd (tsl s l t) with Some g => Nat.eqb g f | None => false end) (seq 0 32)) (seq 0 256) = true); [|congruence].
      apply existsb_exists. exists l. split; [apply in_seq; lia|]. apply existsb_exists. exists t. split; [apply in_seq; lia|]. rewrite E2. apply Nat.eqb_refl. }
  destruct X as (l & t & X). destruct (w_in s w _ _ _ X) as (_ & _ & P1 & P2 & P3 & P4). destruct (w_own s w _ _ _ X) as (m & M). split.
  - destruct (i_fsm s I) as [(C & _)|C]; [easy|]. exfalso. destruct (all_none s I) as (NN & _); [intros (C' & _); destruct C as [(C & _)|(C & _)]; congruence|]. specialize (NN l t). unfold none in NN. congruence.
  - exists l, t, m. split; [easy|]. split; [now apply (w_upd s w)|]. auto.
Qed.
(** ... and a timeslot never has two *)
Theorem C57_one_each d vs s l t m m' f f' : run d st_init vs = Ok s -> In (DOpen l t m f) (out s) -> In (DOpen l t m' f') (out s) -> is_open f (out s) -> is_open f' (out s) -> f' = f.
Proof.
  intros H A B O O'. destruct (C57_no_leak _ _ _ _ H O) as (_ & l1 & t1 & m1 & A1 & _ & _ & _ & E1). destruct (C57_no_leak _ _ _ _ H O') as (_ & l2 & t2 & m2 & A2 & _ & _ & _ & E2).
  destruct (C57_life _ _ _ H f) as (p & P). destruct (C57_life _ _ _ H f') as (p' & P').
  destruct (opened_for _ _ _ _ P _ _ _ _ _ _ A A1) as [-> ->]. destruct (opened_for _ _ _ _ P' _ _ _ _ _ _ B A2) as [-> ->]. congruence.
Qed.
(** without a connection nothing is open and the client is gone *)
Theorem C57_disconnected d vs s : run d st_init vs = Ok s -> fsm s <> Some true -> client s = false /\ forall f, ~ is_open f (out s).
Proof.
  intros H N. split; [|intros f O; now destruct (C57_no_leak _ _ _ _ H O)]. apply reach_inv in H as I. destruct (all_none s I) as (_ & C & _); [intros (C & _); congruence|easy].
Qed.
(** once a line was updated the driver is connected or will try again *)
Theorem C57_retry d vs s l : run d st_init vs = Ok s -> In (DUpdate l) (out s) -> fsm s = Some true /\ client s = true \/ fsm s = Some false /\ fsm_tmr s = true.
Proof.
  intros H U. apply reach_inv in H as I. apply (w_upd s (i_w s I)) in U. destruct (i_fsm s I) as [(A & B & _)|[(A & B & _)|(_ & _ & _ & A)]]; [now left|now right|]. rewrite A in U. discriminate.
Qed.
(** [held f l t s]: descriptor [f] is open, in the select loop, and was opened for this timeslot *)
Definition serves (s : st) (f l t : nat) : Prop := phase f 0 (out s) = Some 2%nat /\ exists m, In (DOpen l t m f) (out s).
(** a daemon that grants everything: the next attempt brings all updated lines back *)
Theorem C57_recover d vs s : run d st_init vs = Ok s -> fsm_tmr s = true -> healthy d (tick s) ->
  exists s', step d s Retry = Ok s' /\ fsm s' = Some true /\
    forall l t, In (DUpdate l) (out s) -> (1 <= t < 32)%nat -> e_type (tsl s l t) <> TS_NONE ->
      (exists f m, In (DOpen l t m f) (out s') /\ needs (e_type (tsl s l t)) m /\ phase f 0 (out s') = Some 2%nat) /\ (e_lapd (tsl s' l t) = true <-> e_type (tsl s l t) = TS_SIGN).
Proof.
  intros H T HE. apply reach_inv in H as I. destruct (recover d s I T HE) as (s' & E & I' & (F & _) & S & U). exists s'. split; [easy|]. split; [easy|]. intros l t UP TT TY.
  apply (w_upd s (i_w s I)) in UP. destruct (U l t UP TT TY) as (f & m & U1 & U2 & U3 & U4 & U5). destruct S as (_ & _ & _ & _ & S). destruct (S l t) as (S1 & _). rewrite S1 in *. split.
  - exists f, m. split; [easy|]. split; [easy|]. destruct (w_in s' (i_w s' I') _ _ _ U1) as (P & _). rewrite U2 in P. exact P.
  - rewrite U5. destruct (type_eqb_spec (e_type (tsl s l t)) TS_SIGN); split; congruence.
Qed.
(** a line update: types and queues stay; if it reports success and the connection is there,
    every timeslot the daemon has is served in the mode its type needs (opened now, or the
    daemon reports that mode), with a LAPD instance exactly for signalling *)
Theorem C57_update d vs s l s' rc : run d st_init vs = Ok s -> exist s l = true -> line_update d s l = Ok (s', rc) ->
  (forall l' t, e_type (tsl s' l' t) = e_type (tsl s l' t) /\ e_q (tsl s' l' t) = e_q (tsl s l' t)) /\
  (fsm s' = Some true -> rc = 0 -> exists k info, d_query d k = Some info /\ forall t, (1 <= t < 32)%nat ->
     (e_type (tsl s l t) = TS_NONE -> forall f m, In (DOpen l t m f) (out s') -> ~ is_open f (out s')) /\
     (e_type (tsl s l t) <> TS_NONE -> (t < length info)%nat ->
        (exists f, serves s' f l t /\ ((exists m, In (DOpen l t m f) (out s') /\ needs (e_type (tsl s l t)) m) \/ (exists m, nth_error info t = Some m /\ needs (e_type (tsl s l t)) m))) /\
        (e_lapd (tsl s' l t) = true <-> e_type (tsl s l t) = TS_SIGN))) /\
  (rc <> 0 -> rc = -1 /\ (exists k, d_reg d k = false) \/ rc = -5 /\ (exists k, d_open d k = false) /\ fsm s' = Some false).
Proof.
  intros H EX E. apply reach_inv in H as I. pose proof (line_update_ok d s l I EX) as L. rewrite E in L. destruct L as (I' & A & FL & _ & _ & C).
  assert (KT : forall l' t, e_type (tsl s' l' t) = e_type (tsl s l' t) /\ e_q (tsl s' l' t) = e_q (tsl s l' t)) by (destruct A as (_ & _ & _ & _ & A); intros l' t; destruct (A l' t) as (? & ? & _); auto).
  split; [exact KT|]. pose proof (i_w s' I') as w'.
  assert (OW : forall f t m, In (DOpen l t m f) (out s') -> is_open f (out s') -> e_fd (tsl s' l t) = Some f).
  { intros f t m A1 O. assert (X : exists l1 t1, e_fd (tsl s' l1 t1) = Some f).
    { destruct (existsb (fun l => existsb (fun t => match e_fd (tsl s' l t) with Some g => Nat.eqb g f | None => false end) (seq 0 32)) (seq 0 256)) eqn:EE.
      - apply existsb_exists in EE as (l1 & _ & EE). apply existsb_exists in EE as (t1 & _ & EE). exists l1, t1. destruct (e_fd (tsl s' l1 t1)); [|easy]. apply Nat.eqb_eq in EE. congruence.
      - exfalso. destruct (w_out s' w' f) as [X|[X _]]; [|unfold ph in X; destruct O; congruence..]. intros l1 t1 E2. destruct (w_in s' w' _ _ _ E2) as (_ & _ & _ & _ & P3 & P4).
        assert (existsb (fun l => existsb (fun t => match e_fd (tsl s' l t) with Some g => Nat.eqb g f | None => false end) (seq 0 32)) (seq 0 256) = true); [|congruence].
        apply existsb_exists. exists l1. split; [apply in_seq; lia|]. apply existsb_exists. exists t1. split; [apply in_seq; lia|]. rewrite E2. apply Nat.eqb_refl. }
    destruct X as (l1 & t1 & X). destruct (w_own s' w' _ _ _ X) as (m1 & M1). assert (P : exists p, phase f 0 (out s') = Some p) by (destruct O; eauto). destruct P as (p & P).
    destruct (opened_for _ _ _ _ P _ _ _ _ _ _ A1 M1) as [-> ->]. exact X. }
  destruct C as [(s1 & C1 & A1 & (w2 & S2 & _ & U) & _)|(-> & L)].
  - split.
    + intros F ->. destruct U as [(_ & _ & [(_ & info & Q & U)|(X & _)])|(X & _)]; [|discriminate|destruct X; congruence]. exists (tick s1), info. split; [easy|]. intros t T. specialize (U t T).
      assert (TY : e_type (tsl s1 l t) = e_type (tsl s l t)) by (destruct A1 as (_ & _ & _ & _ & A1); apply (A1 l t)). unfold set_up in U. cbv zeta in U. rewrite TY in U. split.
      * intros TN f m D O. rewrite TN in U. destruct U as (U & _). rewrite (OW f t m D O) in U. discriminate.
      * intros TN LI. apply Nat.leb_gt in LI. rewrite LI in U.
        assert (X : e_reg (tsl s' l t) = true /\ e_wr (tsl s' l t) = false /\ e_lapd (tsl s' l t) = type_eqb (e_type (tsl s l t)) TS_SIGN /\ exists f, e_fd (tsl s' l t) = Some f /\ ((exists m, In (DOpen l t m f) (out s') /\ needs (e_type (tsl s l t)) m) \/ e_fd (tsl s1 l t) = Some f /\ exists m, nth_error info t = Some m /\ needs (e_type (tsl s l t)) m)) by (destruct (e_type (tsl s l t)); congruence || exact U).
        destruct X as (X1 & _ & X3 & f & X4 & X5). split.
        -- exists f. split; [|tauto]. destruct (w_in s' w' _ _ _ X4) as (P & _). rewrite X1 in P. split; [exact P|]. apply (w_own s' w' _ _ _ X4).
        -- rewrite X3. destruct (type_eqb_spec (e_type (tsl s l t)) TS_SIGN); split; congruence.
    + intros N. destruct U as [(_ & _ & [(X & _)|(-> & k & _ & K)])|(L & [(-> & k & _ & K)|(X & _)])]; try congruence; [left|right]; eauto. split; [easy|]. split; [eauto|]. apply L.
  - split; [intros F; destruct L; congruence|]. easy.
Qed.
(** what cannot happen: a daemon that reports all timeslots is enough for no descriptor to be
    unregistered that is not registered ... *)
Theorem C57_unregister d vs : wide d -> run d st_init vs <> Bad NotRegistered.
Proof.
  intros WD H. pose proof (run_ok d vs st_init init_inv) as X. rewrite H in X. destruct X as (va & v & vb & s1 & _ & _ & (_ & RR & _) & F).
  destruct F as [(_ & F)|[(F & _)|(F & _)]]; try discriminate. apply F. split; [|easy]. apply RR; [|easy]. intros l t X. cbn in X. congruence.
Qed.
(** ... an application that updates a line after configuring it, and leaves the timeslot alone
    whose data it is being given, is enough for LAPD to be there when it is used ... *)
Theorem C57_lapd d vs : registers d -> forallb polite vs = true -> run d st_init vs <> Bad NullLapd.
Proof.
  intros RG PO H. pose proof (run_ok d vs st_init init_inv) as X. rewrite H in X. destruct X as (va & v & vb & s1 & -> & _ & (_ & _ & LL) & F). rewrite forallb_app in PO. apply andb_prop in PO as [P1 P2]. cbn [forallb] in P2. apply andb_prop in P2 as [P2 _].
  destruct F as [(F & _)|[(_ & F)|(F & _)]]; try discriminate. apply F. split; [easy|]. split; [easy|]. apply LL; auto. intros l t _ X. discriminate.
Qed.
(** ... and the client is missing only when Sa bits are set without a connection *)
Theorem C57_client d vs : run d st_init vs = Bad NullClient -> exists va l vb s, vs = va ++ SaBits l :: vb /\ run d st_init va = Ok s /\ fsm s <> Some true.
Proof.
  intros H. pose proof (run_ok d vs st_init init_inv) as X. rewrite H in X. destruct X as (va & v & vb & s1 & -> & RA & _ & F).
  destruct F as [(F & _)|[(F & _)|(_ & F & l & ->)]]; try discriminate. exists va, l, vb, s1. split; [easy|]. split; [easy|]. intros E. apply F. apply reach_inv in RA as I. destruct (i_fsm s1 I) as [C|[(C & _)|(C & _)]]; [easy|congruence..].
Qed.
Theorem C57_sa_bits d vs s l : run d st_init vs = Ok s -> exist s l = true -> (step d s (SaBits l) = Bad NullClient <-> fsm s <> Some true).
Proof.
  intros H EX. apply reach_inv in H as I. cbn [step]. rewrite EX. destruct (i_fsm s I) as [(A & B & _)|[(A & _ & B & _)|(A & _ & B & _)]]; rewrite A, B; split; congruence.
Qed.
(** an error or the end of file on a timeslot drops the connection *)
Theorem C57_loss d vs s l t r w act s' : run d st_init vs = Ok s -> e_reg (tsl s l t) = true -> e_type (tsl s l t) <> TS_NONE -> e_type (tsl s l t) <> TS_I460 -> (r = RdErr \/ r = RdData []) ->
  step d s (Ready l t (Some r) w act) = Ok s' -> fsm s' = Some false /\ fsm_tmr s' = true /\ forall f, ~ is_open f (out s').
Proof.
  intros H G N1 N2 RR E. apply reach_inv in H as I.
  assert (CN : Conn s). { destruct (i_fsm s I) as [C|C]; [easy|]. exfalso. destruct (all_none s I) as (NN & _); [intros (C' & _); destruct C as [(C & _)|(C & _)]; congruence|]. rewrite (w_none s (i_w s I) l t (NN l t)) in G. discriminate. }
  assert (L : forall s1, conn_lost s = Ok s1 -> Inv s1 /\ Lost s1).
  { intros s1 E1. pose proof (lost_conn s (i_w s I) CN) as X. rewrite E1 in X. destruct X as (w1 & _ & L1 & _). split; [split; [easy|now right; left]|easy]. }
  assert (FIN : forall s1, Inv s1 -> Lost s1 -> fsm s1 = Some false /\ fsm_tmr s1 = true /\ forall f, ~ is_open f (out s1)).
  { intros s1 I1 (A & B & _ & D). split; [easy|]. split; [easy|]. intros f O. destruct (w_out s1 (i_w s1 I1) f) as [X|[X _]]; [intros l' t' X; specialize (D l' t'); unfold none in D; congruence|unfold ph in X; destruct O; congruence..]. }
  cbn [step] in E. rewrite G in E. unfold fd_cb in E. destruct CN as (F & CN'). rewrite F in E.
  assert (SR : forall s1 s2, Inv s1 -> Lost s1 -> sign_write s1 l t = Ok s2 -> Inv s2 /\ Lost s2).
  { intros s1 s2 I1 L1 X. pose proof (sign_write_pres d s1 l t I1) as P. rewrite X in P. destruct P as (I2 & _). split; [easy|]. destruct (i_fsm s2 I2) as [(C & _)|[C|(C & _)]]; [exfalso|easy|exfalso];
    (unfold sign_write in X; cbv zeta in X; destruct L1 as (L1 & _); destruct (e_q _); [injection X as <-|destruct (e_lapd _); [injection X as <-|discriminate]]; es; congruence). }
  assert (QR : forall h s1 s2, Inv s1 -> Lost s1 -> queue_write d s1 l t h = Ok s2 -> Inv s2 /\ Lost s2).
  { intros h s1 s2 I1 L1 X. pose proof (queue_write_pres d s1 l t h I1) as P. rewrite X in P. destruct P as (I2 & _). split; [easy|].
    assert (FS : fsm s2 = Some false).
    { destruct L1 as (L1 & _). unfold queue_write in X. destruct (e_q (tsl s1 l t)) as [|m q]; [injection X as <-; now es|]. unfold do_write in X. destruct (e_fd _); (destruct (if h then _ else _); [unfold conn_lost in X; es; rewrite L1 in X|]; injection X as <-; now es). }
    destruct (i_fsm s2 I2) as [(C & _)|[C|(C & _)]]; congruence || easy. }
  destruct (conn_lost s) as [s1|q] eqn:LS.
  - destruct (L s1 eq_refl) as (I1 & L1). destruct (e_type (tsl s l t)) eqn:TY; try congruence.
    + replace (sign_read d s l t r act) with (Ok s1) in E by (destruct RR as [-> | ->]; cbn [sign_read]; now rewrite LS). destruct (w && e_wr (tsl s l t)); [destruct (SR s1 s' I1 L1 E) as (I2 & L2)|injection E as <-]; apply FIN; auto.
    + replace (trau_read d s l t r act) with (Ok s1) in E by (destruct RR as [-> | ->]; cbn [trau_read]; now rewrite LS). injection E as <-. apply FIN; auto.
    + replace (raw_read d s l t r act) with (Ok s1) in E by (destruct RR as [-> | ->]; cbn [raw_read]; now rewrite LS). destruct (w && e_wr (tsl s l t)); [destruct (QR false s1 s' I1 L1 E) as (I2 & L2)|injection E as <-]; apply FIN; auto.
    + replace (hdlc_read d s l t r act) with (Ok s1) in E by (destruct RR as [-> | ->]; cbn [hdlc_read]; now rewrite LS). destruct (w && e_wr (tsl s l t)); [destruct (QR true s1 s' I1 L1 E) as (I2 & L2)|injection E as <-]; apply FIN; auto.
  - exfalso. destruct (e_type (tsl s l t)) eqn:TY; try congruence.
    + replace (sign_read d s l t r act) with (@Bad st q) in E by (destruct RR as [-> | ->]; cbn [sign_read]; now rewrite LS). discriminate.
    + replace (trau_read d s l t r act) with (@Bad st q) in E by (destruct RR as [-> | ->]; cbn [trau_read]; now rewrite LS). discriminate.
    + replace (raw_read d s l t r act) with (@Bad st q) in E by (destruct RR as [-> | ->]; cbn [raw_read]; now rewrite LS). discriminate.
    + replace (hdlc_read d s l t r act) with (@Bad st q) in E by (destruct RR as [-> | ->]; cbn [hdlc_read]; now rewrite LS). discriminate.
Qed.

(** * C58: data *)

(** messages are handed over in the order the application gave them, each at most once, and
    those not handed over (nor thrown away when the timeslot's type changed) are still queued *)
Theorem C58_fifo d vs s l t : run d st_init vs = Ok s -> waiting l t [] (out s) = Some (e_q (tsl s l t)).
Proof. intros H. apply reach_inv in H as [w _]. apply (w_wait s w). Qed.
(** what is written for a timeslot is written to a descriptor opened for that timeslot *)
Theorem C58_own d vs s e l t f : run d st_init vs = Ok s -> In e (out s) -> sender e = Some (l, t, f) -> exists m, In (DOpen l t m f) (out s).
Proof. intros H I S. apply reach_inv in H as [w _]. exact (w_send s w e l t f I S). Qed.

Lemma rev8_ok b : 0 <= b < 256 -> reversed b (rev8 b).
Proof.
  intros B.
  assert (K : (let r := rev8 b in (0 <=? r) && (r <? 256) && forallb (fun i => Bool.eqb (Z.testbit r i) (Z.testbit b (7 - i))) [0;1;2;3;4;5;6;7]) = true).
  { exact (Zall 256 (fun b => let r := rev8 b in (0 <=? r) && (r <? 256) && forallb (fun i => Bool.eqb (Z.testbit r i) (Z.testbit b (7 - i))) [0;1;2;3;4;5;6;7]) eq_refl b B). }
  cbv zeta in K. apply andb_prop in K as [K1 K2]. apply andb_prop in K1 as [K0 K1]. split; [lia|]. intros i Hi. rewrite forallb_forall in K2. apply eqb_prop, K2. assert (i = 0 \/ i = 1 \/ i = 2 \/ i = 3 \/ i = 4 \/ i = 5 \/ i = 6 \/ i = 7) as E by lia. cbn [In]. intuition.
Qed.
Lemma conn_of_reg s l t : E1dRunProofs.Inv s -> e_reg (tsl s l t) = true -> Conn s.
Proof.
  intros I G. destruct (i_fsm s I) as [C|C]; [easy|]. exfalso. destruct (all_none s I) as (NN & _); [intros (C' & _); destruct C as [(C & _)|(C & _)]; congruence|]. rewrite (w_none s (i_w s I) l t (NN l t)) in G. discriminate.
Qed.
(** what is read is given to the layers above once, unchanged (bit order reversed for TRAU
    timeslots), but for short reads of TRAU and RAW timeslots, which are lost *)
Theorem C58_rx d vs s l t o w act s' : run d st_init vs = Ok s -> e_reg (tsl s l t) = true -> o <> [] -> (length o <= buffer (e_type (tsl s l t)))%nat -> Forall (fun b => 0 <= b < 256) o ->
  step d s (Ready l t (Some (RdData o)) w act) = Ok s' ->
  exists got rest, out s' = out s ++ got ++ rest /\ delivered (e_type (tsl s l t)) l t o got /\ Forall (fun e => reception e = false) rest.
Proof.
  intros H G NE LE OC E. apply reach_inv in H as I. destruct (conn_of_reg s l t I G) as (F & _). cbn [step] in E. rewrite G in E. unfold fd_cb in E. rewrite F in E.
  assert (M : forall got s1 s2, out s1 = out s ++ got -> Mute s1 s2 -> exists rest, out s2 = out s ++ got ++ rest /\ Forall (fun e => reception e = false) rest).
  { intros got s1 s2 O (es & O2 & Q). exists es. rewrite O2, O, app_assoc. auto. }
  assert (NL : forall got s1 s2, out s1 = out s ++ got -> Mute s1 s2 -> delivered (e_type (tsl s l t)) l t o got -> exists got rest, out s2 = out s ++ got ++ rest /\ delivered (e_type (tsl s l t)) l t o got /\ Forall (fun e => reception e = false) rest).
  { intros got s1 s2 O Q D. destruct (M got s1 s2 O Q) as (rest & A & B). eauto. }
  assert (FI : forall n, (length o <= n)%nat -> firstn n o = o) by (intros; now apply firstn_all2).
  destruct o as [|o1 os] eqn:EO; [congruence|]. rewrite <- EO in *. destruct (e_type (tsl s l t)) eqn:TY; cbn [buffer] in LE.
  - injection E as <-. exists [], []. split; [now rewrite !app_nil_r|]. easy.
  - unfold sign_read in E. rewrite EO in E. rewrite <- EO in E. rewrite (FI 284%nat LE) in E. destruct (e_lapd (tsl s l t)); [|discriminate].
    set (s0 := emit s (DLapdRx l t o)) in *. pose proof (execs_mute d act s0) as X. unfold muted in X. destruct (execs d act s0) as [s1|]; [|discriminate].
    apply (NL [DLapdRx l t o] s0); [reflexivity| |reflexivity].
    destruct (w && e_wr (tsl s l t)); [|injection E as <-; exact X]. pose proof (sign_write_mute s1 l t) as Y. rewrite E in Y. eapply mute_trans; eauto.
  - unfold trau_read in E. rewrite EO in E. rewrite <- EO in E. unfold GRAN in E. cbv zeta in E. rewrite (FI 160%nat LE) in E. destruct (Nat.eqb_spec (length o) 160) as [L|L]; cbn [negb] in E.
    + set (s0 := emit s (DRx l t (map rev8 o))) in *. pose proof (execs_mute d act s0) as X. unfold muted in X. destruct (execs d act s0) as [s1|]; [|discriminate].
      pose proof (trau_write_mute d s1 l t) as Y. rewrite E in Y. apply (NL [DRx l t (map rev8 o)] s0); [reflexivity|eapply mute_trans; eauto|]. split; [|easy]. intros _. exists (map rev8 o). split; [|easy].
      clear - OC. induction OC; cbn [map]; constructor; [now apply rev8_ok|easy].
    + injection E as <-. exists [], []. split; [now rewrite !app_nil_r|]. easy.
  - unfold raw_read in E. rewrite EO in E. rewrite <- EO in E. unfold GRAN in E. cbv zeta in E. rewrite (FI 160%nat LE) in E. destruct (Nat.eqb_spec (length o) 160) as [L|L]; cbn [negb] in E.
    + set (s0 := emit s (DRx l t o)) in *. pose proof (execs_mute d act s0) as X. unfold muted in X. destruct (execs d act s0) as [s1|]; [|discriminate].
      apply (NL [DRx l t o] s0); [reflexivity| |easy]. destruct (w && e_wr (tsl s l t)); [|injection E as <-; exact X]. pose proof (queue_write_mute d s1 l t false) as Y. rewrite E in Y. eapply mute_trans; eauto.
    + apply (NL [] s); [now rewrite app_nil_r| |easy]. destruct (w && e_wr (tsl s l t)); [|injection E as <-; now apply mute_same]. pose proof (queue_write_mute d s l t false) as Y. rewrite E in Y. exact Y.
  - unfold hdlc_read in E. rewrite EO in E. rewrite <- EO in E. rewrite (FI 4096%nat LE) in E.
    set (s0 := emit s (DRx l t o)) in *. pose proof (execs_mute d act s0) as X. unfold muted in X. destruct (execs d act s0) as [s1|]; [|discriminate].
    apply (NL [DRx l t o] s0); [reflexivity| |easy]. destruct (w && e_wr (tsl s l t)); [|injection E as <-; exact X]. pose proof (queue_write_mute d s1 l t true) as Y. rewrite E in Y. eapply mute_trans; eauto.
  - injection E as <-. exists [], []. split; [now rewrite !app_nil_r|]. easy.
Qed.

(** nothing else gives data to the layers above *)
Theorem C58_rx_only d s v s' : (forall l t r w act, v <> Ready l t (Some r) w act) -> step d s v = Ok s' -> exists rest, out s' = out s ++ rest /\ Forall (fun e => reception e = false) rest.
Proof.
  intros N E. assert (M : Mute s s'); [|exact M]. destruct v as [l|cs| |l t r w act|l t|l t m|l]; cbn [step] in E.
  - injection E as <-. destruct (_ && _); now apply mute_same.
  - pose proof (execs_mute d cs s) as M. now rewrite E in M.
  - destruct (fsm_tmr s); [|injection E as <-; now apply mute_same]. pose proof (connect_mute d (set_fsm s (client s) (fsm s) false)) as M. rewrite E in M. eapply mute_trans; [|exact M]. now apply mute_same.
  - destruct r as [r|]; [exfalso; eapply N; reflexivity|]. destruct (e_reg (tsl s l t)); [|injection E as <-; now apply mute_same]. unfold fd_cb in E. destruct (fsm s) as [[|]|]; try (injection E as <-; now apply mute_same).
    destruct (e_type (tsl s l t)); try (injection E as <-; now apply mute_same); (destruct (w && e_wr (tsl s l t)); [|injection E as <-; now apply mute_same]).
    + pose proof (sign_write_mute s l t) as M. now rewrite E in M.
    + pose proof (queue_write_mute d s l t false) as M. now rewrite E in M.
    + pose proof (queue_write_mute d s l t true) as M. now rewrite E in M.
  - destruct (e_tmr (tsl s l t)); injection E as <-; [|now apply mute_same]. eapply mute_trans; [|apply want_mute]. now apply mute_same.
  - destruct (e_lapd (tsl s l t)); [|injection E as <-; now apply mute_same]. unfold write_msg in E. destruct (fsm s) as [[|]|]; try (injection E as <-; now apply mute_same).
    destruct (e_fd (tsl s l t)) as [f|]; [|pose proof (lost_mute s) as M; now rewrite E in M]. cbv zeta in E. set (s1 := emit _ _) in *. assert (M : Mute s s1) by (subst s1; eapply mute_one; [esg; reflexivity|easy]). clearbody s1.
    destruct (_ <? 0); [|injection E as <-; exact M]. pose proof (lost_mute s1) as L. rewrite E in L. eapply mute_trans; eauto.
  - destruct (exist s l); [|injection E as <-; now apply mute_same]. destruct (client s); [injection E as <-; now apply mute_same|discriminate].
Qed.

(** ** sending *)
(** when a timeslot has room and its turn was asked for, the oldest message is handed over *)
Theorem C58_progress d vs s l t m q s' : run d st_init vs = Ok s -> e_reg (tsl s l t) = true -> e_wr (tsl s l t) = true -> e_q (tsl s l t) = m :: q -> step d s (Ready l t None true []) = Ok s' ->
  exists e rest, out s' = out s ++ e :: rest /\
    match e_type (tsl s l t) with TS_SIGN => e = DLapdTx l t m | _ => exists f r, e = DSend l t f m r /\ (exists o, In (DOpen l t o f) (out s)) end /\ e_q (tsl s' l t) = q.
Proof.
  intros H G WR Q E. pose proof (C58_fifo d vs s l t H) as FF. apply reach_inv in H as I. pose proof (conn_of_reg s l t I G) as CN. destruct CN as (F & _).
  assert (QT : queued (e_type (tsl s l t)) = true). { destruct (queued (e_type (tsl s l t))) eqn:X; [easy|]. apply (w_queue s (i_w s I)) in X. congruence. }
  assert (I' : E1dRunProofs.Inv s') by (pose proof (step_ok d s (Ready l t None true []) I) as X; rewrite E in X; apply X).
  assert (FD : exists f, e_fd (tsl s l t) = Some f). { destruct (e_fd (tsl s l t)) eqn:X; [eauto|]. rewrite (w_none s (i_w s I) l t X) in G. discriminate. }
  destruct FD as (f & FD). destruct (w_own s (i_w s I) _ _ _ FD) as (o & OP).
  cbn [step] in E. rewrite G, WR in E. unfold fd_cb in E. rewrite F in E. cbn [andb] in E.
  assert (KEY : forall h, queue_write d s l t h = Ok s' -> exists e rest, out s' = out s ++ e :: rest /\ (exists f r, e = DSend l t f m r /\ (exists o, In (DOpen l t o f) (out s))) /\ e_q (tsl s' l t) = q).
  { intros h X. unfold queue_write in X. rewrite Q in X. unfold do_write in X. cbn [tsl set_ts] in X. rewrite upd2, here_refl in X. cbn [w_q e_fd] in X. rewrite FD in X. set (s1 := emit _ _) in X.
    assert (O1 : out s1 = out s ++ [DSend l t f m (d_write d (tick s))]) by reflexivity. assert (Q1 : e_q (tsl s1 l t) = q) by (subst s1; esg; now rewrite upd2, here_refl).
    destruct (if h then _ else _).
    - pose proof (queue_write_pres d s l t h I) as P. assert (I1 : W s1).
      { apply (keep s s1 [DSend l t f m (d_write d (tick s))] (i_w s I)); try (subst s1; esg; (easy || lia)).
        - intros l' t'. subst s1. esg. rewrite upd2. pose proof (here_spec l t l' t') as Hh. destruct (here l t l' t'); [destruct Hh as [-> ->]; now esg|easy].
        - repeat constructor.
        - intros l' [Y|[]]; discriminate.
        - intros e l' t' g [<-|[]]. cbn. congruence.
        - intros l' t'. subst s1. esg. rewrite upd2. destruct (here l t l' t') eqn:HH.
          + pose proof (here_spec l t l' t') as Hh. rewrite HH in Hh. destruct Hh as [-> ->]. rewrite Q. apply pop_here; eauto.
          + cbn [waiting passes]. apply here_sym in HH. now rewrite HH.
        - intros l' t'. subst s1. esg. rewrite upd2. destruct (here l t l' t') eqn:HH; [esg; congruence|apply (i_w s I)]. }
      pose proof (lost_ok s1 I1) as L. rewrite X in L. destruct L as (_ & (_ & _ & _ & (es & O2 & _) & S) & _). destruct (S l t) as (_ & S2 & _).
      exists (DSend l t f m (d_write d (tick s))), es. rewrite O2, O1, <- app_assoc. split; [easy|]. split; [|congruence]. exists f, (d_write d (tick s)). eauto.
    - injection X as <-. exists (DSend l t f m (d_write d (tick s))), []. split; [easy|]. split; [|easy]. exists f, (d_write d (tick s)). eauto. }
  destruct (e_type (tsl s l t)) eqn:TY; try discriminate.
  - unfold sign_write in E. cbv zeta in E. cbn [tsl set_ts] in E. rewrite upd2, here_refl in E. cbn [w_wr e_q e_lapd] in E. rewrite Q in E. destruct (e_lapd (tsl s l t)); [|discriminate]. injection E as <-.
    exists (DLapdTx l t m), []. split; [easy|]. split; [easy|]. esg. now rewrite upd2, here_refl.
  - apply KEY in E. exact E.
  - apply KEY in E. exact E.
Qed.
(** the connection survives exactly the writes that the daemon accepts: all of an HDLC message,
    at least one octet of a raw one (the rest is dropped), any answer but an error for LAPD *)
Theorem C58_write d vs s l t m q s' : run d st_init vs = Ok s -> e_reg (tsl s l t) = true -> e_wr (tsl s l t) = true -> e_q (tsl s l t) = m :: q -> m <> [] -> step d s (Ready l t None true []) = Ok s' ->
  let r := d_write d (tick s) in
  let stays := match e_type (tsl s l t) with TS_HDLC => Z.of_nat (length m) <= r | TS_RAW => 0 < r | _ => True end in
  (stays -> fsm s' = Some true /\ (exists e, out s' = out s ++ [e]) /\ forall l' t', e_fd (tsl s' l' t') = e_fd (tsl s l' t') /\ e_reg (tsl s' l' t') = e_reg (tsl s l' t')) /\
  (~ stays -> fsm s' = Some false /\ fsm_tmr s' = true /\ forall f, ~ is_open f (out s')).
Proof.
  intros H G WR Q NE E r stays. apply reach_inv in H as I. pose proof (conn_of_reg s l t I G) as CN. destruct CN as (F & _).
  assert (I' : E1dRunProofs.Inv s') by (pose proof (step_ok d s (Ready l t None true []) I) as X; rewrite E in X; apply X).
  assert (FD : exists f, e_fd (tsl s l t) = Some f). { destruct (e_fd (tsl s l t)) eqn:X; [eauto|]. rewrite (w_none s (i_w s I) l t X) in G. discriminate. }
  destruct FD as (f & FD).
  assert (QT : queued (e_type (tsl s l t)) = true). { destruct (queued (e_type (tsl s l t))) eqn:X; [easy|]. apply (w_queue s (i_w s I)) in X. congruence. }
  cbn [step] in E. rewrite G, WR in E. unfold fd_cb in E. rewrite F in E. cbn [andb] in E.
  assert (LM : (0 < Z.of_nat (length m))%Z) by (destruct m; [easy|cbn [length]; lia]).
  assert (KEY : forall h, queue_write d s l t h = Ok s' -> let st := if h then Z.of_nat (length m) <= r else 0 < r in
    (st -> fsm s' = Some true /\ (exists e, out s' = out s ++ [e]) /\ forall l' t', e_fd (tsl s' l' t') = e_fd (tsl s l' t') /\ e_reg (tsl s' l' t') = e_reg (tsl s l' t')) /\
    (~ st -> fsm s' = Some false /\ fsm_tmr s' = true /\ forall f, ~ is_open f (out s'))).
  { intros h X st. unfold queue_write in X. rewrite Q in X. unfold do_write in X. cbn [tsl set_ts] in X. rewrite upd2, here_refl in X. cbn [w_q e_fd] in X. rewrite FD in X.
    change (d_write d (tick (set_ts s l t (w_q (tsl s l t) q)))) with r in X. set (s1 := emit _ _) in X.
    assert (ST : (if h then r <? Z.of_nat (length m) else (r <? Z.of_nat (length m)) && (r <=? 0))%Z = true <-> ~ st).
    { subst st. destruct h; [rewrite Z.ltb_lt; lia|rewrite andb_true_iff, Z.ltb_lt, Z.leb_le; lia]. }
    destruct (if h then _ else _) eqn:B.
    - split; [intros Y; exfalso; apply ST; auto|]. intros _.
      assert (FS : fsm s' = Some false). { unfold conn_lost in X. change (fsm s1) with (fsm s) in X. rewrite F in X. cbv zeta in X. destruct (each _ _ _) as [s2|]; [|discriminate]. injection X as <-. reflexivity. }
      destruct (i_fsm s' I') as [(C & _)|[C|(C & _)]]; [congruence| |congruence]. destruct C as (A & B' & _ & D). split; [easy|]. split; [easy|]. intros g O.
      destruct (w_out s' (i_w s' I') g) as [Y|[Y _]]; [intros l' t' Y; specialize (D l' t'); unfold none in D; congruence|unfold ph in Y; destruct O; congruence..].
    - injection X as <-. split; [|intros Y; exfalso; assert (false = true) by (apply ST; exact Y); discriminate]. intros _. split; [exact F|]. split; [eexists; reflexivity|].
      intros l' t'. subst s1. esg. rewrite upd2. pose proof (here_spec l t l' t') as Hh. destruct (here l t l' t'); [destruct Hh as [-> ->]; now esg|easy]. }
  subst stays. destruct (e_type (tsl s l t)) eqn:TY; try discriminate QT.
  - unfold sign_write in E. cbv zeta in E. cbn [tsl set_ts] in E. rewrite upd2, here_refl in E. cbn [w_wr e_q e_lapd] in E. rewrite Q in E. destruct (e_lapd (tsl s l t)); [|discriminate]. injection E as <-.
    split; [|tauto]. intros _. split; [exact F|]. split; [eexists; reflexivity|]. intros l' t'. esg. rewrite !upd2. pose proof (here_spec l t l' t') as Hh. destruct (here l t l' t'); [destruct Hh as [-> ->]; now esg|easy].
  - exact (KEY false E).
  - exact (KEY true E).
Qed.
Theorem C58_lapd_write d vs s l t m f s' : run d st_init vs = Ok s -> e_lapd (tsl s l t) = true -> fsm s = Some true -> e_fd (tsl s l t) = Some f -> step d s (LapdOut l t m) = Ok s' ->
  let r := d_write d (tick s) in
  ((0 <= r)%Z -> out s' = out s ++ [DLapdWr l t f m r] /\ fsm s' = Some true /\ forall l' t', tsl s' l' t' = tsl s l' t') /\
  ((r < 0)%Z -> (exists rest, out s' = out s ++ DLapdWr l t f m r :: rest) /\ fsm s' = Some false /\ fsm_tmr s' = true).
Proof.
  intros H LA F FD E r. apply reach_inv in H as I.
  assert (I' : E1dRunProofs.Inv s') by (pose proof (step_ok d s (LapdOut l t m) I) as X; rewrite E in X; apply X).
  cbn [step] in E. rewrite LA in E. unfold write_msg in E. rewrite F, FD in E. cbv zeta in E. fold r in E. set (s1 := emit _ _) in E.
  destruct (Z.ltb_spec r 0) as [L|L].
  - split; [lia|]. intros _. pose proof (lost_mute s1) as M. rewrite E in M. destruct M as (es & O & _).
    split; [exists es; rewrite O; unfold s1; esg; now rewrite <- app_assoc|].
    unfold conn_lost in E. change (fsm s1) with (fsm s) in E. rewrite F in E. cbv zeta in E. destruct (each _ _ _) as [s2|]; [|discriminate]. injection E as <-. split; reflexivity.
  - split; [|lia]. intros _. injection E as <-. split; [reflexivity|]. split; [exact F|]. reflexivity.
Qed.
(** a message for a signalling, raw or HDLC timeslot is always accepted, on every one of the 31
    timeslots of a line, connected or not, and waits behind those accepted before; if the
    connection is up its descriptor is waited for (unless the timer that paces signalling runs) *)
Theorem C58_accept d vs s l t m : run d st_init vs = Ok s -> exist s l = true -> (1 <= t <= 31)%nat -> queued (e_type (tsl s l t)) = true ->
  exists s', step d s (App [CSend l t m]) = Ok s' /\ out s' = out s ++ [DAcc l t m] /\ e_q (tsl s' l t) = e_q (tsl s l t) ++ [m] /\
    (fsm s = Some true -> e_wr (tsl s' l t) = true \/ e_tmr (tsl s' l t) = true) /\ (forall l' t', l' <> l \/ t' <> t -> tsl s' l' t' = tsl s l' t').
Proof.
  intros _ EX T Q. eexists. split. { cbn [step execs exec]. rewrite EX. replace ((1 <=? t)%nat) with true by (symmetry; apply Nat.leb_le; lia). replace ((t <? 32)%nat) with true by (symmetry; apply Nat.ltb_lt; lia). reflexivity. }
  unfold send. assert (HN : forall l' t', l' <> l \/ t' <> t -> here l t l' t' = false) by (intros l' t' N; pose proof (here_spec l t l' t') as X; destruct (here l t l' t'); [|reflexivity]; exfalso; tauto).
  destruct (e_type (tsl s l t)) eqn:TY; try discriminate Q; cbn [andb].
  - destruct (e_tmr (tsl s l t)) eqn:TM.
    + esg. rewrite upd2, here_refl. split; [easy|]. split; [easy|]. split; [right; exact TM|]. intros l' t' N. now rewrite upd2, HN.
    + unfold want_write. esg. rewrite !upd2, here_refl. esg. rewrite TY. destruct (fsm s) as [[|]|]; esg; rewrite ?upd2, ?here_refl; esg; (split; [easy|]; split; [easy|]; split; [(now left) || easy|]; intros l' t' N; rewrite !upd2, !HN by exact N; reflexivity).
  - unfold want_write. rewrite TY. destruct (fsm s) as [[|]|]; esg; rewrite ?upd2, ?here_refl; esg; (split; [easy|]; split; [easy|]; split; [(now left) || easy|]; intros l' t' N; rewrite !upd2, !HN by exact N; reflexivity).
  - unfold want_write. rewrite TY. destruct (fsm s) as [[|]|]; esg; rewrite ?upd2, ?here_refl; esg; (split; [easy|]; split; [easy|]; split; [(now left) || easy|]; intros l' t' N; rewrite !upd2, !HN by exact N; reflexivity).
Qed.
(** configuring a timeslot takes effect on every one of the 31, throws away what was queued for
    another use of it, and leaves the other timeslots alone *)
Theorem C58_config d vs s l t ty : run d st_init vs = Ok s -> exist s l = true -> (1 <= t <= 31)%nat ->
  exists s', step d s (App [CConfig l t ty]) = Ok s' /\ e_type (tsl s' l t) = ty /\ (e_type (tsl s l t) = ty -> s' = s) /\ (e_type (tsl s l t) <> ty -> e_q (tsl s' l t) = []) /\
    e_fd (tsl s' l t) = e_fd (tsl s l t) /\ (forall l' t', l' <> l \/ t' <> t -> tsl s' l' t' = tsl s l' t').
Proof.
  intros _ EX T. eexists. split. { cbn [step execs exec]. rewrite EX. replace ((1 <=? t)%nat) with true by (symmetry; apply Nat.leb_le; lia). replace ((t <? 32)%nat) with true by (symmetry; apply Nat.ltb_lt; lia). reflexivity. }
  unfold config. assert (HN : forall l' t', l' <> l \/ t' <> t -> here l t l' t' = false) by (intros l' t' N; pose proof (here_spec l t l' t') as X; destruct (here l t l' t'); [|reflexivity]; exfalso; tauto).
  assert (TE : type_eqb (e_type (tsl s l t)) ty = true <-> e_type (tsl s l t) = ty) by (destruct (e_type (tsl s l t)), ty; cbn; split; congruence).
  cbn [andb]. destruct (type_eqb (e_type (tsl s l t)) ty).
  - assert (X : e_type (tsl s l t) = ty) by now apply TE. repeat (split; [easy|]). easy.
  - assert (X : e_type (tsl s l t) <> ty) by (intros X; apply TE in X; discriminate X). esg. rewrite upd2, here_refl. esg. split; [easy|]. split; [easy|]. split; [easy|]. split; [easy|]. intros l' t' N. now rewrite upd2, HN.
Qed.
Definition asks (s : st) : Prop := forall l t, asked s l t.
Lemma lost_asks s s' : E1dRunProofs.Inv s -> conn_lost s = Ok s' -> asks s -> asks s'.
Proof.
  intros I E A. pose proof (lost_ok s (i_w s I)) as L. rewrite E in L. destruct L as (_ & _ & L1 & L2). destruct (i_fsm s I) as [(C & _)|C].
  - destruct (L2 C) as (X & _). intros l t Y. congruence.
  - rewrite L1; [easy|]. destruct C as [(C & _)|(C & _)]; congruence.
Qed.
Lemma local_asks s s' l t x' : (forall l' t', tsl s' l' t' = if here l t l' t' then x' else tsl s l' t') -> fsm s' = fsm s -> (asked s l t -> fsm s = Some true -> e_q x' = [] \/ e_wr x' = true \/ e_tmr x' = true) -> asks s -> asks s'.
Proof.
  intros T F X A l' t' Y. rewrite F in Y. rewrite T. pose proof (here_spec l t l' t') as H. destruct (here l t l' t'); [destruct H as [-> ->]; apply X; auto|now apply A].
Qed.
Lemma want_asks s l t : asks s -> asks (want_write s l t).
Proof.
  intros A. unfold want_write. destruct (fsm s) as [[|]|] eqn:F; try easy. destruct (e_type (tsl s l t)); try easy; (eapply (local_asks s _ l t); [intros; esg; apply upd2|now esg|esg; auto|exact A]).
Qed.
Lemma sign_write_asks s s' l t : sign_write s l t = Ok s' -> asks s -> asks s'.
Proof.
  intros E A. unfold sign_write in E. cbv zeta in E. cbn [tsl set_ts] in E. rewrite upd2, here_refl in E. cbn [w_wr e_q e_lapd] in E. destruct (e_q (tsl s l t)) as [|m q] eqn:Q.
  - injection E as <-. eapply (local_asks s _ l t); [intros; esg; apply upd2|now esg| |exact A]. intros. left. now esg.
  - destruct (e_lapd (tsl s l t)); [|discriminate]. injection E as <-. eapply (local_asks s _ l t (w_tmr (w_q (w_wr (tsl s l t) false) q) true)); [|now esg| |exact A].
    + intros l' t'. esg. rewrite ?upd2, ?here_refl. now destruct (here l t l' t').
    + intros. right. right. now esg.
Qed.
Lemma queue_write_asks d s s' l t h : E1dRunProofs.Inv s -> queue_write d s l t h = Ok s' -> asks s -> asks s'.
Proof.
  intros I E A. unfold queue_write in E. destruct (e_q (tsl s l t)) as [|m q] eqn:Q.
  - injection E as <-. eapply (local_asks s _ l t); [intros; esg; apply upd2|now esg| |exact A]. intros. left. now esg.
  - pose proof (queue_write_pres d s l t h I) as P. unfold queue_write in P. rewrite Q in P. rewrite E in P.
    unfold do_write in E. cbn [tsl set_ts] in E. rewrite upd2, here_refl in E. cbn [w_q e_fd] in E.
    assert (A1 : forall s1, tsl s1 = upd (tsl s) l (upd (tsl s l) t (w_q (tsl s l t) q)) -> fsm s1 = fsm s -> asks s1).
    { intros s1 T F. eapply (local_asks s s1 l t (w_q (tsl s l t) q)); [intros; rewrite T; apply upd2|easy| |exact A]. intros X Y. esg. destruct (X Y) as [Z|Z]; [congruence|]. auto. }
    assert (DONE : forall s1 b, tsl s1 = upd (tsl s) l (upd (tsl s l) t (w_q (tsl s l t) q)) -> fsm s1 = fsm s -> (if b : bool then conn_lost s1 else Ok s1) = Ok s' -> asks s').
    { intros s1 b T F X. pose proof (A1 s1 T F) as AA. destruct b; [|injection X as <-; easy].
      unfold conn_lost in X. rewrite F in X. destruct (fsm s) as [[|]|] eqn:FS; try (injection X as <-; easy). destruct (each _ all_lines _) as [s2|]; [|discriminate]. injection X as <-. intros l' t' Y. es. discriminate. }
    destruct (e_fd (tsl s l t)); (eapply DONE; [| |exact E]; reflexivity).
Qed.
Lemma trau_write_asks d s s' l t : E1dRunProofs.Inv s -> trau_write d s l t = Ok s' -> asks s -> asks s'.
Proof.
  intros I E A. unfold trau_write in E. destruct (e_fd (tsl s l t)) as [f|]; [|eapply lost_asks; eauto]. cbv zeta in E. set (s1 := emit _ _) in E. assert (A1 : asks s1) by exact A. assert (F : fsm s1 = fsm s) by reflexivity. clearbody s1.
  destruct (_ <=? 0); [|injection E as <-; easy]. unfold conn_lost in E. destruct (fsm s1) as [[|]|] eqn:FS; try (injection E as <-; easy). destruct (each _ all_lines _) as [s2|]; [|discriminate]. injection E as <-. intros l' t' Y. es. discriminate.
Qed.
Lemma execs_asks d cs : no_update cs = true -> forall s s', execs d cs s = Ok s' -> asks s -> asks s'.
Proof.
  induction cs as [|c r IH]; intros N s s' E A; cbn [execs] in E; [injection E as <-; easy|]. cbn [no_update forallb] in N. apply andb_prop in N as [N1 N2].
  destruct (exec d s c) as [s1|] eqn:X; [|discriminate]. eapply (IH N2); [exact E|]. destruct c as [l t ty|l|l t m]; [|discriminate|]; cbn [exec] in X; injection X as <-; (destruct (_ && _ && _); [|exact A]).
  - unfold config. cbv zeta. destruct (type_eqb _ _); [exact A|]. eapply (local_asks s _ l t); [intros; esg; apply upd2|now esg|intros; left; now esg|exact A].
  - unfold send. cbv zeta. destruct (e_type (tsl s l t)) eqn:TY; try exact A.
    + destruct (e_tmr (tsl s l t)) eqn:TM.
      * eapply (local_asks s _ l t); [intros; esg; apply upd2|now esg| |exact A]. intros. right. right. esg. easy.
      * unfold want_write. esg. rewrite !upd2, !here_refl. esg. rewrite TY. destruct (fsm s) as [[|]|] eqn:F; try (intros l' t' Y; discriminate Y).
        intros l' t' _. esg. rewrite !upd2. destruct (here l t l' t'); [right; left; now esg|apply A, F].
    + intros l' t' Y. unfold want_write in *. rewrite TY in *. destruct (fsm s) as [[|]|] eqn:F; try (exfalso; es; congruence). esg. rewrite !upd2. destruct (here l t l' t') eqn:HH; [right; left; esg; now rewrite here_refl|apply A, F].
    + intros l' t' Y. unfold want_write in *. rewrite TY in *. destruct (fsm s) as [[|]|] eqn:F; try (exfalso; es; congruence). esg. rewrite !upd2. destruct (here l t l' t') eqn:HH; [right; left; esg; now rewrite here_refl|apply A, F].
Qed.
Lemma rx_asks d act s s1 e : no_update act = true -> execs d act (emit s e) = Ok s1 -> asks s -> asks s1.
Proof. intros N E A. eapply (execs_asks d act N); [exact E|]. exact A. Qed.
Lemma step_asks d s v s' : E1dRunProofs.Inv s -> calm v = true -> step d s v = Ok s' -> asks s -> asks s'.
Proof.
  intros I C E A. destruct v as [l|cs| |l t r w act|l t|l t m|l]; cbn [step calm] in *.
  - injection E as <-. destruct (_ && _); exact A.
  - eapply execs_asks; eauto.
  - discriminate.
  - destruct (e_reg (tsl s l t)); [|injection E as <-; exact A]. unfold fd_cb in E. destruct (fsm s) as [[|]|]; try (injection E as <-; exact A). destruct (e_type (tsl s l t)); try (injection E as <-; exact A).
    + assert (H : forall s1, match r with Some r => sign_read d s l t r act | None => Ok s end = Ok s1 -> asks s1).
      { intros s1 X. destruct r as [r|]; [|injection X as <-; exact A]. unfold sign_read in X. destruct r as [|[|o os]]; [eapply (lost_asks s); eauto..|]. destruct (e_lapd _); [|discriminate]. eapply rx_asks; eauto. }
      destruct (match r with Some r => _ | None => _ end) as [s1|]; [|discriminate]. specialize (H s1 eq_refl). destruct (w && _); [|injection E as <-; exact H]. eapply sign_write_asks; eauto.
    + destruct r as [r|]; [|injection E as <-; exact A]. unfold trau_read in E. destruct r as [|[|o os]]; [eapply (lost_asks s); eauto..|]. cbv zeta in E. destruct (negb _); [injection E as <-; exact A|].
      set (e := DRx l t _) in E. destruct (execs d act (emit s e)) as [s1|] eqn:X; [|discriminate]. pose proof (rx_execs d l t act s e I) as R1. rewrite X in R1. destruct R1 as ((I1 & _) & _); try easy. eapply (trau_write_asks d s1); eauto. eapply rx_asks; eauto.
    + assert (H : forall s1, match r with Some r => raw_read d s l t r act | None => Ok s end = Ok s1 -> asks s1 /\ E1dRunProofs.Inv s1).
      { intros s1 X. destruct r as [r|]; [|injection X as <-; easy]. pose proof (raw_read_ok d s l t r act I) as R1. rewrite X in R1. destruct R1 as ((I1 & _) & _). split; [|easy].
        unfold raw_read in X. destruct r as [|[|o os]]; [eapply (lost_asks s); eauto..|]. cbv zeta in X. destruct (negb _); [injection X as <-; exact A|]. eapply rx_asks; eauto. }
      destruct (match r with Some r => _ | None => _ end) as [s1|]; [|discriminate]. destruct (H s1 eq_refl). destruct (w && _); [|injection E as <-; easy]. eapply queue_write_asks; eauto.
    + assert (H : forall s1, match r with Some r => hdlc_read d s l t r act | None => Ok s end = Ok s1 -> asks s1 /\ E1dRunProofs.Inv s1).
      { intros s1 X. destruct r as [r|]; [|injection X as <-; easy]. pose proof (hdlc_read_ok d s l t r act I) as R1. rewrite X in R1. destruct R1 as ((I1 & _) & _). split; [|easy].
        unfold hdlc_read in X. destruct r as [|[|o os]]; [eapply (lost_asks s); eauto..|]. eapply rx_asks; eauto. }
      destruct (match r with Some r => _ | None => _ end) as [s1|]; [|discriminate]. destruct (H s1 eq_refl). destruct (w && _); [|injection E as <-; easy]. eapply queue_write_asks; eauto.
  - destruct (e_tmr (tsl s l t)); injection E as <-; [|exact A]. pose proof (w_queue s (i_w s I) l t) as WQ. intros l' t' Y. unfold want_write in *. esg. cbn [fsm set_ts] in *. destruct (fsm s) as [[|]|] eqn:F; try (es; congruence).
    cbn [tsl set_ts] in *. rewrite !upd2, !here_refl in *. unfold w_tmr in *. cbn [e_type] in *.
    destruct (e_type (tsl s l t)) eqn:TY; esg; rewrite ?upd2; (destruct (here l t l' t') eqn:HH; [|now apply A]); esg; try (right; left; reflexivity); left; apply WQ; reflexivity.
  - destruct (e_lapd _); [|injection E as <-; exact A]. unfold write_msg in E. destruct (fsm s) as [[|]|] eqn:FS; try (injection E as <-; exact A). destruct (e_fd _) as [f|]; [|eapply (lost_asks s); eauto]. cbv zeta in E. set (s1 := emit _ _) in E. assert (A1 : asks s1) by exact A. clearbody s1.
    destruct (_ <? 0); [|injection E as <-; easy]. unfold conn_lost in E. destruct (fsm s1) as [[|]|] eqn:FS1; try (injection E as <-; easy). destruct (each _ all_lines _) as [s2|]; [|discriminate]. injection E as <-. intros l' t' Y. es. discriminate.
  - destruct (exist s l); [|injection E as <-; exact A]. destruct (client s); [injection E as <-; exact A|discriminate].
Qed.
(** as long as no line is updated and no connection made, a message that waits keeps being
    asked for *)
Theorem C58_no_stall d vs s vs2 s' : run d st_init vs = Ok s -> (forall l t, asked s l t) -> forallb calm vs2 = true -> run d s vs2 = Ok s' -> forall l t, asked s' l t.
Proof.
  intros H A C E. apply reach_inv in H as I. clear H. revert s I A E. induction vs2 as [|v r IH]; intros s I A E; cbn [run forallb] in *; [injection E as <-; exact A|]. apply andb_prop in C as [C1 C2].
  destruct (step d s v) as [s1|] eqn:S1; [|discriminate]. apply (IH C2 s1); auto.
  - pose proof (step_ok d s v I) as X. rewrite S1 in X. apply X.
  - eapply step_asks; eauto.
Qed.

(** * What does not hold, and cases that meet the hypotheses *)
Definition good : daemon := mkDm (fun _ => true) (fun _ => Some (repeat OTHER 32)) (fun _ => true) (fun _ => true) (fun _ => 160) (fun _ => repeat 1 160).
Definition setup : list cmd := [CConfig 0 1 TS_SIGN; CConfig 0 2 TS_TRAU; CConfig 0 3 TS_RAW; CConfig 0 4 TS_HDLC; CConfig 0 5 TS_I460; CUpdate 0].
Definition start : list ev := [Create 0; App setup].
Definition sees {A} (r : res st) (f : st -> A) : option A := match r with Ok s => Some (f s) | Bad _ => None end.
Lemma good_healthy k : healthy good k.
Proof. intros j _. split; [easy|]. split; [exists (repeat OTHER 32); split; [easy|now cbn]|]. easy. Qed.
Lemma good_wide : wide good. Proof. intros k i E. injection E as <-. now cbn. Qed.
Lemma good_registers : registers good. Proof. easy. Qed.
Example ex_start : forallb polite start = true /\ sees (run good st_init start) out =
  Some [DFlush 0 1; DFlush 0 2; DFlush 0 3; DFlush 0 4; DFlush 0 5; DUpdate 0; DClient true; DOpen 0 1 HDLCFCS 2; DReg 2; DOpen 0 2 RAW 4; DReg 4; DOpen 0 3 RAW 6; DReg 6; DOpen 0 4 HDLCFCS 8; DReg 8; DOpen 0 5 RAW 10; DReg 10;
        DUnreg 2; DClose 2; DOpen 0 1 HDLCFCS 13; DReg 13; DUnreg 4; DClose 4; DOpen 0 2 RAW 15; DReg 15; DUnreg 6; DClose 6; DOpen 0 3 RAW 17; DReg 17; DUnreg 8; DClose 8; DOpen 0 4 HDLCFCS 19; DReg 19; DUnreg 10; DClose 10; DOpen 0 5 RAW 21; DReg 21; DRet 0 0].
Proof. split; vm_compute; reflexivity. Qed.
(** a daemon that reports the modes asked for: the second pass of the first update keeps all *)
Definition modes : list mode := [OTHER; HDLCFCS; RAW; RAW; HDLCFCS; RAW] ++ repeat OTHER 26.
Definition real : daemon := mkDm (fun _ => true) (fun _ => Some modes) (fun _ => true) (fun _ => true) (fun _ => 160) (fun _ => repeat 1 160).
Example ex_real : sees (run real st_init start) (fun s => skipn 6 (out s)) =
  Some [DClient true; DOpen 0 1 HDLCFCS 2; DReg 2; DOpen 0 2 RAW 4; DReg 4; DOpen 0 3 RAW 6; DReg 6; DOpen 0 4 HDLCFCS 8; DReg 8; DOpen 0 5 RAW 10; DReg 10;
        DUnreg 2; DReg 2; DUnreg 4; DReg 4; DUnreg 6; DReg 6; DUnreg 8; DReg 8; DUnreg 10; DReg 10; DRet 0 0].
Proof. vm_compute. reflexivity. Qed.
(** loss and recovery *)
Definition trouble : list ev := start ++ [Ready 0 3 (Some RdErr) false []].
Example ex_trouble : sees (run real st_init trouble) (fun s => (fsm s, fsm_tmr s, client s, skipn 28 (out s))) =
  Some (Some false, true, false, [DClient false; DUnreg 2; DClose 2; DUnreg 4; DClose 4; DUnreg 6; DClose 6; DUnreg 8; DClose 8; DUnreg 10; DClose 10]).
Proof. vm_compute. reflexivity. Qed.
Example ex_recovered : sees (run real st_init (trouble ++ [Retry])) (fun s => (fsm s, skipn 39 (out s))) =
  Some (Some true, [DClient true; DOpen 0 1 HDLCFCS 20; DReg 20; DOpen 0 2 RAW 22; DReg 22; DOpen 0 3 RAW 24; DReg 24; DOpen 0 4 HDLCFCS 26; DReg 26; DOpen 0 5 RAW 28; DReg 28]).
Proof. vm_compute. reflexivity. Qed.
(** data both ways, TRAU octets with their bits reversed *)
Example ex_data : sees (run real st_init (start ++ [App [CSend 0 3 [1; 2]; CSend 0 1 [7]; CSend 0 1 [8]]; Ready 0 3 None true []; Ready 0 1 (Some (RdData [2; 3])) true []; TxTimer 0 1; Ready 0 1 None true []; LapdOut 0 1 [9];
    Ready 0 2 (Some (RdData (repeat 1 160))) false []; Ready 0 4 (Some (RdData [5; 6])) false []])) (fun s => skipn 28 (out s)) =
  Some [DAcc 0 3 [1; 2]; DAcc 0 1 [7]; DAcc 0 1 [8]; DSend 0 3 6 [1; 2] 160; DLapdRx 0 1 [2; 3]; DLapdTx 0 1 [7]; DLapdTx 0 1 [8]; DLapdWr 0 1 2 [9] 160; DRx 0 2 (repeat 128 160); DTrau 0 2 4 (repeat 128 160) 160; DRx 0 4 [5; 6]].
Proof. vm_compute. reflexivity. Qed.
(** the last timeslot of a line, configured and sent to while the daemon is away *)
Example ex_accept : sees (run real st_init (trouble ++ [App [CConfig 0 31 TS_RAW; CSend 0 31 [1; 2]; CSend 0 31 [3]]])) (fun s => (exist s 0, fsm s, e_type (tsl s 0 31), e_q (tsl s 0 31), skipn 39 (out s))) =
  Some (true, Some false, TS_RAW, [[1; 2]; [3]], [DFlush 0 31; DAcc 0 31 [1; 2]; DAcc 0 31 [3]]).
Proof. vm_compute. reflexivity. Qed.
Example ex_asked : exists s, run real st_init start = Ok s /\ forall l t, asked s l t.
Proof.
  destruct (run real st_init start) as [s|q] eqn:E; [|exfalso; assert (X : sees (run real st_init start) (fun _ => tt) = Some tt) by (vm_compute; reflexivity); rewrite E in X; discriminate].
  exists s. split; [easy|]. intros l t _. left. pose proof (C58_fifo real start s l t E) as F.
  assert (O : sees (run real st_init start) out = Some ([DFlush 0 1; DFlush 0 2; DFlush 0 3; DFlush 0 4; DFlush 0 5; DUpdate 0; DClient true; DOpen 0 1 HDLCFCS 2; DReg 2; DOpen 0 2 RAW 4; DReg 4; DOpen 0 3 RAW 6; DReg 6; DOpen 0 4 HDLCFCS 8; DReg 8; DOpen 0 5 RAW 10; DReg 10;
        DUnreg 2; DReg 2; DUnreg 4; DReg 4; DUnreg 6; DReg 6; DUnreg 8; DReg 8; DUnreg 10; DReg 10; DRet 0 0])) by (vm_compute; reflexivity).
  rewrite E in O. cbn [sees] in O. injection O as O. rewrite O in F.
 cbn [app waiting passes] in F.
  repeat match type of F with context [if ?b then _ else _] => destruct b; cbn [app waiting passes] in F end; congruence.
Qed.
(** refuted: setting Sa bits before the daemon is there *)
Theorem C57_sa_bits_crash : run real st_init [Create 0; SaBits 0] = Bad NullClient.
Proof. reflexivity. Qed.
(** refuted without [wide]: a daemon that reports fewer timeslots the second time, then the
    connection is lost: a descriptor that is open but not registered is unregistered *)
Definition shrinking : daemon := mkDm (fun _ => true) (fun k => if Nat.eqb k 1 then Some modes else Some (firstn 2 modes)) (fun _ => true) (fun _ => true) (fun _ => 160) (fun _ => repeat 1 160).
Theorem C57_shrinking : forallb polite (start ++ [Ready 0 1 (Some RdErr) false []]) = true /\ run shrinking st_init (start ++ [Ready 0 1 (Some RdErr) false []]) = Bad NotRegistered.
Proof. split; vm_compute; reflexivity. Qed.
(** refuted: configuring for signalling without updating, then data arrives *)
Theorem C57_no_update : run real st_init (start ++ [App [CConfig 0 3 TS_SIGN]; Ready 0 3 (Some (RdData [1])) false []]) = Bad NullLapd.
Proof. vm_compute. reflexivity. Qed.
(** refuted: an update that fails half way (registering fails) leaves later timeslots as they
    are: signalling without LAPD *)
Definition full : daemon := mkDm (fun _ => true) (fun _ => Some modes) (fun _ => true) (fun k => (k <? 18)%nat) (fun _ => 160) (fun _ => repeat 1 160).
Theorem C57_half_update : forallb polite (start ++ [App [CConfig 0 3 TS_SIGN; CUpdate 0]; Ready 0 3 (Some (RdData [1])) false []]) = true /\
  run full st_init (start ++ [App [CConfig 0 3 TS_SIGN; CUpdate 0]; Ready 0 3 (Some (RdData [1])) false []]) = Bad NullLapd.
Proof. split; vm_compute; reflexivity. Qed.
(** refuted: the application, given a signalling message, makes its timeslot a raw one and
    sends: the write that follows hands the raw message to LAPD, which is gone *)
Theorem C57_own_timeslot : run real st_init (start ++ [App [CSend 0 1 [7]]; Ready 0 1 (Some (RdData [1])) true [CConfig 0 1 TS_RAW; CUpdate 0; CSend 0 1 [9]]]) = Bad NullLapd.
Proof. vm_compute. reflexivity. Qed.
(** ... or, given TRAU data, unconfigures its timeslot: all connections are dropped *)
Theorem C57_own_timeslot_trau : sees (run real st_init (start ++ [Ready 0 2 (Some (RdData (repeat 1 160))) false [CConfig 0 2 TS_NONE; CUpdate 0]])) fsm = Some (Some false).
Proof. vm_compute. reflexivity. Qed.
(** refuted: a line update forgets that a message waits to be written *)
Theorem C58_update_stalls : sees (run real st_init (start ++ [App [CSend 0 3 [1]; CUpdate 0]])) (fun s => (fsm s, e_reg (tsl s 0 3), e_q (tsl s 0 3), e_wr (tsl s 0 3), e_tmr (tsl s 0 3))) = Some (Some true, true, [[1]], false, false).
Proof. vm_compute. reflexivity. Qed.
(** refuted: so does sending without a connection, also after it is back *)
Theorem C58_reconnect_stalls : sees (run real st_init (trouble ++ [App [CSend 0 3 [1]; CSend 0 1 [2]]; Retry])) (fun s => (fsm s, map (fun t => (e_reg (tsl s 0 t), e_q (tsl s 0 t), e_wr (tsl s 0 t), e_tmr (tsl s 0 t))) [3%nat; 1%nat])) =
  Some (Some true, [(true, [[1]], false, false); (true, [[2]], false, false)]).
Proof. vm_compute. reflexivity. Qed.
(** refuted: a raw message written in part stays in part: the connection is kept, the rest lost *)
Definition partial_write : daemon := mkDm (fun _ => true) (fun _ => Some modes) (fun _ => true) (fun _ => true) (fun _ => 1) (fun _ => repeat 1 160).
Theorem C58_partial_write : sees (run partial_write st_init (start ++ [App [CSend 0 3 [1; 2]]; Ready 0 3 None true []])) (fun s => (fsm s, e_q (tsl s 0 3), skipn 28 (out s))) = Some (Some true, [], [DAcc 0 3 [1; 2]; DSend 0 3 6 [1; 2] 1]).
Proof. vm_compute. reflexivity. Qed.
(** refuted: an I.460 timeslot is opened and polled but never read *)
Theorem C58_i460_never_read d s l t r w act : e_type (tsl s l t) = TS_I460 -> step d s (Ready l t r w act) = Ok s.
Proof. intros T. cbn [step]. destruct (e_reg (tsl s l t)); [|easy]. unfold fd_cb. rewrite T. now destruct (fsm s) as [[|]|]. Qed.
