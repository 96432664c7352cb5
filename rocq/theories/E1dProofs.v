(** Invariants of the osmo-e1d driver model. *)
From Coq Require Import List Arith Lia Bool ZArith.
From Verif Require Import Base E1Model IpaccessModel E1dModel E1dSpec.
Import ListNotations.
Open Scope Z_scope.

Ltac es := unfold emit, next, set_ts, set_fsm, set_flag, w_fd, w_wr, w_lapd, w_q, w_tmr in *; cbn [client fsm fsm_tmr flag exist tsl tick out e_type e_fd e_reg e_wr e_lapd e_q e_tmr] in *.
Ltac esg := unfold emit, next, set_ts, set_fsm, set_flag, w_fd, w_wr, w_lapd, w_q, w_tmr; cbn [client fsm fsm_tmr flag exist tsl tick out e_type e_fd e_reg e_wr e_lapd e_q e_tmr].

Definition here (l t l' t' : nat) : bool := Nat.eqb l' l && Nat.eqb t' t.
Lemma upd2 {A} (f : nat -> nat -> A) l t x l' t' : upd f l (upd (f l) t x) l' t' = if here l t l' t' then x else f l' t'.
Proof. unfold upd, here. destruct (Nat.eqb_spec l' l) as [->|]; [destruct (Nat.eqb_spec t' t) as [->|]|]; reflexivity. Qed.
Lemma here_spec l t l' t' : if here l t l' t' then l' = l /\ t' = t else l' <> l \/ t' <> t.
Proof. unfold here. destruct (Nat.eqb_spec l' l); destruct (Nat.eqb_spec t' t); cbn [andb]; auto. Qed.
Lemma here_refl l t : here l t l t = true. Proof. unfold here. now rewrite !Nat.eqb_refl. Qed.
Lemma type_eqb_spec a b : Bool.reflect (a = b) (type_eqb a b).
Proof. destruct a, b; constructor; congruence. Qed.

(** ** phases *)
Lemma phase_app f es : forall p es', phase f p (es ++ es') = match phase f p es with Some q => phase f q es' | None => None end.
Proof. induction es as [|e es IH]; intros p es'; [easy|]. cbn [app phase]. destruct (advance f p e); [apply IH|easy]. Qed.
Definition ph (f : nat) (s : st) : option nat := phase f 0 (out s).

Lemma waiting_app l t es : forall q es', waiting l t q (es ++ es') = match waiting l t q es with Some q => waiting l t q es' | None => None end.
Proof. induction es as [|e es IH]; intros p es'; [easy|]. cbn [app waiting]. destruct (passes l t p e); [apply IH|easy]. Qed.
(** the descriptor an effect opens, closes, registers or unregisters *)
Definition about (e : deff) : option nat := match e with DOpen _ _ _ f | DClose f | DReg f | DUnreg f => Some f | _ => None end.
Definition quiet (es : list deff) : Prop := forall l, ~ In (DUpdate l) es.
Lemma about_other f es : Forall (fun e => about e = Some f) es ->
  (forall g q, g <> f -> phase g q es = Some q) /\ (forall l t q, waiting l t q es = Some q) /\ quiet es /\ (forall e, In e es -> sender e = None).
Proof.
  induction 1 as [|e es A F IH]; [repeat split; easy|]. destruct IH as (I1 & I2 & I3 & I4). repeat split.
  - intros g q N. cbn [phase]. replace (advance g q e) with (Some q); [auto|]. symmetry.
    destruct e; cbn in A; try discriminate; injection A as ->; cbn [advance]; replace (Nat.eqb f g) with false by (symmetry; apply Nat.eqb_neq; congruence); reflexivity.
  - intros l t q. cbn [waiting]. replace (passes l t q e) with (Some q); [auto|]. destruct e; cbn in A; try discriminate; reflexivity.
  - intros l [I|I]; [subst; discriminate|now apply I3 in I].
  - intros x [<-|I]; [destruct e; cbn in A; try discriminate; reflexivity|auto].
Qed.
Lemma phase_quiet f p es : p = 1%nat \/ p = 2%nat -> Forall (fun e => about e = None) es -> phase f p es = Some p.
Proof.
  intros P. induction 1 as [|e es A F IH]; [easy|]. cbn [phase]. replace (advance f p e) with (Some p); [easy|].
  destruct P as [-> | ->]; destruct e; cbn in *; try discriminate; try easy; destruct (Nat.eqb _ f); reflexivity.
Qed.
Lemma phase_quiet' f p es : Forall (fun e => about e = None) es -> (forall e, In e es -> forall l t, sender e <> Some (l, t, f)) -> phase f p es = Some p.
Proof.
  induction 1 as [|e es A F IH]; [easy|]. intros H. cbn [phase]. replace (advance f p e) with (Some p); [apply IH; intros; apply H; now right|].
  pose proof (H e (or_introl eq_refl)) as He. destruct e; cbn [about sender advance] in *; try discriminate; try easy;
  destruct (Nat.eqb_spec fd f) as [->|]; try easy; exfalso; eapply He; reflexivity.
Qed.

(** ** structure *)
Definition queued (ty : ts_type) : bool := match ty with TS_SIGN | TS_RAW | TS_HDLC => true | _ => false end.
Definition place (s : st) (l t : nat) : Prop := flag s l = true /\ exist s l = true /\ (l < 256)%nat /\ (1 <= t < 32)%nat.
Record W (s : st) : Prop := {
  w_in : forall l t f, e_fd (tsl s l t) = Some f -> ph f s = Some (if e_reg (tsl s l t) then 2%nat else 1%nat) /\ (f < tick s)%nat /\ place s l t;
  w_out : forall f, (forall l t, e_fd (tsl s l t) <> Some f) -> ph f s = Some 0%nat \/ ph f s = Some 3%nat /\ (f < tick s)%nat;
  w_none : forall l t, e_fd (tsl s l t) = None -> e_reg (tsl s l t) = false;
  w_one : forall l t l' t' f, e_fd (tsl s l t) = Some f -> e_fd (tsl s l' t') = Some f -> l' = l /\ t' = t;
  w_ex : forall l, exist s l = true -> (l < 256)%nat;
  w_flag : forall l, flag s l = true -> exist s l = true;
  w_upd : forall l, flag s l = true <-> In (DUpdate l) (out s);
  w_own : forall l t f, e_fd (tsl s l t) = Some f -> exists m, In (DOpen l t m f) (out s);
  w_send : forall e l t f, In e (out s) -> sender e = Some (l, t, f) -> exists m, In (DOpen l t m f) (out s);
  w_wait : forall l t, waiting l t [] (out s) = Some (e_q (tsl s l t));
  w_queue : forall l t, queued (e_type (tsl s l t)) = false -> e_q (tsl s l t) = []
}.
Lemma w_new s f : W s -> (tick s <= f)%nat -> ph f s = Some 0%nat /\ forall l t, e_fd (tsl s l t) <> Some f.
Proof.
  intros w L. assert (N : forall l t, e_fd (tsl s l t) <> Some f). { intros l t E. apply (w_in s w) in E as (_ & ? & _). lia. }
  split; [|exact N]. destruct (w_out s w f N) as [|[_ ?]]; [easy|lia].
Qed.
(** one timeslot changes; [es] concerns only descriptor [f] *)
Lemma change s s' l t f es x' :
  W s -> (forall l' t', tsl s' l' t' = if here l t l' t' then x' else tsl s l' t') -> out s' = out s ++ es -> (tick s <= tick s')%nat ->
  flag s' = flag s -> exist s' = exist s -> Forall (fun e => about e = Some f) es -> e_type x' = e_type (tsl s l t) -> e_q x' = e_q (tsl s l t) ->
  (e_fd (tsl s l t) = None \/ e_fd (tsl s l t) = Some f) -> (e_fd (tsl s l t) = Some f \/ (tick s <= f)%nat) -> (f < tick s')%nat ->
  (e_fd x' = Some f /\ place s l t /\ (forall q, ph f s = Some q -> phase f q es = Some (if e_reg x' then 2%nat else 1%nat)) /\
     (e_fd (tsl s l t) = Some f \/ exists m, In (DOpen l t m f) es) \/
   e_fd x' = None /\ e_reg x' = false /\ (forall q, ph f s = Some q -> phase f q es = Some 3%nat)) -> W s'.
Proof.
  intros w T O TK FL EX AB TYY QQ OLD FR LT C. unfold ph, place in *. apply about_other in AB as (OT & OW & OQ & OS).
  assert (PH : forall g, g <> f -> phase g 0 (out s') = phase g 0 (out s)).
  { intros g N. rewrite O, phase_app. destruct (phase g 0 (out s)); [now apply OT|easy]. }
  assert (PF : exists q, phase f 0 (out s) = Some q).
  { destruct FR as [E|E]; [destruct (w_in s w _ _ _ E) as (A & _); eauto|destruct (w_new s f w E) as (A & _); unfold ph in A; eauto]. }
  destruct PF as (q & PF). assert (PF' : phase f 0 (out s') = phase f q es) by now rewrite O, phase_app, PF.
  assert (NH : forall l' t', here l t l' t' = false -> e_fd (tsl s l' t') <> Some f).
  { intros l' t' H E. destruct FR as [E0|E0].
    - destruct (w_one s w _ _ _ _ _ E0 E) as [-> ->]. now rewrite here_refl in H.
    - destruct (w_in s w _ _ _ E) as (_ & ? & _). lia. }
  constructor.
  - intros l' t' g E. rewrite T in *. unfold ph, place. pose proof (here_spec l t l' t') as H. destruct (here l t l' t') eqn:HH.
    + destruct H as [-> ->]. destruct C as [(C1 & C2 & C3 & _)|(C1 & _)]; [|congruence]. assert (g = f) as -> by congruence.
      rewrite PF', (C3 q PF). rewrite FL, EX. repeat split; try tauto; lia.
    + assert (g <> f) by (intros ->; exact (NH _ _ HH E)). rewrite PH by easy. destruct (w_in s w _ _ _ E) as (A & B & D). rewrite FL, EX. unfold place in D. repeat split; try tauto; try lia; exact A.
  - intros g N. unfold ph. destruct (Nat.eq_dec g f) as [->|NE].
    + rewrite PF'. destruct C as [(C1 & _)|(C1 & C2 & C3)].
      * exfalso. apply (N l t). now rewrite T, here_refl.
      * right. split; [auto|lia].
    + rewrite PH by easy. destruct (w_out s w g) as [A|[A B]].
      * intros l' t' E. destruct (here l t l' t') eqn:HH.
        -- pose proof (here_spec l t l' t') as H. rewrite HH in H. destruct H as [-> ->]. destruct OLD; congruence.
        -- apply (N l' t'). now rewrite T, HH.
      * left. exact A.
      * right. split; [exact A|lia].
  - intros l' t'. rewrite T. destruct (here l t l' t'); [|apply (w_none s w)]. intros E. destruct C as [(C1 & _)|(_ & C2 & _)]; [congruence|exact C2].
  - intros l1 t1 l2 t2 g. rewrite !T. pose proof (here_spec l t l1 t1) as H1. pose proof (here_spec l t l2 t2) as H2.
    destruct (here l t l1 t1) eqn:E1; destruct (here l t l2 t2) eqn:E2; intros A B.
    + intuition congruence.
    + exfalso. destruct C as [(C1 & _)|(C1 & _)]; [|congruence]. apply (NH _ _ E2). congruence.
    + exfalso. destruct C as [(C1 & _)|(C1 & _)]; [|congruence]. apply (NH _ _ E1). congruence.
    + apply (w_one s w _ _ _ _ _ A B).
  - rewrite EX. apply w.
  - rewrite EX, FL. apply w.
  - intros l'. rewrite FL, O, in_app_iff, (w_upd s w l'). pose proof (OQ l'). tauto.
  - intros l' t' g E. rewrite T in E. rewrite O. pose proof (here_spec l t l' t') as H. destruct (here l t l' t').
    + destruct H as [-> ->]. destruct C as [(C1 & _ & _ & C4)|(C1 & _)]; [|congruence]. assert (g = f) as -> by congruence.
      destruct C4 as [C4|(m & C4)]; [destruct (w_own s w _ _ _ C4) as (m & I); exists m|exists m]; rewrite in_app_iff; tauto.
    + destruct (w_own s w _ _ _ E) as (m & I). exists m. rewrite in_app_iff. tauto.
  - intros e l' t' g I S. rewrite O in *. apply in_app_iff in I as [I|I]; [|rewrite (OS e I) in S; discriminate].
    destruct (w_send s w _ _ _ _ I S) as (m & J). exists m. rewrite in_app_iff. tauto.
  - intros l' t'. rewrite O, waiting_app, (w_wait s w), OW, T. pose proof (here_spec l t l' t') as H. destruct (here l t l' t'); [destruct H as [-> ->]; now rewrite QQ|easy].
  - intros l' t'. rewrite T. destruct (here l t l' t'); [rewrite TYY, QQ|]; apply w.
Qed.
(** nothing of the descriptors changes *)
Lemma keep s s' es : W s -> (forall l t, e_fd (tsl s' l t) = e_fd (tsl s l t) /\ e_reg (tsl s' l t) = e_reg (tsl s l t)) -> out s' = out s ++ es -> (tick s <= tick s')%nat ->
  flag s' = flag s -> exist s' = exist s -> Forall (fun e => about e = None) es -> quiet es -> (forall e l t f, In e es -> sender e = Some (l, t, f) -> e_fd (tsl s l t) = Some f) ->
  (forall l t, waiting l t (e_q (tsl s l t)) es = Some (e_q (tsl s' l t))) -> (forall l t, queued (e_type (tsl s' l t)) = false -> e_q (tsl s' l t) = []) -> W s'.
Proof.
  intros w T O TK FL EX AB OQ OS OW QU.
  assert (PH : forall g q, ph g s = Some q -> ph g s' = Some q).
  { intros g q H. unfold ph in *. rewrite O, phase_app, H. destruct (Nat.eq_dec q 1) as [->|]; [apply phase_quiet; auto|]. destruct (Nat.eq_dec q 2) as [->|]; [apply phase_quiet; auto|].
    apply phase_quiet'; [easy|]. intros e I l t S. apply OS in S; [|easy]. destruct (w_in s w _ _ _ S) as (A & _). unfold ph in A. rewrite A in H. injection H as <-. destruct (e_reg (tsl s l t)); lia. }
  constructor.
  - intros l t f. destruct (T l t) as [-> ->]. unfold place. rewrite FL, EX. intros E. destruct (w_in s w _ _ _ E) as (A & B & C). split; [now apply PH|]. split; [lia|exact C].
  - intros f N. destruct (w_out s w f) as [A|[A B]]; [|left; now apply PH|right; split; [now apply PH|lia]]. intros l t. destruct (T l t) as [<- _]. apply N.
  - intros l t. destruct (T l t) as [-> ->]. apply w.
  - intros l t l' t' f. destruct (T l t) as [-> _]. destruct (T l' t') as [-> _]. apply w.
  - rewrite EX. apply w.
  - rewrite EX, FL. apply w.
  - intros l. rewrite FL, O, in_app_iff, (w_upd s w l). pose proof (OQ l). tauto.
  - intros l t f. destruct (T l t) as [-> _]. intros E. destruct (w_own s w _ _ _ E) as (m & I). exists m. rewrite O, in_app_iff. tauto.
  - intros e l t f I S. rewrite O in *. assert (X : exists m, In (DOpen l t m f) (out s)).
    { apply in_app_iff in I as [I|I]; [now apply (w_send s w _ _ _ _ I S)|]. apply (w_own s w). now apply (OS e). }
    destruct X as (m & J). exists m. rewrite in_app_iff. tauto.
  - intros l t. rewrite O, waiting_app, (w_wait s w). apply OW.
  - exact QU.
Qed.

(** ** what the operations below the application leave alone *)
Definition Same (s s' : st) : Prop := flag s' = flag s /\ exist s' = exist s /\ (tick s <= tick s')%nat /\ (exists es, out s' = out s ++ es /\ quiet es) /\
  forall l t, e_type (tsl s' l t) = e_type (tsl s l t) /\ e_q (tsl s' l t) = e_q (tsl s l t) /\ e_tmr (tsl s' l t) = e_tmr (tsl s l t) /\
    (e_type (tsl s l t) = TS_SIGN -> e_lapd (tsl s l t) = true -> e_lapd (tsl s' l t) = true).
Lemma same_refl s : Same s s.
Proof. unfold Same. do 3 (split; [easy|]). split; [exists []; split; [now rewrite app_nil_r|now intros l]|]. intros. auto. Qed.
Lemma same_trans a b c : Same a b -> Same b c -> Same a c.
Proof.
  intros (A1 & A2 & A3 & (e1 & O1 & Q1) & A5) (B1 & B2 & B3 & (e2 & O2 & Q2) & B5). unfold Same. rewrite B1, B2. do 2 (split; [easy|]). split; [lia|]. split.
  - exists (e1 ++ e2). rewrite O2, O1, app_assoc. split; [easy|]. intros l I. apply in_app_iff in I as [I|I]; [now apply Q1 in I|now apply Q2 in I].
  - intros l t. destruct (A5 l t) as (P1 & P2 & P3 & P4). destruct (B5 l t) as (R1 & R2 & R3 & R4). rewrite R1, R2, R3. do 3 (split; [easy|]). rewrite <- P1 in *. auto.
Qed.
Lemma same_one s s' l t es x' : (forall l' t', tsl s' l' t' = if here l t l' t' then x' else tsl s l' t') -> out s' = out s ++ es -> (tick s <= tick s')%nat ->
  flag s' = flag s -> exist s' = exist s -> quiet es -> e_type x' = e_type (tsl s l t) -> e_q x' = e_q (tsl s l t) -> e_tmr x' = e_tmr (tsl s l t) ->
  (e_type (tsl s l t) = TS_SIGN -> e_lapd (tsl s l t) = true -> e_lapd x' = true) -> Same s s'.
Proof.
  intros T O TK FL EX Q A B C D. unfold Same. rewrite FL, EX. do 2 (split; [easy|]). split; [easy|]. split; [eauto|].
  intros l' t'. rewrite T. pose proof (here_spec l t l' t') as H. destruct (here l t l' t'); [|auto]. destruct H as [-> ->]. auto.
Qed.

(** ** loss of the connection *)
Definition R (s : st) : Prop := forall l t, e_fd (tsl s l t) <> None -> e_reg (tsl s l t) = true.
Definition none (s : st) (l t : nat) : Prop := e_fd (tsl s l t) = None.
(** only descriptors disappear *)
Definition Less (s s' : st) : Prop := Same s s' /\ client s' = client s /\ fsm s' = fsm s /\ fsm_tmr s' = fsm_tmr s /\
  forall l t, tsl s' l t = tsl s l t \/ none s' l t /\ e_reg (tsl s' l t) = false /\ e_wr (tsl s' l t) = e_wr (tsl s l t) /\ e_lapd (tsl s' l t) = e_lapd (tsl s l t).
Lemma less_refl s : Less s s.
Proof. split; [apply same_refl|]. auto. Qed.
Lemma less_trans a b c : Less a b -> Less b c -> Less a c.
Proof.
  intros (A1 & A2 & A3 & A4 & A5) (B1 & B2 & B3 & B4 & B5). split; [eapply same_trans; eauto|]. rewrite B2, B3, B4. do 3 (split; [easy|]).
  intros l t. destruct (A5 l t) as [E|(E1 & E2 & E3 & E4)]; destruct (B5 l t) as [F|(F1 & F2 & F3 & F4)]; unfold none in *.
  - left. congruence.
  - right. rewrite F3, F4, E. auto.
  - right. rewrite F, E1, E2, E3, E4. auto.
  - right. rewrite F3, F4, E3, E4. auto.
Qed.
Lemma less_none s s' l t : Less s s' -> none s l t -> none s' l t.
Proof. intros (_ & _ & _ & _ & A) N. destruct (A l t) as [E|(E & _)]; [unfold none in *; congruence|easy]. Qed.
Lemma less_R s s' : Less s s' -> R s -> R s'.
Proof. intros (_ & _ & _ & _ & A) H l t N. destruct (A l t) as [E|(E & _)]; [rewrite E in *; now apply H|unfold none in E; congruence]. Qed.
Lemma term_ts_ok s l t : W s -> match terminate_ts s l t with Ok s' => W s' /\ Less s s' /\ none s' l t | Bad r => r = NotRegistered /\ ~ R s end.
Proof.
  intros w. unfold terminate_ts. destruct (e_fd (tsl s l t)) as [f|] eqn:F; [|split; [easy|]; split; [apply less_refl|easy]].
  destruct (e_reg (tsl s l t)) eqn:RG; [|split; [easy|]; intros H; rewrite (H l t) in RG; congruence].
  destruct (w_in s w _ _ _ F) as (P & LT & PL). rewrite RG in P.
  set (s' := emit _ _).
  assert (T : forall l' t', tsl s' l' t' = if here l t l' t' then w_fd (tsl s l t) None false else tsl s l' t') by (intros; subst s'; esg; apply upd2).
  assert (O : out s' = out s ++ [DUnreg f; DClose f]) by (subst s'; esg; now rewrite <- app_assoc).
  split; [|split].
  - eapply (change s s' l t f _ _ w T O); try (subst s'; esg; easy).
    + repeat constructor.
    + now right.
    + now left.
    + right. esg. split; [easy|]. split; [easy|]. intros q. rewrite P. intros E. injection E as <-. cbn [phase advance]. rewrite Nat.eqb_refl. reflexivity.
  - split; [|do 3 (split; [reflexivity|])].
    + eapply (same_one s s' l t _ _ T O); try (subst s'; esg; easy). intros l' [I|[I|[]]]; discriminate.
    + intros l' t'. unfold none. rewrite T. pose proof (here_spec l t l' t') as H. destruct (here l t l' t'); [|now left]. destruct H as [-> ->]. right. esg. auto.
  - unfold none. rewrite T, here_refl. reflexivity.
Qed.
Lemma each_ok (f : st -> nat -> res st) (Q : st -> nat -> Prop) ts :
  (forall s t, In t ts -> W s -> match f s t with Ok s' => W s' /\ Less s s' /\ Q s' t | Bad r => r = NotRegistered /\ ~ R s end) ->
  (forall s s' t, Less s s' -> Q s t -> Q s' t) ->
  forall s, W s -> match each f ts s with Ok s' => W s' /\ Less s s' /\ forall t, In t ts -> Q s' t | Bad r => r = NotRegistered /\ ~ R s end.
Proof.
  intros A M. assert (I : incl ts ts) by easy. revert I. generalize ts at 1 3 4. induction ts0 as [|t r IH]; intros I s w; [split; [easy|]; split; [apply less_refl|easy]|].
  cbn [each]. pose proof (A s t (I t (or_introl eq_refl)) w) as H. destruct (f s t) as [s1|]; [|easy]. destruct H as (w1 & L1 & Q1).
  assert (I' : incl r ts) by (intros x X; apply I; now right).
  specialize (IH I' s1 w1). destruct (each f r s1) as [s2|].
  - destruct IH as (w2 & L2 & Q2). split; [easy|]. split; [eapply less_trans; eauto|]. intros x [<-|X]; [eapply M; eauto|auto].
  - destruct IH as [-> N]. split; [easy|]. intros H. apply N. eapply less_R; eauto.
Qed.
Lemma term_line_ok s l : W s -> match terminate_line s l with Ok s' => W s' /\ Less s s' /\ (forall t, (1 <= t < 32)%nat -> none s' l t) | Bad r => r = NotRegistered /\ ~ R s end.
Proof.
  intros w. unfold terminate_line. pose proof (each_ok (fun s t => terminate_ts s l t) (fun s t => none s l t) slots) as E.
  specialize (E (fun s t _ w => term_ts_ok s l t w) (fun s s' t => less_none s s' l t) s w). destruct (each _ slots s) as [s'|]; [|easy].
  destruct E as (A & B & C). split; [easy|]. split; [easy|]. intros t T. apply C. unfold slots. apply in_seq. lia.
Qed.
Lemma w_ctl s c f tm : W s -> W (set_fsm s c f tm).
Proof. intros w. apply (keep s _ []); auto; try easy; [esg; now rewrite app_nil_r|apply w]. Qed.
Lemma w_emit s e : W s -> about e = None -> sender e = None -> (forall l, e <> DUpdate l) -> (forall l t q, passes l t q e = Some q) -> W (emit s e).
Proof.
  intros w A S U P. apply (keep s _ [e]); auto.
  - intros l [I|[]]. now apply (U l).
  - intros x l t f [<-|[]]. congruence.
  - intros l t. cbn [waiting]. now rewrite P.
  - apply w.
Qed.
Lemma lost_ok s : W s -> match conn_lost s with
  | Ok s' => W s' /\ Same s s' /\ (fsm s <> Some true -> s' = s) /\
     (fsm s = Some true -> fsm s' = Some false /\ fsm_tmr s' = true /\ client s' = false /\ (forall l t, none s' l t) /\
        forall l t, e_wr (tsl s' l t) = e_wr (tsl s l t) /\ e_lapd (tsl s' l t) = e_lapd (tsl s l t))
  | Bad r => r = NotRegistered /\ ~ R s end.
Proof.
  intros w. unfold conn_lost.
  assert (SS : W s /\ Same s s /\ (fsm s <> Some true -> s = s)) by (split; [easy|]; split; [apply same_refl|easy]).
  destruct (fsm s) as [[|]|] eqn:F; try (split; [easy|]; split; [apply same_refl|]; split; [easy|discriminate]). clear SS.
  set (s0 := if client s then _ else s).
  assert (w0 : W s0 /\ Same s s0 /\ client s0 = false /\ fsm s0 = Some true /\ (R s -> R s0) /\ tsl s0 = tsl s).
  { subst s0. destruct (client s) eqn:C; [|split; [easy|]; split; [apply same_refl|easy]]. split; [apply w_emit; [now apply w_ctl|easy..]|]. split; [|split; [easy|split; [esg; easy|split; [|esg; easy]]]].
    - unfold Same. esg. do 3 (split; [easy|]). split; [|auto]. exists [DClient false]. split; [easy|]. intros l [I|[]]; discriminate.
    - intros H. unfold R. esg. exact H. }
  destruct w0 as (w0 & S0 & C0 & F0 & R0 & T0). clearbody s0.
  pose proof (each_ok (fun s l => if flag s l && exist s l then terminate_line s l else Ok s)
    (fun s l => flag s l = true -> exist s l = true -> forall t, (1 <= t < 32)%nat -> none s l t) all_lines) as E.
  assert (E1 : forall s t, In t all_lines -> W s -> match (if flag s t && exist s t then terminate_line s t else Ok s) with Ok s' => W s' /\ Less s s' /\ (flag s' t = true -> exist s' t = true -> forall u, (1 <= u < 32)%nat -> none s' t u) | Bad r => r = NotRegistered /\ ~ R s end).
  { intros s1 l _ w1. destruct (flag s1 l && exist s1 l) eqn:FE.
    - pose proof (term_line_ok s1 l w1) as H. destruct (terminate_line s1 l) as [s2|]; [|easy]. destruct H as (A & B & C). auto.
    - split; [easy|]. split; [apply less_refl|]. intros A B. rewrite A, B in FE. discriminate. }
  specialize (E E1). clear E1.
  assert (E2 : forall s s' t, Less s s' -> (flag s t = true -> exist s t = true -> forall u, (1 <= u < 32)%nat -> none s t u) -> flag s' t = true -> exist s' t = true -> forall u, (1 <= u < 32)%nat -> none s' t u).
  { intros a b l L H A B u U. eapply less_none; eauto. destruct L as ((P1 & P2 & _) & _). apply H; [rewrite <- P1|rewrite <- P2|]; auto. }
  specialize (E E2 s0 w0). clear E2. destruct (each _ all_lines s0) as [s1|]; [|destruct E; split; [easy|]; tauto].
  destruct E as (w1 & L1 & Q1). split; [now apply w_ctl|]. split.
  - eapply same_trans; [exact S0|]. eapply same_trans; [apply L1|]. unfold Same. esg. do 3 (split; [easy|]). split; [exists []; split; [now rewrite app_nil_r|now intros ?]|auto].
  - split; [congruence|]. intros _. esg. do 2 (split; [easy|]). destruct L1 as (_ & -> & _ & _ & L1). split; [easy|]. split.
    + intros l t. unfold none. esg. destruct (e_fd (tsl s1 l t)) as [f|] eqn:N; [|easy]. destruct (w_in s1 w1 _ _ _ N) as (_ & _ & A & B & C & D).
      assert (X : none s1 l t) by (apply Q1; auto; unfold all_lines; apply in_seq; lia). unfold none in X. congruence.
    + intros l t. rewrite <- T0. destruct (L1 l t) as [->|(_ & _ & -> & ->)]; auto.
Qed.

(** ** line update *)
Definition Conn (s : st) : Prop := fsm s = Some true /\ client s = true /\ fsm_tmr s = false.
Definition Lost (s : st) : Prop := fsm s = Some false /\ fsm_tmr s = true /\ client s = false /\ forall l t, none s l t.
Lemma lost_conn s : W s -> Conn s -> match conn_lost s with
  | Ok s' => W s' /\ Same s s' /\ Lost s' /\ (forall l t, e_wr (tsl s' l t) = e_wr (tsl s l t) /\ e_lapd (tsl s' l t) = e_lapd (tsl s l t))
  | Bad r => r = NotRegistered /\ ~ R s end.
Proof.
  intros w (F & _). pose proof (lost_ok s w) as H. destruct (conn_lost s) as [s'|]; [|easy]. destruct H as (A & B & _ & C). destruct (C F) as (C1 & C2 & C3 & C4 & C5). unfold Lost. auto 10.
Qed.
(** only timeslot (l, t) changes *)
Definition One (s s' : st) (l t : nat) : Prop := Same s s' /\ client s' = client s /\ fsm s' = fsm s /\ fsm_tmr s' = fsm_tmr s /\
  forall l' t', here l t l' t' = false -> tsl s' l' t' = tsl s l' t'.
Lemma one_refl s l t : One s s l t. Proof. split; [apply same_refl|auto]. Qed.
Lemma one_trans a b c l t : One a b l t -> One b c l t -> One a c l t.
Proof. intros (A1 & A2 & A3 & A4 & A5) (B1 & B2 & B3 & B4 & B5). split; [eapply same_trans; eauto|]. rewrite B2, B3, B4. do 3 (split; [easy|]). intros l' t' H. now rewrite B5, A5. Qed.
Lemma one_conn s s' l t : One s s' l t -> Conn s -> Conn s'.
Proof. intros (_ & A & B & C & _). unfold Conn. now rewrite A, B, C. Qed.
Lemma one_place s s' l t a b : One s s' l t -> place s a b -> place s' a b.
Proof. intros ((A & B & _) & _). unfold place. now rewrite A, B. Qed.
Lemma one_R s s' l t : One s s' l t -> none s' l t -> R s -> R s'.
Proof.
  intros (_ & _ & _ & _ & A) N H l' t' E. pose proof (here_spec l t l' t') as X. destruct (here l t l' t') eqn:HH.
  - destruct X as [-> ->]. unfold none in N. congruence.
  - rewrite A in * by easy. now apply H.
Qed.
Lemma same_in s s' e : Same s s' -> In e (out s) -> In e (out s').
Proof. intros (_ & _ & _ & (es & O & _) & _) I. rewrite O, in_app_iff. tauto. Qed.
Lemma change_one s s' l t f es x' :
  W s -> (forall l' t', tsl s' l' t' = if here l t l' t' then x' else tsl s l' t') -> out s' = out s ++ es -> (tick s <= tick s')%nat ->
  flag s' = flag s -> exist s' = exist s -> client s' = client s -> fsm s' = fsm s -> fsm_tmr s' = fsm_tmr s ->
  Forall (fun e => about e = Some f) es ->
  e_type x' = e_type (tsl s l t) -> e_q x' = e_q (tsl s l t) -> e_tmr x' = e_tmr (tsl s l t) ->
  (e_type (tsl s l t) = TS_SIGN -> e_lapd (tsl s l t) = true -> e_lapd x' = true) ->
  (e_fd (tsl s l t) = None \/ e_fd (tsl s l t) = Some f) -> (e_fd (tsl s l t) = Some f \/ (tick s <= f)%nat) -> (f < tick s')%nat ->
  (e_fd x' = Some f /\ place s l t /\ (forall q, ph f s = Some q -> phase f q es = Some (if e_reg x' then 2%nat else 1%nat)) /\
     (e_fd (tsl s l t) = Some f \/ exists m, In (DOpen l t m f) es) \/
   e_fd x' = None /\ e_reg x' = false /\ (forall q, ph f s = Some q -> phase f q es = Some 3%nat)) -> W s' /\ One s s' l t /\ tsl s' l t = x'.
Proof.
  intros w T O TK FL EX CL FS FT AB TY QQ TM LA OLD FR LT C. split; [|split].
  - eapply change; eauto.
  - split; [eapply same_one; eauto; now apply about_other in AB|]. do 3 (split; [easy|]). intros l' t' H. now rewrite T, H.
  - now rewrite T, here_refl.
Qed.
Lemma unreg_ok s l t : W s -> let s' := unreg_ts s l t in W s' /\ One s s' l t /\ tsl s' l t = w_fd (tsl s l t) (e_fd (tsl s l t)) false.
Proof.
  intros w. cbv zeta. unfold unreg_ts. destruct (e_fd (tsl s l t)) as [f|] eqn:F; [destruct (e_reg (tsl s l t)) eqn:RG|].
  - destruct (w_in s w _ _ _ F) as (P & LT & PL). rewrite RG in P. apply (change_one s _ l t f [DUnreg f] _ w); try (esg; easy).
    + intros. esg. apply upd2.
    + repeat constructor.
    + now right.
    + now left.
    + left. esg. split; [easy|]. split; [easy|]. split; [|now left]. intros q. rewrite P. intros E. injection E as <-. cbn [phase advance]. now rewrite Nat.eqb_refl.
  - split; [easy|]. split; [apply one_refl|]. destruct (tsl s l t). es. congruence.
  - split; [easy|]. split; [apply one_refl|]. pose proof (w_none s w _ _ F). destruct (tsl s l t). es. congruence.
Qed.
Lemma close_ok s l t : W s -> e_reg (tsl s l t) = false -> let s' := close_ts s l t in W s' /\ One s s' l t /\ tsl s' l t = w_fd (tsl s l t) None false.
Proof.
  intros w RG. cbv zeta. unfold close_ts. destruct (e_fd (tsl s l t)) as [f|] eqn:F.
  - destruct (w_in s w _ _ _ F) as (P & LT & PL). rewrite RG in P. rewrite RG. apply (change_one s _ l t f [DClose f] _ w); try (esg; easy).
    + intros. esg. apply upd2.
    + repeat constructor.
    + now right.
    + now left.
    + right. esg. split; [easy|]. split; [easy|]. intros q. rewrite P. intros E. injection E as <-. cbn [phase advance]. now rewrite Nat.eqb_refl.
  - split; [easy|]. split; [apply one_refl|]. destruct (tsl s l t). es. congruence.
Qed.
(** fields that are not about descriptors *)
Lemma plain_ok s l t x' : W s -> e_type x' = e_type (tsl s l t) -> e_q x' = e_q (tsl s l t) -> e_tmr x' = e_tmr (tsl s l t) -> e_fd x' = e_fd (tsl s l t) -> e_reg x' = e_reg (tsl s l t) ->
  (e_type (tsl s l t) = TS_SIGN -> e_lapd (tsl s l t) = true -> e_lapd x' = true) ->
  let s' := set_ts s l t x' in W s' /\ One s s' l t /\ tsl s' l t = x'.
Proof.
  intros w A B C D E F. cbv zeta. assert (T : forall l' t', tsl (set_ts s l t x') l' t' = if here l t l' t' then x' else tsl s l' t') by (intros; esg; apply upd2).
  split; [|split].
  - apply (keep s _ []); auto; try easy.
    + intros l' t'. rewrite T. pose proof (here_spec l t l' t') as H. destruct (here l t l' t'); [destruct H as [-> ->]; auto|auto].
    + esg. now rewrite app_nil_r.
    + intros l' t'. rewrite T. pose proof (here_spec l t l' t') as H. destruct (here l t l' t'); [destruct H as [-> ->]; cbn; congruence|easy].
    + intros l' t'. rewrite T. destruct (here l t l' t'); [rewrite A, B|]; apply w.
  - split.
    + apply (same_one s _ l t [] x'); auto; try easy. esg. now rewrite app_nil_r.
    + do 3 (split; [easy|]). intros l' t' H. now rewrite T, H.
  - now rewrite T, here_refl.
Qed.
Lemma next_ok s l t : W s -> W (next s) /\ One s (next s) l t /\ tsl (next s) = tsl s.
Proof.
  intros w. split; [|split; [|easy]].
  - apply (keep s _ []); auto; try easy; esg; [now rewrite app_nil_r|lia|apply w].
  - split; [|easy]. unfold Same. esg. do 2 (split; [easy|]). split; [lia|]. split; [exists []; split; [now rewrite app_nil_r|now intros ?]|auto].
Qed.
(** what a turn of the loop leaves *)
Definition set_up (info : list mode) (s s' : st) (l t : nat) : Prop :=
  let x := tsl s l t in let x' := tsl s' l t in
  match e_type x with
  | TS_NONE => e_fd x' = None /\ e_lapd x' = false
  | ty => if (length info <=? t)%nat then e_fd x' = e_fd x /\ e_reg x' = false else
          e_reg x' = true /\ e_wr x' = false /\ e_lapd x' = type_eqb ty TS_SIGN /\
          exists f, e_fd x' = Some f /\ ((exists m, In (DOpen l t m f) (out s') /\ needs ty m) \/ e_fd x = Some f /\ exists m, nth_error info t = Some m /\ needs ty m)
  end.
Lemma mode_eqb_spec a b : Bool.reflect (a = b) (mode_eqb a b).
Proof. destruct a, b; constructor; congruence. Qed.
Lemma needs_mode ty : ty <> TS_NONE -> needs ty (mode_of ty).
Proof. now destruct ty. Qed.
Definition turned (d : daemon) (info : list mode) (s s' : st) (l t : nat) (o : option Z) : Prop :=
  W s' /\ Same s s' /\
  (One s s' l t /\ o = None /\ set_up info s s' l t \/
   One s s' l t /\ o = Some (-1) /\ none s' l t /\ (exists k, (tick s <= k)%nat /\ d_reg d k = false) \/
   Lost s' /\ o = Some (-5) /\ exists k, (tick s <= k)%nat /\ d_open d k = false).
Lemma match_ok info s l t : W s -> e_reg (tsl s l t) = false -> let ty := e_type (tsl s l t) in let s' := match_ts info s l t ty in
  W s' /\ One s s' l t /\ e_type (tsl s' l t) = ty /\ (e_fd (tsl s' l t) = None \/ e_fd (tsl s' l t) = e_fd (tsl s l t) /\ nth t info OTHER = mode_of ty) /\
  e_reg (tsl s' l t) = false /\ (ty <> TS_SIGN -> e_lapd (tsl s' l t) = false).
Proof.
  intros w G. cbv zeta. unfold match_ts. set (s2 := if type_eqb _ TS_SIGN then s else _).
  assert (H2 : W s2 /\ One s s2 l t /\ e_type (tsl s2 l t) = e_type (tsl s l t) /\ e_fd (tsl s2 l t) = e_fd (tsl s l t) /\ e_reg (tsl s2 l t) = false /\ (e_type (tsl s l t) <> TS_SIGN -> e_lapd (tsl s2 l t) = false)).
  { subst s2. destruct (type_eqb_spec (e_type (tsl s l t)) TS_SIGN) as [TS|TS].
    - split; [easy|]. split; [apply one_refl|]. easy.
    - destruct (plain_ok s l t (w_lapd (tsl s l t) false) w) as (w2 & O2 & T2); try (now esg). split; [easy|]. split; [easy|]. rewrite T2. now esg. }
  clearbody s2. destruct H2 as (w2 & O2 & TY2 & F2 & G2 & L2).
  destruct (mode_eqb_spec (nth t info OTHER) (mode_of (e_type (tsl s l t)))) as [M|M].
  - split; [easy|]. split; [easy|]. split; [easy|]. split; [right; auto|]. auto.
  - destruct (close_ok s2 l t w2 G2) as (w3 & O3 & T3). split; [easy|]. split; [eapply one_trans; eauto|]. rewrite T3. esg. auto.
Qed.
Lemma reg_ok d info s0 s l t fd : W s -> One s0 s l t -> place s l t -> e_type (tsl s l t) <> TS_NONE -> (t < length info)%nat -> e_type (tsl s l t) = e_type (tsl s0 l t) ->
  e_fd (tsl s l t) = Some fd -> e_reg (tsl s l t) = false -> (e_type (tsl s l t) <> TS_SIGN -> e_lapd (tsl s l t) = false) ->
  ((exists m, In (DOpen l t m fd) (out s) /\ needs (e_type (tsl s l t)) m) \/ e_fd (tsl s0 l t) = Some fd /\ exists m, nth_error info t = Some m /\ needs (e_type (tsl s l t)) m) ->
  let (s', o) := reg_ts d s l t (e_type (tsl s l t)) fd in turned d info s0 s' l t o.
Proof.
  intros w O PL TN LI TY F G L D. unfold reg_ts. cbv zeta. set (x := if type_eqb (e_type (tsl s l t)) TS_SIGN then _ else _).
  assert (X : e_type x = e_type (tsl s l t) /\ e_q x = e_q (tsl s l t) /\ e_tmr x = e_tmr (tsl s l t) /\ e_fd x = e_fd (tsl s l t) /\ e_reg x = e_reg (tsl s l t) /\ e_lapd x = type_eqb (e_type (tsl s l t)) TS_SIGN /\ e_wr x = false).
  { subst x. destruct (type_eqb_spec (e_type (tsl s l t)) TS_SIGN) as [TS|TS]; esg; auto 10. }
  destruct X as (X1 & X2 & X3 & X4 & X5 & X6 & X7). clearbody x.
  destruct (w_in s w l t fd F) as (P & LT & _). rewrite G in P.
  assert (LA : e_type (tsl s l t) = TS_SIGN -> e_lapd (tsl s l t) = true -> e_lapd x = true) by (intros E _; now rewrite X6, E).
  assert (TK0 : (tick s0 <= tick s)%nat) by apply O.
  unfold turned. destruct (d_reg d (tick s)) eqn:DR.
  - set (s6 := emit _ _). destruct (change_one s s6 l t fd [DReg fd] (w_fd x (Some fd) true) w) as (w6 & O6 & T6); try (subst s6; esg; (easy || lia || congruence)).
    + intros. subst s6. esg. apply upd2.
    + repeat constructor.
    + now right.
    + now left.
    + left. esg. split; [easy|]. split; [easy|]. split; [|now left]. intros q. rewrite P. intros E. injection E as <-. cbn [phase advance]. now rewrite Nat.eqb_refl.
    + assert (OO : One s0 s6 l t) by (eapply one_trans; eauto). split; [easy|]. split; [apply OO|]. left. split; [easy|]. split; [easy|].
      unfold set_up. cbv zeta. apply Nat.leb_gt in LI. rewrite LI, T6. esg.
      assert (D6 : (exists m, In (DOpen l t m fd) (out s6) /\ needs (e_type (tsl s l t)) m) \/ e_fd (tsl s0 l t) = Some fd /\ exists m, nth_error info t = Some m /\ needs (e_type (tsl s l t)) m).
      { destruct D as [(m & I & N)|D]; [left; exists m; split; [|easy]|now right]. eapply same_in; [apply O6|exact I]. }
      rewrite <- TY. rewrite X6, X7. destruct (e_type (tsl s l t)); try congruence; eauto 10.
  - set (s6 := emit _ _). destruct (change_one s s6 l t fd [DClose fd] (w_fd x None false) w) as (w6 & O6 & T6); try (subst s6; esg; (easy || lia || congruence)).
    + intros. subst s6. esg. apply upd2.
    + repeat constructor.
    + now right.
    + now left.
    + right. esg. split; [easy|]. split; [easy|]. intros q. rewrite P. intros E. injection E as <-. cbn [phase advance]. now rewrite Nat.eqb_refl.
    + assert (OO : One s0 s6 l t) by (eapply one_trans; eauto). split; [easy|]. split; [apply OO|]. right. left. split; [easy|]. split; [easy|]. split; [unfold none; now rewrite T6; esg|]. eauto.
Qed.
Lemma update_ts_ok d info s l t : W s -> Conn s -> place s l t ->
  match update_ts d info s l t with Ok (s', o) => turned d info s s' l t o | Bad r => r = NotRegistered /\ ~ R s end.
Proof.
  intros w CN PL. unfold update_ts. destruct (unreg_ok s l t w) as (w1 & O1 & T1). cbv zeta. set (s1 := unreg_ts s l t) in *. clearbody s1.
  assert (TY : e_type (tsl s1 l t) = e_type (tsl s l t)) by (rewrite T1; now esg). assert (F1 : e_fd (tsl s1 l t) = e_fd (tsl s l t)) by (rewrite T1; now esg).
  assert (G1 : e_reg (tsl s1 l t) = false) by (rewrite T1; now esg).
  destruct (type_eqb_spec (e_type (tsl s1 l t)) TS_NONE) as [TN|TN].
  { cbn [negb andb]. destruct (plain_ok s1 l t (w_lapd (tsl s1 l t) false) w1) as (w2 & O2 & T2); try (now esg); [congruence|].
    assert (G2 : e_reg (tsl (set_ts s1 l t (w_lapd (tsl s1 l t) false)) l t) = false) by (rewrite T2; now esg).
    destruct (close_ok _ l t w2 G2) as (w3 & O3 & T3). set (s3 := close_ts _ l t) in *. clearbody s3.
    assert (O : One s s3 l t) by (eapply one_trans; [exact O1|]; eapply one_trans; eauto). split; [easy|]. split; [apply O|]. left. split; [easy|]. split; [easy|].
    unfold set_up. cbv zeta. rewrite <- TY, TN, T3, T2. now esg. }
  cbn [negb andb]. destruct (Nat.leb_spec (length info) t) as [LI|LI].
  { split; [easy|]. split; [apply O1|]. left. split; [easy|]. split; [easy|]. unfold set_up. cbv zeta. apply Nat.leb_le in LI. rewrite LI, <- TY, F1, G1. destruct (e_type (tsl s1 l t)); (congruence || easy). }
  destruct (match_ok info s1 l t w1 G1) as (w3 & O3' & TY3 & F3 & G3 & L3). set (s3 := match_ts _ _ _ _ _) in *. clearbody s3.
  assert (O3 : One s s3 l t) by (eapply one_trans; eauto). assert (PL3 : place s3 l t) by (eapply one_place; eauto). rewrite <- TY3 in *.
  assert (TK3 : (tick s <= tick s3)%nat) by apply O3.
  destruct (e_fd (tsl s3 l t)) as [fd|] eqn:E3.
  - pose proof (reg_ok d info s s3 l t fd w3 O3 PL3 TN LI TY E3 G3 L3) as H. destruct (reg_ts d s3 l t (e_type (tsl s3 l t)) fd) as [s' o]. apply H.
    destruct F3 as [F3|(F3 & M)]; [discriminate|]. right. split; [congruence|]. exists (mode_of (e_type (tsl s3 l t))). split; [|now apply needs_mode].
    rewrite <- M. now apply nth_error_nth'.
  - destruct (d_open d (tick s3)) eqn:DO.
    + set (s4 := emit _ _). destruct (change_one s3 s4 l t (tick s3) [DOpen l t (mode_of (e_type (tsl s3 l t))) (tick s3)] (w_fd (tsl s3 l t) (Some (tick s3)) false) w3) as (w4 & O4 & T4); try (subst s4; esg; (easy || lia || congruence)).
      * intros. subst s4. esg. apply upd2.
      * repeat constructor.
      * now left.
      * left. esg. split; [easy|]. split; [easy|]. split; [|right; exists (mode_of (e_type (tsl s3 l t))); now left]. destruct (w_new s3 (tick s3) w3 (le_n _)) as (P & _). intros q. rewrite P. intros E. injection E as <-. cbn [phase advance]. now rewrite Nat.eqb_refl.
      * assert (TY4 : e_type (tsl s4 l t) = e_type (tsl s3 l t)) by (rewrite T4; now esg).
        assert (D4 : exists m, In (DOpen l t m (tick s3)) (out s4) /\ needs (e_type (tsl s4 l t)) m).
        { rewrite TY4. exists (mode_of (e_type (tsl s3 l t))). split; [|now apply needs_mode]. subst s4. esg. rewrite in_app_iff. right. now left. }
        clearbody s4. rewrite <- TY4. pose proof (reg_ok d info s s4 l t (tick s3) w4 (one_trans _ _ _ _ _ O3 O4)) as H. destruct (reg_ts d s4 l t (e_type (tsl s4 l t)) (tick s3)) as [s' o].
        apply H; auto; try congruence; try (rewrite T4; esg; auto; fail). eapply one_place; eauto.
    + destruct (next_ok s3 l t w3) as (w4 & O4 & T4). assert (O : One s (next s3) l t) by (eapply one_trans; eauto).
      assert (CN4 : Conn (next s3)) by (eapply one_conn; eauto). pose proof (lost_conn (next s3) w4 CN4) as H. destruct (conn_lost (next s3)) as [s5|].
      * destruct H as (w5 & S5 & LO & _). split; [easy|]. split; [eapply same_trans; [apply O|exact S5]|]. right. right. split; [easy|]. split; [easy|]. eauto.
      * destruct H as [-> N]. split; [easy|]. intros RR. apply N. eapply one_R; eauto.
Qed.
Lemma lost_R s : Lost s -> R s.
Proof. intros (_ & _ & _ & N) l t E. exfalso. apply E. apply N. Qed.
Lemma turned_R d info s s' l t o : turned d info s s' l t o -> (t < length info)%nat -> R s -> R s'.
Proof.
  intros (w & S & [(O & _ & U)|[(O & _ & N & _)|(L & _)]]) LI RR.
  - destruct O as (_ & _ & _ & _ & A). intros l' t' E. pose proof (here_spec l t l' t') as H. destruct (here l t l' t') eqn:HH; [|rewrite A in * by easy; now apply RR].
    destruct H as [-> ->]. unfold set_up in U. cbv zeta in U. apply Nat.leb_gt in LI. rewrite LI in U. destruct (e_type (tsl s l t)); tauto.
  - eapply one_R; eauto.
  - now apply lost_R.
Qed.
Definition apart (l : nat) (ts : list nat) (s s' : st) : Prop := forall l' t', l' <> l \/ ~ In t' ts -> tsl s' l' t' = tsl s l' t'.
Definition looped (d : daemon) (info : list mode) (l : nat) (ts : list nat) (s s' : st) (rc : Z) : Prop :=
  W s' /\ Same s s' /\ (R s -> (forall t, In t ts -> (t < length info)%nat) -> R s') /\
  (Conn s' /\ apart l ts s s' /\ (rc = 0 /\ (forall t, In t ts -> set_up info s s' l t) \/ rc = -1 /\ exists k, (tick s <= k)%nat /\ d_reg d k = false) \/
   Lost s' /\ rc = -5 /\ exists k, (tick s <= k)%nat /\ d_open d k = false).
Lemma set_up_ext info s s1 s2 l t : set_up info s s1 l t -> Same s1 s2 -> tsl s2 l t = tsl s1 l t -> set_up info s s2 l t.
Proof.
  unfold set_up. cbv zeta. intros H S T. rewrite T.
  assert (I : forall m f, In (DOpen l t m f) (out s1) -> In (DOpen l t m f) (out s2)) by (intros; eapply same_in; eauto).
  destruct (e_type (tsl s l t)); try exact H; (destruct (length info <=? t)%nat; [exact H|]; destruct H as (A & B & C & f & D & E); do 3 (split; [easy|]); exists f; split; [easy|];
  destruct E as [(m & E1 & E2)|E]; [left; exists m; auto|now right]).
Qed.
Lemma update_loop_ok d info l ts : NoDup ts -> forall s, W s -> Conn s -> (forall t, In t ts -> place s l t) ->
  match update_loop d info l ts s with Ok (s', rc) => looped d info l ts s s' rc | Bad r => r = NotRegistered /\ ~ (R s /\ forall t, In t ts -> (t < length info)%nat) end.
Proof.
  induction 1 as [|t r NI ND IH]; intros s w CN PL.
  - cbn [update_loop]. split; [easy|]. split; [apply same_refl|]. split; [easy|]. left. split; [easy|]. split; [easy|]. left. easy.
  - cbn [update_loop]. pose proof (update_ts_ok d info s l t w CN (PL t (or_introl eq_refl))) as H. destruct (update_ts d info s l t) as [[s1 o]|]; [|destruct H; split; [easy|]; tauto].
    cbn [fst snd]. pose proof (turned_R _ _ _ _ _ _ _ H) as TR. destruct H as (w1 & S1 & [(O & -> & U)|[(O & -> & N & K)|(L & -> & K)]]).
    + assert (PL1 : forall t', In t' r -> place s1 l t') by (intros t' I; eapply one_place; [exact O|]; apply PL; now right).
      specialize (IH s1 w1 (one_conn _ _ _ _ O CN) PL1). destruct (update_loop d info l r s1) as [[s2 rc]|].
      * destruct IH as (w2 & S2 & R2 & C2). split; [easy|]. split; [eapply same_trans; eauto|]. split.
        { intros RR LI. apply R2; [apply TR; [apply LI; now left|easy]|]. intros t' I. apply LI. now right. }
        destruct C2 as [(CN2 & A2 & C2)|(L2 & -> & k & K1 & K2)].
        -- left. split; [easy|]. destruct O as (_ & _ & _ & _ & O). split.
           { intros l' t' Hn. rewrite A2 by (destruct Hn as [?|Hn]; [now left|right; intros ?; apply Hn; now right]).
             apply O. pose proof (here_spec l t l' t') as Hh. destruct (here l t l' t'); [|easy]. destruct Hh as [-> ->]. exfalso. destruct Hn as [Hn|Hn]; [easy|]. apply Hn. now left. }
           destruct C2 as [(-> & C2)|(-> & k & K1 & K2)].
           ++ left. split; [easy|]. intros t' [<-|I].
              ** eapply set_up_ext; eauto.
              ** specialize (C2 t' I). unfold set_up in *. cbv zeta in *. rewrite (O l t') in C2; [exact C2|]. pose proof (here_spec l t l t') as Hh. destruct (here l t l t'); [|easy]. destruct Hh as [_ ->]. easy.
           ++ right. split; [easy|]. exists k. split; [|easy]. destruct S1 as (_ & _ & ? & _). lia.
        -- right. split; [easy|]. split; [easy|]. exists k. split; [|easy]. destruct S1 as (_ & _ & ? & _). lia.
      * destruct IH as (-> & IH). split; [easy|]. intros (RR & LI). apply IH. split; [apply TR; [apply LI; now left|easy]|]. intros t' I. apply LI. now right.
    + split; [easy|]. split; [easy|]. split; [intros RR LI; apply TR; [apply LI; now left|easy]|]. left. split; [eapply one_conn; eauto|]. destruct O as (_ & _ & _ & _ & O). split; [|now right].
      intros l' t' Hn. apply O. pose proof (here_spec l t l' t') as Hh. destruct (here l t l' t'); [|easy]. destruct Hh as [-> ->]. exfalso. destruct Hn as [Hn|Hn]; [easy|]. apply Hn. now left.
    + split; [easy|]. split; [easy|]. split; [intros RR LI; apply TR; [apply LI; now left|easy]|]. now right.
Qed.
(** :685-815 *)
Definition wide_at (d : daemon) (k : nat) : Prop := forall i, d_query d k = Some i -> (32 <= length i)%nat.
Definition updated (d : daemon) (l : nat) (s s' : st) (rc : Z) : Prop :=
  W s' /\ Same s s' /\ (R s -> wide_at d (tick s) -> R s') /\
  (Conn s' /\ apart l slots s s' /\
     (rc = 0 /\ (exists info, d_query d (tick s) = Some info /\ forall t, (1 <= t < 32)%nat -> set_up info s s' l t) \/ rc = -1 /\ exists k, (tick s <= k)%nat /\ d_reg d k = false) \/
   Lost s' /\ (rc = -5 /\ (exists k, (tick s <= k)%nat /\ d_open d k = false) \/ rc = 0 /\ d_query d (tick s) = None)).
Lemma slots_in t : In t slots <-> (1 <= t < 32)%nat.
Proof. unfold slots. rewrite in_seq. lia. Qed.
Lemma update_body_ok d s l : W s -> Conn s -> flag s l = true ->
  match update_body d s l with Ok (s', rc) => updated d l s s' rc | Bad r => r = NotRegistered /\ ~ (R s /\ wide_at d (tick s)) end.
Proof.
  intros w CN FL. unfold update_body. destruct CN as (F & CN'). rewrite F. assert (CN : Conn s) by (split; easy).
  destruct (next_ok s l 0%nat w) as (w1 & O1 & T1). assert (CN1 : Conn (next s)) by (eapply one_conn; eauto).
  assert (RN : R s -> R (next s)) by (unfold R; now rewrite T1). assert (S1 : Same s (next s)) by apply O1.
  destruct (d_query d (tick s)) as [info|] eqn:Q.
  - assert (PL : forall t, In t slots -> place (next s) l t).
    { intros t I. apply slots_in in I. eapply one_place; [exact O1|]. pose proof (w_flag s w l FL) as EX. pose proof (w_ex s w l EX). unfold place. repeat split; try easy; lia. }
    pose proof (update_loop_ok d info l slots (seq_NoDup _ _) (next s) w1 CN1 PL) as H. destruct (update_loop d info l slots (next s)) as [[s2 rc]|].
    + destruct H as (w2 & S2 & R2 & C2). split; [easy|]. split; [eapply same_trans; eauto|]. split.
      { intros RR WD. apply R2; [auto|]. intros t I. apply slots_in in I. specialize (WD _ Q). lia. }
      destruct C2 as [(CN2 & A2 & [(-> & U)|(-> & k & K1 & K2)])|(L2 & -> & k & K1 & K2)].
      * left. split; [easy|]. split; [intros l' t' Hn; now rewrite A2, T1|]. left. split; [easy|]. exists info. split; [easy|]. intros t I. apply slots_in in I. specialize (U t I). unfold set_up in *. now rewrite T1 in U.
      * left. split; [easy|]. split; [intros l' t' Hn; now rewrite A2, T1|]. right. split; [easy|]. exists k. split; [|easy]. cbn [tick next] in K1. lia.
      * right. split; [easy|]. left. split; [easy|]. exists k. split; [|easy]. cbn [tick next] in K1. lia.
    + destruct H as [-> N]. split; [easy|]. intros (RR & WD). apply N. split; [auto|]. intros t I. apply slots_in in I. specialize (WD _ Q). lia.
  - pose proof (lost_conn (next s) w1 CN1) as H. destruct (conn_lost (next s)) as [s2|].
    + destruct H as (w2 & S2 & L2 & _). split; [easy|]. split; [eapply same_trans; eauto|]. split; [intros; now apply lost_R|]. right. split; [easy|]. now right.
    + destruct H as [-> N]. split; [easy|]. intros (RR & _). auto.
Qed.
