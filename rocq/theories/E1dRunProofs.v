(** Executions of the osmo-e1d driver model: invariants over all events. *)
From Coq Require Import List Arith Lia Bool ZArith.
From Verif Require Import Base E1Model IpaccessModel E1dModel E1dSpec E1dProofs.
Import ListNotations.
Open Scope Z_scope.

Definition Idle (s : st) : Prop := fsm s = None /\ fsm_tmr s = false /\ client s = false /\ forall l, flag s l = false.
Record Inv (s : st) : Prop := { i_w : W s; i_fsm : Conn s \/ Lost s \/ Idle s }.
(** signalling timeslots in the select loop have their LAPD instance, but for lines in [ds] *)
Definition LA (ds : list nat) (s : st) : Prop := forall l t, ~ In l ds -> e_reg (tsl s l t) = true -> e_type (tsl s l t) = TS_SIGN -> e_lapd (tsl s l t) = true.
Lemma all_none s : Inv s -> ~ Conn s -> (forall l t, none s l t) /\ client s = false /\ fsm s <> Some true.
Proof.
  intros [w [C|[(A & B & C & D)|(A & B & C & D)]]] N; [easy| |].
  - repeat split; auto; congruence.
  - repeat split; auto; try congruence. intros l t. unfold none. destruct (e_fd (tsl s l t)) as [f|] eqn:F; [|easy]. destruct (w_in s w _ _ _ F) as (_ & _ & X & _). now rewrite D in X.
Qed.
Lemma none_LA ds s : W s -> (forall l t, none s l t) -> LA ds s.
Proof. intros w N l t _ E. rewrite (w_none s w l t (N l t)) in E. discriminate. Qed.
Lemma none_R s : (forall l t, none s l t) -> R s.
Proof. intros N l t E. exfalso. apply E, N. Qed.
Lemma lost_la ds s : W s -> Lost s -> LA ds s.
Proof. intros w (_ & _ & _ & N). now apply none_LA. Qed.

Definition without (l : nat) (ds : list nat) : list nat := filter (fun x => negb (Nat.eqb x l)) ds.
Lemma without_in l ds x : In x (without l ds) <-> In x ds /\ x <> l.
Proof. unfold without. rewrite filter_In, negb_true_iff, Nat.eqb_neq. tauto. Qed.
Lemma updated_la d l s s' rc ds : registers d -> updated d l s s' rc -> LA ds s -> LA (without l ds) s'.
Proof.
  intros RG (w & S & _ & [(CN & AP & [(-> & info & Q & U)|(_ & k & _ & K)])|(L & _)]) H.
  - intros l' t' NI G TY. destruct S as (_ & _ & _ & _ & S). destruct (Nat.eq_dec l' l) as [->|NE].
    + destruct (e_fd (tsl s' l t')) as [f|] eqn:F; [|rewrite (w_none s' w _ _ F) in G; discriminate]. destruct (w_in s' w _ _ _ F) as (_ & _ & _ & _ & _ & T).
      specialize (U t' T). unfold set_up in U. cbv zeta in U. destruct (S l t') as (S1 & _). rewrite S1 in TY. rewrite TY in U. destruct (length info <=? t')%nat; [destruct U; congruence|]. destruct U as (_ & _ & U & _). now rewrite U.
    + rewrite AP in * by now left. apply H; auto. intros I. apply NI, without_in. easy.
  - now rewrite RG in K.
  - now apply lost_la.
Qed.
Definition CL (s : st) : Prop := Conn s \/ Lost s.
Lemma each_upd_ok d ls : forall s, W s -> CL s ->
  match each (fun s l => if flag s l && exist s l then try x <- update_body d s l; Ok (fst x) else Ok s) ls s with
  | Ok s' => W s' /\ Same s s' /\ CL s' /\ (R s -> wide d -> R s') /\ (registers d -> forall ds, LA ds s -> LA ds s')
  | Bad r => r = NotRegistered /\ ~ (R s /\ wide d)
  end.
Proof.
  induction ls as [|l r IH]; intros s w C; [cbn [each]; auto using same_refl|]. cbn [each]. destruct (flag s l && exist s l) eqn:FE; [|exact (IH s w C)].
  apply andb_prop in FE as [FL _].
  assert (H : match update_body d s l with Ok (s', _) => W s' /\ Same s s' /\ CL s' /\ (R s -> wide d -> R s') /\ (registers d -> forall ds, LA ds s -> LA ds s') | Bad r => r = NotRegistered /\ ~ (R s /\ wide d) end).
  { destruct C as [C|C].
    - pose proof (update_body_ok d s l w C FL) as H. destruct (update_body d s l) as [[s' rc]|].
      + pose proof (updated_la d l s s' rc) as LL. destruct H as (A & B & C1 & D). unfold updated in LL. split; [easy|]. split; [easy|]. split; [destruct D as [D|D]; [left|right]; apply D|]. split.
        * intros RR WD. apply C1; [easy|]. intros i. apply WD.
        * intros RG ds HL. specialize (LL ds RG (conj A (conj B (conj C1 D))) HL). intros l' t' NI. apply LL. rewrite without_in. tauto.
      + destruct H as [-> N]. split; [easy|]. intros (RR & WD). apply N. split; [easy|]. intros i. apply WD.
    - unfold update_body. destruct C as (F & C). rewrite F. split; [easy|]. split; [apply same_refl|]. split; [right; now split|]. auto. }
  destruct (update_body d s l) as [[s1 rc]|]; [|easy]. cbn [fst]. destruct H as (w1 & S1 & C1 & R1 & L1). specialize (IH s1 w1 C1).
  destruct (each _ r s1) as [s2|].
  - destruct IH as (w2 & S2 & C2 & R2 & L2). split; [easy|]. split; [eapply same_trans; eauto|]. auto 10.
  - destruct IH as [-> N]. split; [easy|]. intros (RR & WD). apply N. auto.
Qed.
Lemma connect_ok d s : W s -> fsm s = Some false -> client s = false -> (forall l t, none s l t) ->
  match connect d s with
  | Ok s' => W s' /\ Same s s' /\ CL s' /\ (wide d -> R s') /\ (registers d -> LA [] s')
  | Bad r => r = NotRegistered /\ ~ wide d
  end.
Proof.
  intros w F C N. unfold connect. rewrite F, C. destruct (d_client d (tick s)) eqn:DC.
  - cbn [client next]. rewrite C. set (s0 := set_fsm _ _ _ _).
    assert (w0 : W s0). { subst s0. apply w_ctl. apply w_emit; try easy. apply (next_ok s 0%nat 0%nat w). }
    assert (S0 : Same s s0). { subst s0. unfold Same. esg. do 2 (split; [easy|]). split; [lia|]. split; [|auto]. exists [DClient true]. split; [easy|]. intros l [I|[]]; discriminate. }
    assert (N0 : forall l t, none s0 l t) by (intros l t; unfold none; subst s0; esg; apply N).
    assert (C0 : CL s0) by (left; subst s0; now unfold Conn; esg). clearbody s0.
    pose proof (each_upd_ok d all_lines s0 w0 C0) as H. destruct (each _ all_lines s0) as [s1|].
    + destruct H as (w1 & S1 & C1 & R1 & L1). split; [easy|]. split; [eapply same_trans; eauto|]. split; [easy|]. split; [intros; apply R1; auto; now apply none_R|]. intros RG. apply L1; [easy|]. now apply none_LA.
    + destruct H as [-> H]. split; [easy|]. intros WD. apply H. split; [now apply none_R|easy].
  - cbn [client next]. rewrite C. set (s0 := set_fsm _ _ _ _).
    assert (w0 : W s0) by (subst s0; apply w_ctl, (next_ok s 0%nat 0%nat w)). assert (N0 : forall l t, none s0 l t) by (intros l t; unfold none; subst s0; esg; apply N).
    split; [easy|]. split; [subst s0; unfold Same; esg; do 2 (split; [easy|]); split; [lia|]; split; [exists []; split; [now rewrite app_nil_r|now intros ?]|auto]|].
    split; [right; unfold Lost; subst s0; now esg|]. split; [intros; now apply none_R|intros; now apply none_LA].
Qed.
Lemma w_mark s l : W s -> exist s l = true -> W (emit (set_flag s l) (DUpdate l)).
Proof.
  intros w EX. assert (PH : forall f, ph f (emit (set_flag s l) (DUpdate l)) = ph f s) by (intros f; unfold ph; esg; rewrite phase_app; now destruct (phase f 0 (out s))).
  constructor; try (intros; rewrite ?PH; esg; now apply w).
  - intros l' t f. rewrite PH. esg. intros E. destruct (w_in s w _ _ _ E) as (A & B & C & D). split; [easy|]. split; [easy|]. unfold place. cbn [flag exist]. split; [unfold upd; now destruct (Nat.eqb l' l)|exact D].
  - exact (w_one s w).
  - intros l'. esg. unfold upd. destruct (Nat.eqb_spec l' l) as [->|]; [easy|]. apply w.
  - intros l'. esg. unfold upd. rewrite in_app_iff. destruct (Nat.eqb_spec l' l) as [->|NE].
    + split; [intros _; right; now left|easy].
    + rewrite (w_upd s w l'). split; [now left|]. intros [I|[I|[]]]; [easy|congruence].
  - intros l' t f. esg. intros E. destruct (w_own s w _ _ _ E) as (m & I). exists m. rewrite in_app_iff. now left.
  - intros e l' t f. esg. rewrite in_app_iff. intros [I|[I|[]]] S; [|subst; discriminate]. destruct (w_send s w _ _ _ _ I S) as (m & J). exists m. rewrite in_app_iff. now left.
  - intros l' t. esg. rewrite waiting_app, (w_wait s w). reflexivity.
Qed.
(** like [Same], the trace may record updates *)
Definition Alike (s s' : st) : Prop := exist s' = exist s /\ (tick s <= tick s')%nat /\ (exists es, out s' = out s ++ es) /\ (forall l, flag s l = true -> flag s' l = true) /\
  forall l t, e_type (tsl s' l t) = e_type (tsl s l t) /\ e_q (tsl s' l t) = e_q (tsl s l t) /\ e_tmr (tsl s' l t) = e_tmr (tsl s l t) /\
    (e_type (tsl s l t) = TS_SIGN -> e_lapd (tsl s l t) = true -> e_lapd (tsl s' l t) = true).
Lemma same_alike s s' : Same s s' -> Alike s s'.
Proof. intros (A & B & C & (es & D & _) & E). unfold Alike. rewrite A. eauto 10. Qed.
Lemma alike_refl s : Alike s s. Proof. apply same_alike, same_refl. Qed.
Lemma alike_trans a b c : Alike a b -> Alike b c -> Alike a c.
Proof.
  intros (A1 & A2 & (e1 & A3) & A4 & A5) (B1 & B2 & (e2 & B3) & B4 & B5). split; [congruence|]. split; [lia|]. split; [exists (e1 ++ e2); now rewrite B3, A3, app_assoc|]. split; [auto|].
  intros l t. destruct (A5 l t) as (P1 & P2 & P3 & P4). destruct (B5 l t) as (R1 & R2 & R3 & R4). rewrite R1, R2, R3. do 3 (split; [easy|]). rewrite <- P1 in *. auto.
Qed.
Lemma mark_alike s l : Alike s (emit (set_flag s l) (DUpdate l)).
Proof. unfold Alike. esg. do 2 (split; [easy|]). split; [eauto|]. split; [|auto]. intros l'. unfold upd. now destruct (Nat.eqb l' l). Qed.
(** :660-684 with the rest: [s1]: when the connection is there and the daemon is asked *)
Lemma line_update_ok d s l : Inv s -> exist s l = true ->
  match line_update d s l with
  | Ok (s', rc) => Inv s' /\ Alike s s' /\ flag s' l = true /\ (R s -> wide d -> R s') /\ (registers d -> forall ds, LA ds s -> LA (without l ds) s') /\
      ((exists s1, Conn s1 /\ Alike s s1 /\ updated d l s1 s' rc /\ (Conn s -> tsl s1 = tsl s)) \/ rc = 0 /\ Lost s')
  | Bad r => r = NotRegistered /\ ~ (R s /\ wide d)
  end.
Proof.
  intros I EX. unfold line_update. set (s0 := emit (set_flag s l) (DUpdate l)).
  assert (w0 : W s0) by (apply w_mark; [apply I|easy]). assert (A0 : Alike s s0) by apply mark_alike. assert (T0 : tsl s0 = tsl s) by now subst s0; esg.
  assert (FL0 : flag s0 l = true) by (subst s0; esg; unfold upd; now rewrite Nat.eqb_refl).
  assert (FF : fsm s0 = fsm s /\ client s0 = client s /\ fsm_tmr s0 = fsm_tmr s) by (subst s0; now esg). clearbody s0. destruct FF as (FF & FC & FT).
  assert (H : match (match fsm s0 with Some _ => Ok s0 | None => connect d (set_fsm s0 (client s0) (Some false) false) end) with
    | Ok s1 => W s1 /\ Alike s s1 /\ CL s1 /\ flag s1 l = true /\ (R s -> wide d -> R s1) /\ (registers d -> forall ds, LA ds s -> LA ds s1) /\ (Conn s -> tsl s1 = tsl s)
    | Bad r => r = NotRegistered /\ ~ (R s /\ wide d) end).
  { destruct (fsm s0) as [b|] eqn:F0.
    - split; [easy|]. split; [easy|]. split.
      + destruct I as [w [(A & B & C)|[(A & B & C & D)|(A & _)]]]; [left|right|congruence].
        * unfold Conn. rewrite FC, FT. repeat split; congruence.
        * unfold Lost, none. rewrite FC, FT, T0. repeat split; auto; congruence.
      + unfold R, LA. rewrite T0. auto 10.
    - destruct (all_none s I) as (N & CC & _); [intros (A & _); congruence|].
      pose proof (connect_ok d (set_fsm s0 (client s0) (Some false) false)) as H. destruct (connect d _) as [s1|].
      + destruct H as (w1 & S1 & C1 & R1 & L1); [now apply w_ctl|easy|now esg; congruence|intros l' t'; unfold none; esg; rewrite T0; apply N|].
        split; [easy|]. split; [eapply alike_trans; [exact A0|]; apply same_alike; exact S1|]. split; [easy|]. split; [destruct S1 as (S1 & _); now rewrite S1|]. split; [auto|]. split; [|intros (A & _); congruence].
        intros RG ds _ l' t' _. apply L1; auto.
      + destruct H as (-> & H); [now apply w_ctl|easy|now esg; congruence|intros l' t'; unfold none; esg; rewrite T0; apply N|]. split; [easy|]. tauto. }
  destruct (match fsm s0 with Some _ => Ok s0 | None => _ end) as [s1|]; [|easy]. destruct H as (w1 & A1 & C1 & FL1 & R1 & L1 & T1).
  destruct C1 as [C1|C1].
  - pose proof (update_body_ok d s1 l w1 C1 FL1) as H. destruct (update_body d s1 l) as [[s2 rc]|].
    + pose proof H as U. destruct H as (w2 & S2 & R2 & D2). split; [split; [easy|]; destruct D2 as [D2|D2]; [left|right; left]; apply D2|].
      split; [eapply alike_trans; [exact A1|now apply same_alike]|]. split; [destruct S2 as (S2 & _); now rewrite S2|]. split; [intros RR WD; apply R2; auto; intros i; apply WD|].
      split; [intros RG ds HL; eapply updated_la; eauto|]. left. exists s1. auto.
    + destruct H as [-> H]. split; [easy|]. intros (RR & WD). apply H. split; [auto|intros i; apply WD].
  - unfold update_body. pose proof C1 as (F & _). rewrite F. split; [split; [easy|now right; left]|]. split; [easy|]. split; [easy|]. split; [easy|]. split; [|now right].
    intros RG ds HL. now apply lost_la.
Qed.

(** ** operations that keep types and descriptors *)
Definition keepT (s s' : st) : Prop := forall l t, e_type (tsl s' l t) = e_type (tsl s l t) /\ (e_type (tsl s l t) = TS_SIGN -> e_lapd (tsl s l t) = true -> e_lapd (tsl s' l t) = true).
Definition Pres (d : daemon) (s s' : st) : Prop := Inv s' /\ exist s' = exist s /\ keepT s s' /\ (R s -> wide d -> R s') /\ (registers d -> forall ds, LA ds s -> LA ds s').
Definition Fail (d : daemon) (s : st) (r : why) : Prop := r = NotRegistered /\ ~ (R s /\ wide d).
Lemma keepT_trans a b c : keepT a b -> keepT b c -> keepT a c.
Proof. intros A B l t. destruct (A l t) as [A1 A2]. destruct (B l t) as [B1 B2]. split; [congruence|]. rewrite <- A1 in *. auto. Qed.
Lemma pres_refl d s : Inv s -> Pres d s s.
Proof. intros I. split; [easy|]. split; [easy|]. split; [intros l t; auto|]. auto. Qed.
Lemma pres_trans d a b c : Pres d a b -> Pres d b c -> Pres d a c.
Proof. intros (A1 & A2 & A3 & A4 & A5) (B1 & B2 & B3 & B4 & B5). split; [easy|]. split; [congruence|]. split; [eapply keepT_trans; eauto|]. auto. Qed.
Lemma same_keepT s s' : Same s s' -> keepT s s'.
Proof. intros (_ & _ & _ & _ & A) l t. destruct (A l t) as (? & _ & _ & ?). auto. Qed.
Lemma fail_pres d s s' r : Pres d s s' -> Fail d s' r -> Fail d s r.
Proof. intros (_ & _ & _ & A & _) (-> & N). split; [easy|]. intros (RR & WD). apply N. auto. Qed.
Lemma lost_pres d s : Inv s -> match conn_lost s with Ok s' => Pres d s s' | Bad r => Fail d s r end.
Proof.
  intros I. pose proof (lost_ok s (i_w s I)) as H. destruct (conn_lost s) as [s'|]; [|destruct H; split; [easy|]; tauto].
  destruct H as (w & S & A & B). destruct (i_fsm s I) as [C|C].
  - destruct (B (proj1 C)) as (B1 & B2 & B3 & B4 & B5). assert (L : Lost s') by (unfold Lost; auto).
    split; [split; [easy|now right; left]|]. split; [apply S|]. split; [now apply same_keepT|]. split; [intros; now apply lost_R|]. intros _ ds _. now apply lost_la.
  - rewrite A; [now apply pres_refl|]. destruct C as [(C & _)|(C & _)]; congruence.
Qed.
Lemma local d s s' l t x' es : Inv s -> (forall l' t', tsl s' l' t' = if here l t l' t' then x' else tsl s l' t') -> out s' = out s ++ es -> (tick s <= tick s')%nat ->
  flag s' = flag s -> exist s' = exist s -> client s' = client s -> fsm s' = fsm s -> fsm_tmr s' = fsm_tmr s ->
  e_type x' = e_type (tsl s l t) -> e_fd x' = e_fd (tsl s l t) -> e_reg x' = e_reg (tsl s l t) -> e_lapd x' = e_lapd (tsl s l t) ->
  Forall (fun e => about e = None) es -> quiet es -> (forall e l' t' f, In e es -> sender e = Some (l', t', f) -> e_fd (tsl s l' t') = Some f) ->
  (forall l' t' q, here l t l' t' = false -> waiting l' t' q es = Some q) -> waiting l t (e_q (tsl s l t)) es = Some (e_q x') -> (queued (e_type (tsl s l t)) = false -> e_q (tsl s l t) = [] -> e_q x' = []) -> Pres d s s'.
Proof.
  intros [w F] T O TK FL EX CL' FS FT TY FD RG LP AB QU SE WO WH QQ.
  assert (K : forall l' t', e_type (tsl s' l' t') = e_type (tsl s l' t') /\ e_fd (tsl s' l' t') = e_fd (tsl s l' t') /\ e_reg (tsl s' l' t') = e_reg (tsl s l' t') /\ e_lapd (tsl s' l' t') = e_lapd (tsl s l' t')).
  { intros l' t'. rewrite T. pose proof (here_spec l t l' t') as H. destruct (here l t l' t'); [|auto]. destruct H as [-> ->]. auto. }
  split; [|split; [easy|split; [|split]]].
  - split.
    + apply (keep s s' es); auto.
      * intros l' t'. destruct (K l' t') as (_ & A & B & _). auto.
      * intros l' t'. rewrite T. pose proof (here_spec l t l' t') as H. destruct (here l t l' t') eqn:HH; [destruct H as [-> ->]; exact WH|auto].
      * intros l' t'. rewrite T. destruct (here l t l' t'); [rewrite TY; intros H; apply QQ; [easy|]; now apply w|apply w].
    + unfold Conn, Lost, Idle, none. rewrite CL', FS, FT, FL. destruct F as [F|[(A & B & C & D)|F]]; [now left|right; left|now right; right].
      repeat split; auto. intros l' t'. destruct (K l' t') as (_ & -> & _). apply D.
  - intros l' t'. destruct (K l' t') as (A & _ & _ & B). rewrite B. auto.
  - intros H _ l' t'. destruct (K l' t') as (_ & -> & -> & _). apply H.
  - intros _ ds H l' t'. destruct (K l' t') as (-> & _ & -> & ->). apply H.
Qed.
Lemma here_sym l t l' t' : here l t l' t' = false -> (Nat.eqb l l' && Nat.eqb t t')%bool = false.
Proof. unfold here. now rewrite (Nat.eqb_sym l l'), (Nat.eqb_sym t t'). Qed.
Lemma want_pres d s l t : Inv s -> Pres d s (want_write s l t).
Proof.
  intros I. unfold want_write. destruct (fsm s) as [[|]|]; try (now apply pres_refl). destruct (e_type (tsl s l t)); try (now apply pres_refl);
  (eapply (local d s _ l t (w_wr (tsl s l t) true) [] I); try (esg; easy); [intros; esg; apply upd2|esg; now rewrite app_nil_r]).
Qed.
Lemma pop_here l t m r es : waiting l t r es = Some r -> forall e, (e = DDrop l t m \/ (exists f z, e = DSend l t f m z) \/ e = DLapdTx l t m) -> waiting l t (m :: r) (e :: es) = Some r.
Proof.
  intros H e [->|[(f & z & ->)| ->]]; cbn [waiting passes]; rewrite !Nat.eqb_refl; cbn [andb]; (destruct (list_eq_dec Z.eq_dec m m); [exact H|congruence]).
Qed.
Lemma sign_write_pres d s l t : Inv s -> match sign_write s l t with Ok s' => Pres d s s' | Bad r => r = NullLapd /\ e_lapd (tsl s l t) = false end.
Proof.
  intros I. unfold sign_write. cbv zeta. cbn [tsl set_ts]. rewrite upd2, here_refl. esg. destruct (e_q (tsl s l t)) as [|m q] eqn:Q.
  - eapply (local d s _ l t (w_wr (tsl s l t) false) [] I); try (esg; easy); [intros; esg; rewrite ?Q; apply upd2|esg; now rewrite app_nil_r].
  - destruct (e_lapd (tsl s l t)) eqn:LP; [|easy].
    eapply (local d s _ l t (w_tmr (w_q (w_wr (tsl s l t) false) q) true) [DLapdTx l t m] I); try (esg; easy).
    + intros l' t'. esg. rewrite LP, !upd2. now destruct (here l t l' t').
    + repeat constructor.
    + intros l' [X|[]]; discriminate.
    + intros e l' t' f [<-|[]]. discriminate.
    + intros l' t' p H. cbn [waiting passes]. apply here_sym in H. now rewrite H.
    + esg. rewrite Q. apply pop_here; auto.
    + intros _. congruence.
Qed.
Lemma trau_write_pres d s l t : Inv s -> match trau_write d s l t with Ok s' => Pres d s s' | Bad r => Fail d s r end.
Proof.
  intros I. unfold trau_write. destruct (e_fd (tsl s l t)) as [f|] eqn:F; [|now apply lost_pres]. cbv zeta. set (s1 := emit _ _).
  assert (P : Pres d s s1).
  { eapply (local d s s1 l t (tsl s l t) [DTrau l t f (map rev8 (d_mux d (tick s))) (d_write d (tick s))] I); try (subst s1; esg; (easy || lia)).
    + intros l' t'. subst s1. esg. pose proof (here_spec l t l' t') as H. destruct (here l t l' t'); [now destruct H as [-> ->]|easy].
    + repeat constructor.
    + intros l' [X|[]]; discriminate.
    + intros e l' t' g [<-|[]]. cbn. congruence. }
  clearbody s1. destruct (_ <=? 0); [|easy]. pose proof (lost_pres d s1 (proj1 P)) as H. destruct (conn_lost s1); [eapply pres_trans; eauto|eapply fail_pres; eauto].
Qed.
Lemma write_msg_pres d s l t m : Inv s -> match write_msg d s l t m with Ok s' => Pres d s s' | Bad r => Fail d s r end.
Proof.
  intros I. unfold write_msg. destruct (fsm s) as [[|]|]; try (now apply pres_refl). destruct (e_fd (tsl s l t)) as [f|] eqn:F; [|now apply lost_pres]. cbv zeta. set (s1 := emit _ _).
  assert (P : Pres d s s1).
  { eapply (local d s s1 l t (tsl s l t) [DLapdWr l t f m (d_write d (tick s))] I); try (subst s1; esg; (easy || lia)).
    + intros l' t'. subst s1. esg. pose proof (here_spec l t l' t') as H. destruct (here l t l' t'); [now destruct H as [-> ->]|easy].
    + repeat constructor.
    + intros l' [X|[]]; discriminate.
    + intros e l' t' g [<-|[]]. cbn. congruence. }
  clearbody s1. destruct (_ <? 0); [|easy]. pose proof (lost_pres d s1 (proj1 P)) as H. destruct (conn_lost s1); [eapply pres_trans; eauto|eapply fail_pres; eauto].
Qed.
Lemma queue_write_pres d s l t h : Inv s -> match queue_write d s l t h with Ok s' => Pres d s s' | Bad r => Fail d s r end.
Proof.
  intros I. unfold queue_write. destruct (e_q (tsl s l t)) as [|m q] eqn:Q.
  - eapply (local d s _ l t (w_wr (tsl s l t) false) [] I); try (esg; easy); [intros; esg; rewrite ?Q; apply upd2|esg; now rewrite app_nil_r].
  - unfold do_write. cbn [tsl set_ts]. rewrite upd2, here_refl. esg.
    destruct (e_fd (tsl s l t)) as [f|] eqn:F; cbv zeta; set (s1 := mkS _ _ _ _ _ _ _ _).
    + assert (P : Pres d s s1).
      { eapply (local d s s1 l t (w_q (tsl s l t) q) [DSend l t f m (d_write d (tick s))] I); try (subst s1; esg; (easy || lia)).
        + intros l' t'. subst s1. esg. rewrite F. apply upd2.
        + repeat constructor.
        + intros l' [X|[]]; discriminate.
        + intros e l' t' g [<-|[]]. cbn. congruence.
        + intros l' t' p H. cbn [waiting passes]. apply here_sym in H. now rewrite H.
        + esg. rewrite Q. apply pop_here; eauto.
        + intros _. congruence. }
      clearbody s1. destruct (if h then _ else _); [|easy]. pose proof (lost_pres d s1 (proj1 P)) as H. destruct (conn_lost s1); [eapply pres_trans; eauto|eapply fail_pres; eauto].
    + assert (P : Pres d s s1).
      { eapply (local d s s1 l t (w_q (tsl s l t) q) [DDrop l t m] I); try (subst s1; esg; (easy || lia)).
        + intros l' t'. subst s1. esg. rewrite F. apply upd2.
        + repeat constructor.
        + intros l' [X|[]]; discriminate.
        + intros e l' t' g [<-|[]]. discriminate.
        + intros l' t' p H. cbn [waiting passes]. apply here_sym in H. now rewrite H.
        + esg. rewrite Q. apply pop_here; auto.
        + intros _. congruence. }
      clearbody s1. destruct (if h then _ else _); [|easy]. pose proof (lost_pres d s1 (proj1 P)) as H. destruct (conn_lost s1); [eapply pres_trans; eauto|eapply fail_pres; eauto].
Qed.
Lemma send_pres d s l t m : Inv s -> Pres d s (send s l t m).
Proof.
  intros I. unfold send. cbv zeta.
  assert (Q : forall s0, Inv s0 -> forall x', e_type x' = e_type (tsl s0 l t) -> e_fd x' = e_fd (tsl s0 l t) -> e_reg x' = e_reg (tsl s0 l t) -> e_lapd x' = e_lapd (tsl s0 l t) -> e_q x' = e_q (tsl s0 l t) ++ [m] -> queued (e_type (tsl s0 l t)) = true ->
    Pres d s0 (emit (set_ts s0 l t x') (DAcc l t m))).
  { intros s0 I0 x' A1 A2 A3 A4 A5 A6. eapply (local d s0 _ l t x' [DAcc l t m] I0); auto; try (esg; easy).
    + intros l' t'. esg. apply upd2.
    + intros l' [X|[]]; discriminate.
    + intros e l' t' g [<-|[]]. discriminate.
    + intros l' t' p H. cbn [waiting passes]. apply here_sym in H. now rewrite H.
    + cbn [waiting passes]. rewrite !Nat.eqb_refl. cbn [andb]. now rewrite A5.
    + intros X. congruence. }
  assert (WQ : e_q (tsl (want_write s l t) l t) = e_q (tsl s l t)).
  { unfold want_write. destruct (fsm s) as [[|]|]; try easy. destruct (e_type (tsl s l t)); try easy; esg; now rewrite upd2, here_refl. }
  assert (WT : e_type (tsl (want_write s l t) l t) = e_type (tsl s l t)) by apply (want_pres d s l t I).
  destruct (e_type (tsl s l t)) eqn:TY; try (now apply pres_refl).
  - assert (P : Pres d s (emit (set_ts s l t (w_q (tsl s l t) (e_q (tsl s l t) ++ [m]))) (DAcc l t m))) by (apply Q; auto; try (now esg); now rewrite TY).
    destruct (e_tmr (tsl s l t)); [exact P|]. eapply pres_trans; [exact P|]. apply want_pres. apply P.
  - eapply pres_trans; [apply want_pres; exact I|]. apply Q; [apply (want_pres d s l t I)|esg; auto..]; [now rewrite WQ|now rewrite WT].
  - eapply pres_trans; [apply want_pres; exact I|]. apply Q; [apply (want_pres d s l t I)|esg; auto..]; [now rewrite WQ|now rewrite WT].
Qed.
Lemma emit_pres d s e : Inv s -> about e = None -> sender e = None -> (forall l, e <> DUpdate l) -> (forall l t q, passes l t q e = Some q) -> Pres d s (emit s e).
Proof.
  intros [w F] A S U P. split; [split; [now apply w_emit|exact F]|]. split; [easy|]. split; [intros l t; auto|]. auto.
Qed.

(** ** what the application does *)
Definition after (c : cmd) (ds : list nat) : list nat := match c with CConfig l _ _ => l :: ds | CUpdate l => without l ds | CSend _ _ _ => ds end.
Definition keepA (ok : nat -> nat -> bool) (s s' : st) : Prop :=
  forall l t, ok l t = true -> e_type (tsl s' l t) = e_type (tsl s l t) /\ (e_type (tsl s l t) = TS_SIGN -> e_lapd (tsl s l t) = true -> e_lapd (tsl s' l t) = true).
Definition Did (d : daemon) (c : cmd) (s s' : st) : Prop :=
  Inv s' /\ exist s' = exist s /\ keepA (fun l t => avoids l t c) s s' /\ (R s -> wide d -> R s') /\ (registers d -> forall ds, LA ds s -> LA (after c ds) s').
Lemma la_more ds ds' s : (forall x, In x ds -> In x ds') -> LA ds s -> LA ds' s.
Proof. intros A H l t N. apply H. auto. Qed.
Lemma pres_did d c s s' : Pres d s s' -> (forall l t ty, c <> CConfig l t ty) -> (forall l, c = CUpdate l -> exist s l = false) -> Did d c s s'.
Proof.
  intros (A & B & C & D & E) NC NU. split; [easy|]. split; [easy|]. split; [intros l t _; apply C|]. split; [easy|]. intros RG ds H. specialize (E RG ds H).
  destruct c; cbn [after]; [exfalso; eapply NC; eauto| |exact E].
  intros l' t' NI G TY. destruct (Nat.eq_dec l' l) as [->|NE]; [|apply E; auto; intros I; apply NI, without_in; auto].
  exfalso. destruct A as [w _]. destruct (e_fd (tsl s' l t')) as [f|] eqn:F; [|rewrite (w_none s' w _ _ F) in G; discriminate].
  destruct (w_in s' w _ _ _ F) as (_ & _ & _ & X & _). rewrite B, (NU l eq_refl) in X. discriminate.
Qed.
Lemma exec_did d c s : Inv s -> match exec d s c with Ok s' => Did d c s s' | Bad r => Fail d s r end.
Proof.
  intros I. destruct c as [l t ty|l|l t m]; cbn [exec].
  - assert (ID : Did d (CConfig l t ty) s s).
    { split; [easy|]. split; [easy|]. split; [intros l' t' _; auto|]. split; [easy|]. intros _ ds H. cbn [after]. apply (la_more ds); [intros x X; now right|easy]. }
    destruct (_ && _ && _); [|exact ID]. unfold config. cbv zeta. destruct (type_eqb (e_type (tsl s l t)) ty); [exact ID|]. set (x := mkE _ _ _ _ _ _ _). set (s' := emit _ _).
    assert (T : forall l' t', tsl s' l' t' = if here l t l' t' then x else tsl s l' t') by (intros; subst s'; esg; apply upd2).
    assert (K : forall l' t', e_fd (tsl s' l' t') = e_fd (tsl s l' t') /\ e_reg (tsl s' l' t') = e_reg (tsl s l' t')).
    { intros l' t'. rewrite T. pose proof (here_spec l t l' t') as H. destruct (here l t l' t'); [destruct H as [-> ->]; subst x; now esg|easy]. }
    destruct I as [w F]. split; [split|].
    + apply (keep s s' [DFlush l t]); auto; try (subst s'; esg; easy).
      * intros l' [X|[]]; discriminate.
      * intros e l' t' g [<-|[]]. discriminate.
      * intros l' t'. rewrite T. cbn [waiting passes]. rewrite (Nat.eqb_sym l l'), (Nat.eqb_sym t t'). fold (here l t l' t'). now destruct (here l t l' t').
      * intros l' t'. rewrite T. destruct (here l t l' t'); [easy|apply w].
    + unfold Conn, Lost, Idle, none in *. destruct F as [F|[(A & B & C & D)|F]]; [now left|right; left|now right; right]. repeat split; auto. intros l' t'. destruct (K l' t') as [-> _]. apply D.
    + split; [easy|]. split; [|split].
      * intros l' t' AV. rewrite T. cbn [avoids] in AV. rewrite (Nat.eqb_sym l l'), (Nat.eqb_sym t t') in AV. fold (here l t l' t') in AV. destruct (here l t l' t'); [discriminate|auto].
      * intros H _ l' t'. destruct (K l' t') as [-> ->]. apply H.
      * intros _ ds H l' t' NI. cbn [after] in NI. destruct (K l' t') as [_ ->]. rewrite T. destruct (here l t l' t') eqn:HH.
        -- pose proof (here_spec l t l' t') as X. rewrite HH in X. destruct X as [-> _]. exfalso. apply NI. now left.
        -- apply H. intros X. apply NI. now right.
  - destruct (exist s l) eqn:EX; [|apply pres_did; [now apply pres_refl|easy|congruence]].
    pose proof (line_update_ok d s l I EX) as H. destruct (line_update d s l) as [[s1 rc]|]; [|exact H].
    destruct H as (I1 & A1 & _ & R1 & L1 & _). cbn [fst snd].
    destruct (emit_pres d s1 (DRet l rc) I1) as (I2 & E2 & K2 & R2 & L2); try easy. split; [easy|]. split; [rewrite E2; apply A1|]. split; [|split; [auto|intros RG ds HL; apply L2; [easy|]; now apply L1]].
    intros l' t' _. destruct A1 as (_ & _ & _ & _ & A1). destruct (A1 l' t') as (X1 & _ & _ & X2). esg. auto.
  - destruct (_ && _ && _); (apply pres_did; [|easy|easy]); [now apply send_pres|now apply pres_refl].
Qed.
Fixpoint afters (cs : list cmd) (ds : list nat) : list nat := match cs with [] => ds | c :: r => afters r (after c ds) end.
Definition Dids (d : daemon) (cs : list cmd) (s s' : st) : Prop :=
  Inv s' /\ exist s' = exist s /\ keepA (fun l t => forallb (avoids l t) cs) s s' /\ (R s -> wide d -> R s') /\ (registers d -> forall ds, LA ds s -> LA (afters cs ds) s').
Lemma execs_did d cs : forall s, Inv s -> match execs d cs s with Ok s' => Dids d cs s s' | Bad r => Fail d s r end.
Proof.
  induction cs as [|c r IH]; intros s I; cbn [execs].
  - split; [easy|]. split; [easy|]. split; [intros l t _; auto|]. auto.
  - pose proof (exec_did d c s I) as H. destruct (exec d s c) as [s1|]; [|exact H]. destruct H as (I1 & E1 & K1 & R1 & L1). specialize (IH s1 I1). destruct (execs d r s1) as [s2|].
    + destruct IH as (I2 & E2 & K2 & R2 & L2). split; [easy|]. split; [congruence|]. split; [|split; [auto|intros RG ds HL; cbn [afters]; apply L2; auto]].
      intros l t AV. cbn [forallb] in AV. apply andb_prop in AV as [AV1 AV2]. destruct (K1 l t AV1) as [X1 X2]. destruct (K2 l t AV2) as [Y1 Y2]. split; [congruence|]. rewrite <- X1 in *. auto.
    + destruct IH as (-> & N). split; [easy|]. intros (RR & WD). apply N. auto.
Qed.
Lemma settled_afters cs : forall ds, settled ds cs = true -> afters cs ds = [].
Proof. induction cs as [|c r IH]; intros ds H; [now destruct ds|]. destruct c; cbn [settled afters after] in *; auto. Qed.

(** ** events *)
Definition Went (d : daemon) (ok : bool) (s s' : st) : Prop := Inv s' /\ (R s -> wide d -> R s') /\ (registers d -> ok = true -> LA [] s -> LA [] s').
Definition Fell (d : daemon) (v : ev) (s : st) (r : why) : Prop :=
  Fail d s r \/ r = NullLapd /\ ~ (registers d /\ polite v = true /\ LA [] s) \/ r = NullClient /\ ~ Conn s /\ exists l, v = SaBits l.
Lemma pres_went d ok s s' : Pres d s s' -> Went d ok s s'.
Proof. intros (A & _ & _ & B & C). split; [easy|]. auto. Qed.
Lemma went_trans d ok a b c : Went d ok a b -> Went d ok b c -> Went d ok a c.
Proof. intros (_ & A1 & A2) (B & B1 & B2). split; [easy|]. auto. Qed.
Lemma fail_went d ok s s' r : Went d ok s s' -> Fail d s' r -> Fail d s r.
Proof. intros (_ & A & _) (-> & N). split; [easy|]. intros (RR & WD). apply N. auto. Qed.
Lemma dids_went d cs s s' : Dids d cs s s' -> Went d (settled [] cs) s s'.
Proof. intros (A & _ & _ & B & C). split; [easy|]. split; [easy|]. intros RG OK HL. specialize (C RG [] HL). now rewrite (settled_afters cs [] OK) in C. Qed.
(** receiving: what the application did may follow *)
Definition Rx (d : daemon) (l t : nat) (act : list cmd) (s s' : st) : Prop :=
  Went d (settled [] act) s s' /\ keepA (fun l t => forallb (avoids l t) act) s s'.
Lemma lost_rx d l t act s : Inv s -> match conn_lost s with Ok s' => Rx d l t act s s' | Bad r => Fail d s r end.
Proof.
  intros I. pose proof (lost_pres d s I) as H. destruct (conn_lost s); [|easy]. split; [now apply pres_went|]. intros l' t' _. destruct H as (_ & _ & H & _). apply H.
Qed.
Lemma rx_execs d l t act s e : Inv s -> about e = None -> sender e = None -> (forall l, e <> DUpdate l) -> (forall l t q, passes l t q e = Some q) ->
  match execs d act (emit s e) with Ok s' => Rx d l t act s s' | Bad r => Fail d s r end.
Proof.
  intros I A B C D. pose proof (emit_pres d s e I A B C D) as P. pose proof (execs_did d act (emit s e) (proj1 P)) as H. destruct (execs d act (emit s e)) as [s'|].
  - split; [eapply went_trans; [apply pres_went; exact P|now apply dids_went]|]. intros l' t' AV. destruct H as (_ & _ & K & _). apply (K l' t' AV).
  - eapply fail_pres; eauto.
Qed.
Lemma rx_refl d l t act s : Inv s -> Rx d l t act s s.
Proof. intros I. split; [apply pres_went; now apply pres_refl|]. intros l' t' _. auto. Qed.
Lemma sign_read_ok d s l t r act : Inv s -> match sign_read d s l t r act with Ok s' => Rx d l t act s s' | Bad r => Fail d s r \/ r = NullLapd /\ e_lapd (tsl s l t) = false end.
Proof.
  intros I. unfold sign_read. pose proof (lost_rx d l t act s I) as L. destruct r as [|[|o os]]; [destruct (conn_lost s); auto..|].
  destruct (e_lapd (tsl s l t)); [|auto]. pose proof (rx_execs d l t act s (DLapdRx l t (firstn 284 (o :: os))) I) as H. destruct (execs d act _); [apply H; easy|left; apply H; easy].
Qed.
Lemma raw_read_ok d s l t r act : Inv s -> match raw_read d s l t r act with Ok s' => Rx d l t act s s' | Bad r => Fail d s r end.
Proof.
  intros I. unfold raw_read. pose proof (lost_rx d l t act s I) as L. destruct r as [|[|o os]]; [exact L..|]. cbv zeta. destruct (negb _); [now apply rx_refl|]. now apply rx_execs.
Qed.
Lemma hdlc_read_ok d s l t r act : Inv s -> match hdlc_read d s l t r act with Ok s' => Rx d l t act s s' | Bad r => Fail d s r end.
Proof. intros I. unfold hdlc_read. pose proof (lost_rx d l t act s I) as L. destruct r as [|[|o os]]; [exact L..|]. now apply rx_execs. Qed.
Lemma trau_read_ok d s l t r act : Inv s -> match trau_read d s l t r act with Ok s' => Went d (settled [] act) s s' | Bad r => Fail d s r end.
Proof.
  intros I. unfold trau_read. pose proof (lost_rx d l t act s I) as L. destruct r as [|[|o os]]; [destruct (conn_lost s); [apply L|exact L]..|]. cbv zeta. destruct (negb _); [apply (rx_refl d l t act s I)|].
  set (e := DRx l t _). pose proof (rx_execs d l t act s e I) as H. destruct (execs d act (emit s e)) as [s1|]; [|apply H; easy].
  destruct H as (H & _); try easy. pose proof (trau_write_pres d s1 l t (proj1 H)) as P. destruct (trau_write d s1 l t); [eapply went_trans; [exact H|now apply pres_went]|eapply fail_went; eauto].
Qed.
Lemma fd_cb_ok d s l t r w act : Inv s -> e_reg (tsl s l t) = true ->
  match fd_cb d s l t r w act with Ok s' => Went d (settled [] act) s s' | Bad q => Fell d (Ready l t r w act) s q end.
Proof.
  intros I G. unfold fd_cb. assert (ID : Went d (settled [] act) s s) by (apply pres_went; now apply pres_refl).
  assert (RR : Rx d l t act s s) by now apply rx_refl.
  destruct (fsm s) as [[|]|]; try exact ID. destruct (e_type (tsl s l t)) eqn:TY; try exact ID.
  - (* SIGN *)
    assert (H : match (match r with Some r => sign_read d s l t r act | None => Ok s end) with Ok s' => Rx d l t act s s' | Bad q => Fail d s q \/ q = NullLapd /\ e_lapd (tsl s l t) = false end) by (destruct r; [now apply sign_read_ok|easy]).
    destruct (match r with Some r => _ | None => _ end) as [s1|].
    + destruct H as (H & K). destruct w; [|exact H]. pose proof (sign_write_pres d s1 l t (proj1 H)) as P. destruct (sign_write s1 l t) as [s2|]; [eapply went_trans; [exact H|now apply pres_went]|].
      destruct P as (-> & P). right. left. split; [easy|]. intros (RG & PO & HL). cbn [polite] in PO. apply andb_prop in PO as [PO1 PO2].
      destruct (K l t PO2) as [_ K2]. rewrite (K2 TY) in P; [discriminate|]. apply HL; auto.
    + destruct H as [H|(-> & H)]; [now left|]. right. left. split; [easy|]. intros (RG & PO & HL). rewrite (HL l t) in H; auto; discriminate.
  - destruct r as [r|]; [|exact ID]. pose proof (trau_read_ok d s l t r act I) as H. destruct (trau_read d s l t r act); [exact H|now left].
  - assert (H : match (match r with Some r => raw_read d s l t r act | None => Ok s end) with Ok s' => Rx d l t act s s' | Bad q => Fail d s q end) by (destruct r; [now apply raw_read_ok|easy]).
    destruct (match r with Some r => _ | None => _ end) as [s1|]; [|now left]. destruct H as (H & _). destruct w; [|exact H].
    pose proof (queue_write_pres d s1 l t false (proj1 H)) as P. destruct (queue_write d s1 l t false); [eapply went_trans; [exact H|now apply pres_went]|left; eapply fail_went; eauto].
  - assert (H : match (match r with Some r => hdlc_read d s l t r act | None => Ok s end) with Ok s' => Rx d l t act s s' | Bad q => Fail d s q end) by (destruct r; [now apply hdlc_read_ok|easy]).
    destruct (match r with Some r => _ | None => _ end) as [s1|]; [|now left]. destruct H as (H & _). destruct w; [|exact H].
    pose proof (queue_write_pres d s1 l t true (proj1 H)) as P. destruct (queue_write d s1 l t true); [eapply went_trans; [exact H|now apply pres_went]|left; eapply fail_went; eauto].
Qed.
Lemma step_ok d s v : Inv s -> match step d s v with Ok s' => Went d (polite v) s s' | Bad r => Fell d v s r end.
Proof.
  intros I. assert (ID : forall b, Went d b s s) by (intros; apply pres_went; now apply pres_refl). destruct v as [l|cs| |l t r w act|l t|l t m|l]; cbn [step].
  - destruct (_ && _) eqn:C; [|apply ID]. apply andb_prop in C as [C1 C2]. apply Nat.ltb_lt in C1. destruct I as [w F].
    assert (K : W (mkS (client s) (fsm s) (fsm_tmr s) (flag s) (upd (exist s) l true) (tsl s) (tick s) (out s))).
    { constructor; cbn [client fsm fsm_tmr flag exist tsl tick out]; try apply w.
      - intros l' t' f E. destruct (w_in s w _ _ _ E) as (A & B & P1 & P2 & P3). split; [easy|]. split; [easy|]. split; [easy|]. split; [cbn [exist]; unfold upd; now destruct (Nat.eqb l' l)|easy].
      - intros l'. unfold upd. destruct (Nat.eqb_spec l' l) as [->|]; [easy|]. apply w.
      - intros l' E. unfold upd. destruct (Nat.eqb l' l); [easy|]. now apply w. }
    split; [split; [exact K|exact F]|]. auto.
  - pose proof (execs_did d cs s I) as H. destruct (execs d cs s); [now apply dids_went|now left].
  - destruct (fsm_tmr s) eqn:T; [|apply ID]. destruct (i_fsm s I) as [(_ & _ & X)|[(F & _ & C & N)|(_ & X & _)]]; [congruence| |congruence].
    pose proof (connect_ok d (set_fsm s (client s) (fsm s) false)) as H. destruct (connect d _) as [s'|].
    + destruct H as (w & S & CC & R1 & L1); [apply w_ctl, I|exact F|exact C|exact N|]. split; [split; [easy|destruct CC; tauto]|]. auto.
    + destruct H as (-> & H); [apply w_ctl, I|exact F|exact C|exact N|]. left. split; [easy|]. tauto.
  - destruct (e_reg (tsl s l t)) eqn:G; [|apply ID]. pose proof (fd_cb_ok d s l t r (w && e_wr (tsl s l t)) act I G) as H. destruct (fd_cb _ _ _ _ _ _ _).
    + cbn [polite]. destruct H as (A & B & C). split; [easy|]. split; [easy|]. intros RG OK. apply andb_prop in OK as [OK _]. auto.
    + destruct H as [H|[(-> & H)|(-> & _ & l' & H)]]; [now left|right; left; split; [easy|]; intros X; apply H; exact X|discriminate].
  - destruct (e_tmr (tsl s l t)); [|apply ID]. apply pres_went. set (s1 := set_ts _ _ _ _).
    assert (P : Pres d s s1) by (eapply (local d s s1 l t (w_tmr (tsl s l t) false) [] I); try (subst s1; esg; easy); [intros; subst s1; esg; apply upd2|subst s1; esg; now rewrite app_nil_r]).
    eapply pres_trans; [exact P|]. apply want_pres. apply P.
  - destruct (e_lapd (tsl s l t)); [|apply ID]. pose proof (write_msg_pres d s l t m I) as H. destruct (write_msg d s l t m); [now apply pres_went|now left].
  - destruct (exist s l); [|apply ID]. destruct (client s) eqn:C; [apply ID|]. right. right. split; [easy|]. split; [intros (_ & X & _); congruence|eauto].
Qed.
Lemma init_inv : Inv st_init.
Proof. split; [constructor; try easy; intros; now left|now right; right]. Qed.
Lemma run_ok d vs : forall s, Inv s -> match run d s vs with Ok s' => Went d (forallb polite vs) s s' | Bad r => exists va v vb s1, vs = va ++ v :: vb /\ run d s va = Ok s1 /\ Went d (forallb polite va) s s1 /\ Fell d v s1 r end.
Proof.
  induction vs as [|v r IH]; intros s I; cbn [run forallb]; [apply pres_went; now apply pres_refl|]. pose proof (step_ok d s v I) as H. destruct (step d s v) as [s1|q] eqn:S1.
  - specialize (IH s1 (proj1 H)). destruct (run d s1 r) as [s2|q].
    + destruct H as (A & B & C). destruct IH as (A' & B' & C'). split; [easy|]. split; [auto|]. intros RG OK. apply andb_prop in OK as [O1 O2]. auto.
    + destruct IH as (va & x & vb & s3 & -> & R3 & (A' & B' & C') & F). exists (v :: va), x, vb, s3. split; [easy|]. cbn [run forallb]. rewrite S1. split; [easy|]. split; [|easy].
      destruct H as (A & B & C). split; [easy|]. split; [auto|]. intros RG OK. apply andb_prop in OK as [O1 O2]. auto.
  - exists [], v, r, s. split; [easy|]. split; [easy|]. split; [apply pres_went; now apply pres_refl|easy].
Qed.
Lemma reach_inv d vs s : run d st_init vs = Ok s -> Inv s.
Proof. intros H. pose proof (run_ok d vs st_init init_inv) as X. rewrite H in X. apply X. Qed.

(** ** a daemon that grants everything *)
Definition up (s : st) (l t : nat) : Prop :=
  exists f m, e_fd (tsl s l t) = Some f /\ e_reg (tsl s l t) = true /\ In (DOpen l t m f) (out s) /\ needs (e_type (tsl s l t)) m /\ e_lapd (tsl s l t) = type_eqb (e_type (tsl s l t)) TS_SIGN.
Lemma healthy_later d k k' : healthy d k -> (k <= k')%nat -> healthy d k'.
Proof. intros H L j J. apply H. lia. Qed.
Lemma healthy_each d ls : NoDup ls -> forall s, W s -> Conn s -> healthy d (tick s) -> (forall l t, In l ls -> none s l t) -> R s ->
  exists s', each (fun s l => if flag s l && exist s l then try x <- update_body d s l; Ok (fst x) else Ok s) ls s = Ok s' /\ W s' /\ Same s s' /\ Conn s' /\
    (forall l t, ~ In l ls -> tsl s' l t = tsl s l t) /\
    (forall l t, In l ls -> flag s l = true -> (1 <= t < 32)%nat -> e_type (tsl s l t) <> TS_NONE -> up s' l t).
Proof.
  induction 1 as [|l r NI ND IH]; intros s w CN HE NO RR.
  - exists s. cbn [each]. split; [easy|]. split; [easy|]. split; [apply same_refl|]. split; [easy|]. split; [easy|]. intros l t [].
  - cbn [each]. destruct (flag s l && exist s l) eqn:FE.
    + apply andb_prop in FE as [FL EX]. pose proof (update_body_ok d s l w CN FL) as H.
      assert (WD : wide_at d (tick s)). { intros i Q. destruct (HE (tick s) (le_n _)) as (_ & (i' & Q' & L) & _). congruence. }
      destruct (update_body d s l) as [[s1 rc]|]; [|destruct H as [_ H]; exfalso; auto].
      destruct H as (w1 & S1 & R1 & D1). destruct D1 as [(C1 & A1 & D1)|(_ & [(_ & k & K1 & K2)|(_ & K)])].
      2: { destruct (HE k K1) as (_ & _ & X & _). congruence. } 2: { destruct (HE (tick s) (le_n _)) as (_ & (i & X & _) & _). congruence. }
      destruct D1 as [(-> & info & Q & U)|(_ & k & K1 & K2)]. 2: { destruct (HE k K1) as (_ & _ & _ & X). congruence. }
      cbn [fst]. assert (TK : (tick s <= tick s1)%nat) by apply S1.
      destruct (IH s1 w1 C1) as (s2 & E2 & w2 & S2 & C2 & A2 & U2).
      * eapply healthy_later; eauto.
      * intros l' t' I. unfold none. rewrite A1; [apply NO; now right|]. left. intros ->. easy.
      * apply R1; auto.
      * exists s2. rewrite E2. split; [easy|]. split; [easy|]. split; [eapply same_trans; eauto|]. split; [easy|]. split.
        -- intros l' t' N. rewrite A2 by (intros I; apply N; now right). apply A1. left. intros ->. apply N. now left.
        -- intros l' t' [<-|I] FL' T' TY.
           ++ specialize (U t' T'). unfold set_up in U. cbv zeta in U. pose proof (WD info Q). replace (length info <=? t')%nat with false in U by (symmetry; apply Nat.leb_gt; lia).
              unfold up. rewrite A2 by easy. destruct S1 as (_ & _ & _ & _ & S1). destruct (S1 l t') as (S1' & _). rewrite S1'.
              assert (X : e_reg (tsl s1 l t') = true /\ e_wr (tsl s1 l t') = false /\ e_lapd (tsl s1 l t') = type_eqb (e_type (tsl s l t')) TS_SIGN /\ exists f, e_fd (tsl s1 l t') = Some f /\ ((exists m, In (DOpen l t' m f) (out s1) /\ needs (e_type (tsl s l t')) m) \/ e_fd (tsl s l t') = Some f /\ exists m, nth_error info t' = Some m /\ needs (e_type (tsl s l t')) m)) by (destruct (e_type (tsl s l t')); congruence || exact U).
              destruct X as (X1 & _ & X2 & f & X3 & X4). destruct X4 as [(m & X4 & X5)|(X4 & _)]; [|pose proof (NO l t' (or_introl eq_refl)) as Z; unfold none in Z; congruence].
              exists f, m. split; [easy|]. split; [easy|]. split; [eapply same_in; eauto|]. auto.
           ++ apply U2; auto; [destruct S1 as (-> & _); easy|]. rewrite A1; [easy|]. left. intros ->. easy.
    + destruct (IH s w CN HE) as (s2 & E2 & w2 & S2 & C2 & A2 & U2); auto; [intros; apply NO; now right|]. exists s2. rewrite E2. split; [easy|]. split; [easy|]. split; [easy|]. split; [easy|]. split.
      * intros l' t' N. apply A2. intros I. apply N. now right.
      * intros l' t' [<-|I] FL' T' TY; [|now apply U2]. exfalso. rewrite FL', (w_flag s w _ FL') in FE. discriminate.
Qed.
Lemma recover d s : Inv s -> fsm_tmr s = true -> healthy d (tick s) ->
  exists s', step d s Retry = Ok s' /\ Inv s' /\ Conn s' /\ Same s s' /\ forall l t, flag s l = true -> (1 <= t < 32)%nat -> e_type (tsl s l t) <> TS_NONE -> up s' l t.
Proof.
  intros I T HE. destruct (i_fsm s I) as [(_ & _ & X)|[(F & _ & C & N)|(_ & X & _)]]; [congruence| |congruence]. cbn [step]. rewrite T. unfold connect. cbn [fsm set_fsm client]. rewrite F, C.
  cbn [tick set_fsm]. destruct (HE (tick s) (le_n _)) as (-> & _). cbn [client next set_fsm]. set (s0 := set_fsm _ true _ _).
  assert (w0 : W s0). { subst s0. apply w_ctl, w_emit; try easy. match goal with |- W (next ?x) => apply (next_ok x 0%nat 0%nat) end. apply w_ctl, I. }
  assert (S0 : Same s s0). { subst s0. unfold Same. esg. do 2 (split; [easy|]). split; [lia|]. split; [|auto]. exists [DClient true]. split; [easy|]. intros l [J|[]]; discriminate. }
  assert (N0 : forall l t, none s0 l t) by (intros l t; unfold none; subst s0; esg; apply N).
  assert (C0 : Conn s0) by (subst s0; now unfold Conn; esg). assert (H0 : healthy d (tick s0)) by (eapply healthy_later; [exact HE|apply S0]). clearbody s0.
  destruct (healthy_each d all_lines (seq_NoDup _ _) s0 w0 C0 H0 (fun l t _ => N0 l t) (none_R s0 N0)) as (s' & E & w & S & CN & _ & U). exists s'. rewrite E. split; [easy|]. split; [split; [easy|now left]|]. split; [easy|]. split; [eapply same_trans; eauto|].
  intros l t FL TT TY. destruct S0 as (S1 & _ & _ & _ & S5). destruct (S5 l t) as (S6 & _). apply U; auto; try congruence. unfold all_lines. apply in_seq. pose proof (w_ex s (i_w s I) l (w_flag s (i_w s I) l FL)). lia.
Qed.

(** ** nothing is received but by reading *)
Notation is_rx := reception.
Definition Mute (s s' : st) : Prop := exists es, out s' = out s ++ es /\ Forall (fun e => is_rx e = false) es.
Lemma mute_same s s' : out s' = out s -> Mute s s'. Proof. intros E. exists []. rewrite app_nil_r. auto. Qed.
Lemma mute_one s s' e : out s' = out s ++ [e] -> is_rx e = false -> Mute s s'. Proof. intros E N. exists [e]. auto. Qed.
Lemma mute_trans a b c : Mute a b -> Mute b c -> Mute a c.
Proof. intros (x & A & B) (y & C & D). exists (x ++ y). rewrite C, A, app_assoc. split; [easy|]. now apply Forall_app. Qed.
Definition muted (s : st) (r : res st) : Prop := match r with Ok s' => Mute s s' | Bad _ => True end.
Lemma each_mute f ls : (forall s l, muted s (f s l)) -> forall s, muted s (each f ls s).
Proof.
  intros F. induction ls as [|l r IH]; intros s; cbn [each]; [now apply mute_same|]. pose proof (F s l) as H. destruct (f s l) as [s1|]; [|easy]. specialize (IH s1). unfold muted in *. destruct (each f r s1); [eapply mute_trans; eauto|easy].
Qed.
Lemma term_ts_mute s l t : muted s (terminate_ts s l t).
Proof. unfold terminate_ts. destruct (e_fd _); [|now apply mute_same]. destruct (e_reg _); [|easy]. exists [DUnreg n; DClose n]. esg. rewrite <- app_assoc. split; [easy|]. repeat constructor. Qed.
Lemma lost_mute s : muted s (conn_lost s).
Proof.
  unfold conn_lost. destruct (fsm s) as [[|]|]; try (now apply mute_same). set (s0 := if client s then _ else s).
  assert (M : Mute s s0) by (subst s0; destruct (client s); [eapply mute_one; [esg; reflexivity|easy]|now apply mute_same]). clearbody s0.
  pose proof (each_mute (fun s l => if flag s l && exist s l then terminate_line s l else Ok s) all_lines) as E.
  assert (E' : forall s l, muted s (if flag s l && exist s l then terminate_line s l else Ok s)).
  { intros s1 l. destruct (_ && _); [|now apply mute_same]. apply each_mute. intros. apply term_ts_mute. }
  specialize (E E' s0). unfold muted in *. destruct (each _ all_lines s0); [|easy]. eapply mute_trans; [exact M|]. eapply mute_trans; [exact E|now apply mute_same].
Qed.
Lemma close_mute s l t : Mute s (close_ts s l t).
Proof. unfold close_ts. destruct (e_fd _); [eapply mute_one; [esg; reflexivity|easy]|now apply mute_same]. Qed.
Lemma unreg_mute s l t : Mute s (unreg_ts s l t).
Proof. unfold unreg_ts. destruct (e_fd _); [destruct (e_reg _); [eapply mute_one; [esg; reflexivity|easy]|]|]; now apply mute_same. Qed.
Lemma reg_mute d s l t ty fd : Mute s (fst (reg_ts d s l t ty fd)).
Proof. unfold reg_ts. destruct (d_reg d (tick s)); cbn [fst]; (eapply mute_one; [esg; reflexivity|easy]). Qed.
Lemma update_ts_mute d info s l t : match update_ts d info s l t with Ok (s', _) => Mute s s' | Bad _ => True end.
Proof.
  unfold update_ts. cbv zeta. pose proof (unreg_mute s l t) as M. set (s1 := unreg_ts s l t) in *. clearbody s1. destruct (_ && _); [easy|]. destruct (type_eqb _ TS_NONE).
  - eapply mute_trans; [exact M|]. eapply mute_trans; [|apply close_mute]. now apply mute_same.
  - assert (M2 : Mute s1 (match_ts info s1 l t (e_type (tsl s1 l t)))).
    { unfold match_ts. destruct (type_eqb _ TS_SIGN); destruct (mode_eqb _ _); try (now apply mute_same); [apply close_mute|]. eapply mute_trans; [|apply close_mute]. now apply mute_same. }
    set (s2 := match_ts _ _ _ _ _) in *. clearbody s2. destruct (e_fd (tsl s2 l t)) as [fd|].
    + pose proof (reg_mute d s2 l t (e_type (tsl s1 l t)) fd) as M3. destruct (reg_ts _ _ _ _ _ _) as [s3 o]. cbn [fst] in M3. eapply mute_trans; [exact M|]. eapply mute_trans; eauto.
    + destruct (d_open d (tick s2)).
      * set (s3 := emit _ _). assert (M3 : Mute s2 s3) by (subst s3; eapply mute_one; [esg; reflexivity|easy]). clearbody s3. pose proof (reg_mute d s3 l t (e_type (tsl s1 l t)) (tick s2)) as M4. destruct (reg_ts _ _ _ _ _ _) as [s4 o]. cbn [fst] in M4.
        eapply mute_trans; [exact M|]. eapply mute_trans; [exact M2|]. eapply mute_trans; eauto.
      * pose proof (lost_mute (next s2)) as L. unfold muted in L. destruct (conn_lost (next s2)); [|easy]. eapply mute_trans; [exact M|]. eapply mute_trans; [exact M2|]. eapply mute_trans; [|exact L]. now apply mute_same.
Qed.
Lemma update_loop_mute d info l ts : forall s, match update_loop d info l ts s with Ok (s', _) => Mute s s' | Bad _ => True end.
Proof.
  induction ts as [|t r IH]; intros s; cbn [update_loop]; [now apply mute_same|]. pose proof (update_ts_mute d info s l t) as M. destruct (update_ts d info s l t) as [[s1 [rc|]]|]; cbn [fst snd]; try easy.
  specialize (IH s1). destruct (update_loop d info l r s1) as [[s2 rc]|]; [eapply mute_trans; eauto|easy].
Qed.
Lemma update_body_mute d s l : match update_body d s l with Ok (s', _) => Mute s s' | Bad _ => True end.
Proof.
  unfold update_body. destruct (fsm s) as [[|]|]; try (now apply mute_same). destruct (d_query d (tick s)) as [info|].
  - pose proof (update_loop_mute d info l slots (next s)) as M. destruct (update_loop d info l slots (next s)) as [[s2 rc]|]; [|easy]. eapply mute_trans; [|exact M]. now apply mute_same.
  - pose proof (lost_mute (next s)) as M. unfold muted in M. destruct (conn_lost (next s)); [|easy]. eapply mute_trans; [|exact M]. now apply mute_same.
Qed.
Lemma connect_mute d s : muted s (connect d s).
Proof.
  unfold connect. destruct (fsm s) as [[|]|]; try (now apply mute_same).
  set (p := if client s then (true, s) else (d_client d (tick s), next s)). assert (P : out (snd p) = out s) by (subst p; now destruct (client s)). destruct p as [ok s0]. cbn [snd] in P.
  destruct ok; [|now apply mute_same]. set (s1 := set_fsm _ true _ _).
  assert (M : Mute s s1). { subst s1. destruct (client s0); [apply mute_same; esg; exact P|]. eapply mute_one; [esg; now rewrite P|easy]. }
  clearbody s1. pose proof (each_mute (fun s l => if flag s l && exist s l then try x <- update_body d s l; Ok (fst x) else Ok s) all_lines) as E.
  assert (E' : forall s l, muted s (if flag s l && exist s l then try x <- update_body d s l; Ok (fst x) else Ok s)).
  { intros s2 l. destruct (_ && _); [|now apply mute_same]. pose proof (update_body_mute d s2 l) as H. destruct (update_body d s2 l) as [[s3 rc]|]; easy. }
  specialize (E E' s1). unfold muted in *. destruct (each _ all_lines s1); [|easy]. eapply mute_trans; eauto.
Qed.
Lemma want_mute s l t : Mute s (want_write s l t).
Proof. unfold want_write. destruct (fsm s) as [[|]|]; try (now apply mute_same). destruct (e_type _); now apply mute_same. Qed.
Lemma exec_mute d s c : muted s (exec d s c).
Proof.
  destruct c as [l t ty|l|l t m]; cbn [exec].
  - unfold muted. destruct (_ && _ && _); [|now apply mute_same]. unfold config. cbv zeta. destruct (type_eqb _ _); [now apply mute_same|]. eapply mute_one; [esg; reflexivity|easy].
  - destruct (exist s l); [|now apply mute_same]. unfold line_update. set (s0 := emit (set_flag s l) _). assert (M0 : Mute s s0) by (subst s0; eapply mute_one; [esg; reflexivity|easy]). clearbody s0.
    assert (M1 : muted s0 (match fsm s0 with Some _ => Ok s0 | None => connect d (set_fsm s0 (client s0) (Some false) false) end)).
    { destruct (fsm s0); [now apply mute_same|]. pose proof (connect_mute d (set_fsm s0 (client s0) (Some false) false)) as M. unfold muted in *. destruct (connect d _); [|easy]. eapply mute_trans; [|exact M]. now apply mute_same. }
    unfold muted in *. destruct (match fsm s0 with Some _ => _ | None => _ end) as [s1|]; [|easy]. pose proof (update_body_mute d s1 l) as M2. destruct (update_body d s1 l) as [[s2 rc]|]; [|easy]. cbn [fst snd].
    eapply mute_trans; [exact M0|]. eapply mute_trans; [exact M1|]. eapply mute_trans; [exact M2|]. eapply mute_one; [esg; reflexivity|easy].
  - unfold muted. destruct (_ && _ && _); [|now apply mute_same]. unfold send. cbv zeta. destruct (e_type _); try (now apply mute_same).
    + set (s1 := emit _ _). assert (M : Mute s s1) by (subst s1; eapply mute_one; [esg; reflexivity|easy]). clearbody s1. destruct (e_tmr _); [exact M|]. eapply mute_trans; [exact M|apply want_mute].
    + eapply mute_trans; [apply want_mute|]. eapply mute_one; [esg; reflexivity|easy].
    + eapply mute_trans; [apply want_mute|]. eapply mute_one; [esg; reflexivity|easy].
Qed.
Lemma execs_mute d cs : forall s, muted s (execs d cs s).
Proof.
  induction cs as [|c r IH]; intros s; cbn [execs]; [now apply mute_same|]. pose proof (exec_mute d s c) as M. unfold muted in *. destruct (exec d s c) as [s1|]; [|easy]. specialize (IH s1). destruct (execs d r s1); [eapply mute_trans; eauto|easy].
Qed.
Lemma sign_write_mute s l t : muted s (sign_write s l t).
Proof. unfold sign_write. cbv zeta. destruct (e_q _); [now apply mute_same|]. destruct (e_lapd _); [|easy]. eapply mute_one; [esg; reflexivity|easy]. Qed.
Lemma trau_write_mute d s l t : muted s (trau_write d s l t).
Proof.
  unfold trau_write. destruct (e_fd _); [|apply lost_mute]. cbv zeta. set (s1 := emit _ _). assert (M : Mute s s1) by (subst s1; eapply mute_one; [esg; reflexivity|easy]). clearbody s1.
  destruct (_ <=? 0); [|exact M]. pose proof (lost_mute s1) as L. unfold muted in *. destruct (conn_lost s1); [eapply mute_trans; eauto|easy].
Qed.
Lemma queue_write_mute d s l t h : muted s (queue_write d s l t h).
Proof.
  unfold queue_write. destruct (e_q _) as [|m q]; [now apply mute_same|]. unfold do_write. set (s0 := set_ts s l t _). assert (M0 : Mute s s0) by now apply mute_same. clearbody s0.
  destruct (e_fd _); set (s1 := emit _ _); assert (M : Mute s0 s1) by (subst s1; eapply mute_one; [esg; reflexivity|easy]); clearbody s1;
  (destruct (if h then _ else _); [pose proof (lost_mute s1) as L; unfold muted in *; destruct (conn_lost s1); [eapply mute_trans; [exact M0|]; eapply mute_trans; eauto|easy]|eapply mute_trans; eauto]).
Qed.
