(** C77: the keep-alive between two ends, in time. *)
From Coq Require Import List Arith Lia Bool ZArith.
From Verif Require Import Base KeepaliveModel KeepaliveProps KaPairModel.
Import ListNotations.
Open Scope Z_scope.

(** * Specification *)
(** everything on its way to an end [x] with [P x] arrives within [D]; timers run at most [J] late *)
Definition on_time (P : bool -> bool) (D J : Z) (s : sys) (t : Z) : Prop :=
  (forall m, In m (wire s) -> P (m_to m) = true -> t <= m_at m + D) /\
  (forall x k d, kaof s x = Some k -> deadline k = Some d -> t <= d + J).
(** every execution in which this is so, with its log, from the state [s0] at the time [t0] *)
Inductive exec (c : bool -> cfg) (P : bool -> bool) (D J : Z) (t0 : Z) (s0 : sys) : Z -> sys -> list sout -> Prop :=
| X0 : exec c P D J t0 s0 t0 s0 []
| X1 t s l t' e s' o : exec c P D J t0 s0 t s l -> t <= t' -> on_time P D J s t' -> step c s t' e = Some (s', o) -> exec c P D J t0 s0 t' s' (l ++ o).
Definition both (x : bool) : bool := true.
(** the keep-alive of [x] gives its peer up *)
Definition gives_up (x : bool) (o : sout) : Prop := match o with OKa y (TimedOut _) | OKa y (Terminated _) => y = x | _ => False end.
Definition stops (x : bool) (o : sout) : Prop := match o with OKa y (Called _ CStop) => y = x | _ => False end.
(** a PONG reaches [x]: two octets of length, protocol 254, message type 1 *)
Definition gets_pong (x : bool) (o : sout) : Prop := match o with ORx y _ d => y = x /\ (exists h l r, d = h :: l :: 254 :: 1 :: r) | _ => False end.
Lemma pong_octets d : ccm_type d = Some 1 -> exists h l r, d = h :: l :: 254 :: 1 :: r.
Proof.
  destruct d as [|h [|l [|p [|t r]]]]; try (intros H; discriminate H). cbn [ccm_type].
  destruct (Z.eqb_spec p 254) as [->|]; intros H; [|discriminate H]. injection H as ->. now exists h, l, r.
Qed.
(** [x] was started and not stopped since *)
Definition running (x : bool) (l : list sout) : Prop :=
  exists a t b, l = a ++ OKa x (Called t CStart) :: b /\ Forall (fun o => ~ stops x o) b.
Definition sane (c : bool -> cfg) : Prop := forall x, can_send (c x) /\ 0 < interval (c x) /\ 0 < wait_for_resp (c x).

(** * One end *)
Definition of (x : bool) (l : list sout) : list kout := flat_map (fun o => match o with OKa y k => if Bool.eqb x y then [k] else [] | _ => [] end) l.
Lemma of_app x a b : of x (a ++ b) = of x a ++ of x b.
Proof. unfold of. now rewrite flat_map_app. Qed.
Lemma of_ka x y o : of x (map (OKa y) o) = if Bool.eqb x y then o else [].
Proof. unfold of. induction o as [|a o IH]; cbn; [now destruct (Bool.eqb x y)|]. rewrite IH. now destruct (Bool.eqb x y). Qed.
Definition gone (o : kout) : Prop := match o with TimedOut _ | Terminated _ => True | _ => False end.
Lemma in_of x l o : In o (of x l) <-> In (OKa x o) l.
Proof.
  unfold of. rewrite in_flat_map. split.
  - intros (e & I & H). destruct e as [y k|]; [|destruct H]. destruct (Bool.eqb_spec x y) as [<-|]; [|destruct H]. destruct H as [<-|[]]. exact I.
  - intros I. exists (OKa x o). split; [exact I|]. rewrite Bool.eqb_reflx. now left.
Qed.
(** what an end does *)
Lemma kcase c k m now e k' o : R c (Some k) m -> can_send c -> kstep c (Some k) (now, e) = Some (k', o) ->
  (exists m', msteps c m o = Some m' /\ R c k' m') /\
  match e, m with
  | Start, Off => exists v, o = [Called now CStart; Ping now v gen_ipa_ping]
  | Start, _ => o = [Called now CStart]
  | Stop, _ => o = [Called now CStop]
  | Pong, _ => o = [Called now CPong]
  | Expire, Outst t => (t + wait_for_resp c <= now /\ Exists gone o) \/ (o = [] /\ k' = Some k)
  | Expire, Idle t => (t + interval c <= now /\ exists v, o = [Ping now v gen_ipa_ping]) \/ (o = [] /\ k' = Some k)
  | Expire, _ => o = [] /\ k' = Some k
  end.
Proof.
  intros HR CS E. split; [apply (step_mon c (Some k) m (now, e) k' o HR E)|].
  assert (PN : forall n, exists v, onenter_wait_resp c n = Some [Ping n v gen_ipa_ping]).
  { intros n. unfold can_send in CS. unfold onenter_wait_resp. destruct (who c) as [| |d]; [destruct (send_fn c); eauto|destruct (send_fn c); eauto|]. destruct CS as [-> ->]. eauto. }
  destruct k as [q tm d n]. destruct (PN now) as (v & EV). destruct e.
  - destruct m; cbn in HR; try contradiction; cbn [kstep called] in E; unfold start, state_chg in E; cbn [st] in E; (try destruct HR as [-> HR]); (try destruct HR as (-> & HR)); cbn in E; rewrite ?EV in E; injection E as <- <-; eauto.
  - destruct m; cbn in HR; try contradiction; cbn [kstep called] in E; unfold stop, state_chg in E; cbn [st] in E; destruct HR as [-> HR]; cbn in E; injection E as <- <-; reflexivity.
  - destruct m; cbn in HR; try contradiction; cbn [kstep called] in E; unfold pong, state_chg in E; cbn [st] in E; destruct HR as [-> HR]; cbn in E; injection E as <- <-; reflexivity.
  - destruct m; cbn in HR; try contradiction; cbn [kstep deadline] in E.
    + destruct HR as [_ ->]. injection E as <- <-. auto.
    + destruct HR as (-> & -> & ->). unfold arm in *.
      destruct (wait_for_resp c =? 0) eqn:W; 
      [injection E as <- <-; right; auto|].
 cbv iota in E. destruct (t + wait_for_resp c <=? now) eqn:L; [apply Z.leb_le in L|injection E as <- <-; right; auto].
      left. split; [exact L|]. unfold expire in E. cbn [T st cb_count] in E. destruct (timeout_cb c) as [cb|]; [|injection E as <- <-; now left].
      destruct (cb n) as [[cl fr] rc]. destruct (cb_calls c now _ cl) as [[s1 o1]|]; [|discriminate E]. destruct fr; [|destruct (rc =? 1)]; injection E as <- <-; now left.
    + destruct HR as [_ ->]. injection E as <- <-. auto.
    + destruct HR as (-> & -> & ->). unfold arm in *. destruct (interval c =? 0) eqn:W; 
      [injection E as <- <-; right; auto|].
 cbv iota in E. destruct (t + interval c <=? now) eqn:L; [apply Z.leb_le in L|injection E as <- <-; right; auto].
      left. split; [exact L|]. unfold expire, state_chg in E. cbn in E. rewrite EV in E. injection E as <- <-. eauto.
Qed.
(** times of the monitor, timers at most [J] late *)
Definition mtime (c : cfg) (J : Z) (m : mon) (t : Z) : Prop :=
  match m with Outst t0 => t0 <= t <= t0 + wait_for_resp c + J | Idle t0 => t0 <= t <= t0 + interval c + J | Starting t0 => t0 <= t | _ => True end.
Lemma someinj {A} (a b : A) : Some a = Some b -> a = b.
Proof. now intros [= ->]. Qed.
Lemma pairinj {A B} (a a' : A) (b b' : B) : (a, b) = (a', b') -> a = a' /\ b = b'.
Proof. intros [= -> ->]. now split. Qed.
Lemma mtime_age c J k m t t' : 0 < interval c -> 0 < wait_for_resp c -> R c k m -> mtime c J m t -> t <= t' -> (forall k' d, k = Some k' -> deadline k' = Some d -> t' <= d + J) -> mtime c J m t'.
Proof.
  intros I W HR M T O. destruct m; cbn in *; try lia; try exact Logic.I; destruct k as [k|]; try contradiction; destruct HR as (_ & _ & HR); unfold arm in HR.
  - destruct (Z.eqb_spec (wait_for_resp c) 0); [lia|]. specialize (O k _ eq_refl HR). lia.
  - destruct (Z.eqb_spec (interval c) 0); [lia|]. specialize (O k _ eq_refl HR). lia.
Qed.

Lemma kaof_set s x k y : kaof (setka s x k) y = if Bool.eqb y x then k else kaof s y.
Proof. now destruct x, y. Qed.
Lemma kaof_wire s w y : kaof (setwire s w) y = kaof s y.
Proof. now destruct y. Qed.
Lemma wire_set s x k : wire (setka s x k) = wire s.
Proof. now destruct x. Qed.
Lemma in_remove_nth {A} i (l : list A) a : In a (remove_nth i l) -> In a l.
Proof. revert i. induction l as [|b l IH]; intros i; [destruct i; intros []|]. destruct i; cbn; [auto|]. intros [<-|H]; eauto. Qed.
Lemma in_or_removed {A} i (l : list A) m a : nth_error l i = Some m -> In a l -> a = m \/ In a (remove_nth i l).
Proof. revert i. induction l as [|b l IH]; intros i; [destruct i; discriminate|]. destruct i; cbn; [intros [= ->] [->|]; auto|]. intros E [<-|H]; [right; now left|]. destruct (IH i E H); auto. Qed.

(** * A healthy connection *)
Definition answer_due (D : Z) (s : sys) (x : bool) (t0 : Z) : Prop := exists w, In w (wire s) /\
  ((m_to w = negb x /\ m_oct w = gen_ipa_ping /\ m_at w = t0) \/ (m_to w = x /\ m_oct w = pong_msg /\ t0 <= m_at w <= t0 + D)).
Definition pinged (x : bool) (t0 : Z) (l : list sout) : Prop := exists v, In (OKa x (Ping t0 v gen_ipa_ping)) l.
Definition healthy (D : Z) (s : sys) (l : list sout) (x : bool) (m : mon) : Prop :=
  match m with
  | Off => True
  | Outst t0 => pinged x t0 l /\ answer_due D s x t0
  | Idle t1 => exists t0, pinged x t0 l /\ t1 <= t0 + 2 * D
  | _ => False
  end.
Definition view (c : bool -> cfg) (J : Z) (s : sys) (l : list sout) (t : Z) (x : bool) (m : mon) : Prop :=
  msteps (c x) Off (of x l) = Some m /\ R (c x) (kaof s x) m /\ mtime (c x) J m t.
Record HInv (c : bool -> cfg) (D J t : Z) (s : sys) (l : list sout) : Prop := mkH {
  hv : forall x, exists m, view c J s l t x m /\ healthy D s l x m;
  hw : forall w, In w (wire s) -> m_at w <= t <= m_at w + D;
  hg : forall x, Forall (fun o => ~ gives_up x o) l }.
Lemma pinged_app x t l o : pinged x t l -> pinged x t (l ++ o).
Proof. intros (v & H). exists v. apply in_or_app. now left. Qed.
Lemma due_mono D s s' x t : (forall w, In w (wire s) -> In w (wire s')) -> answer_due D s x t -> answer_due D s' x t.
Proof. intros H (w & I & C). exists w. auto. Qed.
Lemma healthy_mono D s s' l o x m : (forall w, In w (wire s) -> In w (wire s')) -> healthy D s l x m -> healthy D s' (l ++ o) x m.
Proof.
  intros H. destruct m; cbn; auto.
  - intros [P A]. split; [now apply pinged_app|eapply due_mono; eauto].
  - intros (t0 & P & A). exists t0. split; [now apply pinged_app|exact A].
Qed.
Lemma age c D J t t' s l : sane c -> HInv c D J t s l -> t <= t' -> on_time both D J s t' -> HInv c D J t' s l.
Proof.
  intros SN [V W G] T [O1 O2]. split; auto.
  - intros x. destruct (V x) as (m & (A & B & C) & H). destruct (SN x) as (_ & SI & SW). exists m. split; [|exact H]. split; [exact A|]. split; [exact B|]. apply (mtime_age _ _ (kaof s x) _ t); eauto.
  - intros w I. split; [destruct (W w I); lia|]. now apply O1.
Qed.
Lemma sent_ping x t v : sent x [Ping t v gen_ipa_ping] = [mkM (negb x) gen_ipa_ping t].
Proof. reflexivity. Qed.

Lemma ka_call_H c D J t s l x e s' o : sane c -> 0 <= D -> 0 <= J -> (2 * D < wait_for_resp (c x)) -> e <> Pong -> HInv c D J t s l -> ka_call (c x) s x t e = Some (s', o) -> HInv c D J t s' (l ++ o).
Proof.
  intros SN D0 J0 DW NP HI E. destruct HI as [V W G]. destruct (V x) as (m & (A & B & C) & H). unfold ka_call in E. destruct (SN x) as (CS & SI & SW).
  destruct (kaof s x) as [k|] eqn:EK; [|exfalso; destruct m; try contradiction].
  destruct (kstep (c x) (Some k) (t, e)) as [[k' ko]|] eqn:KS; [|discriminate E]. rewrite wire_set in E. apply someinj, pairinj in E as [<- <-].
  destruct (kcase _ _ _ _ _ _ _ B CS KS) as [(m' & M1 & R1) KC].
  (* the other end and what does not depend on the case *)
  assert (MW : forall w, In w (wire s) -> In w (wire (setwire (setka s x k') (wire s ++ sent x ko)))) by (intros w I; cbn; apply in_or_app; now left).
  assert (X : healthy D (setwire (setka s x k') (wire s ++ sent x ko)) (l ++ map (OKa x) ko) x m' /\ mtime (c x) J m' t /\ (forall w, In w (sent x ko) -> m_at w = t) /\ Forall (fun o => ~ gone o) ko).
  { destruct e; [| |contradiction|].
    - destruct m; cbn in B; try contradiction.
      + destruct KC as (v & ->). cbn in M1. rewrite !Z.eqb_refl in M1. cbn in M1. injection M1 as <-. split; [|split; [cbn; lia|split; [intros w [<-|[]]; reflexivity|repeat constructor; cbn; intros []]]].
        split; [exists v; apply in_or_app; right; right; now left|]. exists (mkM (negb x) gen_ipa_ping t). split; [cbn; apply in_or_app; right; now left|]. left. now cbn.
      + subst ko. cbn in M1. injection M1 as <-. split; [now apply (healthy_mono D s)|]. split; [exact C|]. split; [intros w []|repeat constructor; cbn; intros []].
      + subst ko. cbn in M1. injection M1 as <-. split; [now apply (healthy_mono D s)|]. split; [exact C|]. split; [intros w []|repeat constructor; cbn; intros []].
    - assert (KC' : ko = [Called t CStop]) by (destruct m; exact KC). subst ko. assert (m' = Off) by (destruct m; cbn in B; try contradiction; cbn in M1; congruence). subst m'. split; [exact Logic.I|]. split; [exact Logic.I|]. split; [intros w []|repeat constructor; cbn; intros []].
    - destruct m; cbn in B; try contradiction.
      + destruct KC as [-> ->]. cbn in M1. injection M1 as <-. split; [exact Logic.I|]. split; [exact Logic.I|]. split; [intros w []|constructor].
      + destruct KC as [[L _]|[-> ->]].
        * exfalso. destruct H as [_ (w & I & Q)]. specialize (W w I). destruct Q as [(_ & _ & Q)|(_ & _ & Q)]; lia.
        * cbn in M1. injection M1 as <-. split; [now apply (healthy_mono D s)|]. split; [exact C|]. split; [intros w []|constructor].
      + destruct KC as [[L (v & ->)]|[-> ->]].
        * cbn in M1. destruct (Z.leb_spec (t0 + interval (c x)) t) as [_|]; [|lia]. cbn in M1. injection M1 as <-. split; [|split; [cbn; lia|split; [intros w [<-|[]]; reflexivity|repeat constructor; cbn; intros []]]].
          split; [exists v; apply in_or_app; right; now left|]. exists (mkM (negb x) gen_ipa_ping t). split; [cbn; apply in_or_app; right; now left|]. left. now cbn.
        * cbn in M1. injection M1 as <-. split; [now apply (healthy_mono D s)|]. split; [exact C|]. split; [intros w []|constructor]. }
  destruct X as (X1 & X2 & X3 & X4). split.
  - intros y. destruct (Bool.eqb_spec y x) as [->|N].
    + exists m'. split; [|exact X1]. split; [|split; [|exact X2]].
      * rewrite of_app, msteps_app, A, of_ka, Bool.eqb_reflx. exact M1.
      * rewrite kaof_wire, kaof_set, Bool.eqb_reflx. exact R1.
    + destruct (V y) as (n & (A' & B' & C') & H'). exists n. assert (NE : Bool.eqb y x = false) by now apply Bool.eqb_false_iff. split; [|now apply (healthy_mono D s)]. split; [|split; [|exact C']].
      * rewrite of_app, msteps_app, A', of_ka, NE. reflexivity.
      * rewrite kaof_wire, kaof_set, NE. exact B'.
  - intros w I. cbn in I. apply in_app_or in I as [I|I]; [auto|]. rewrite (X3 w I). lia.
  - intros y. apply Forall_app. split; [auto|]. apply Forall_map. eapply Forall_impl; [|exact X4]. intros a; cbn. destruct a; cbn; auto.
Qed.
Lemma wire_H c D J t s l w' o : HInv c D J t s l -> (forall w, In w w' -> m_at w <= t <= m_at w + D) -> (forall x t0, answer_due D s x t0 -> answer_due D (setwire s w') x t0) ->
  (forall y, of y o = []) -> (forall y, Forall (fun e => ~ gives_up y e) o) -> HInv c D J t (setwire s w') (l ++ o).
Proof.
  intros [V W G] W' A O N. split.
  - intros x. destruct (V x) as (m & (V1 & V2 & V3) & H). exists m. split.
    + split; [rewrite of_app, O, app_nil_r; exact V1|]. split; [rewrite kaof_wire; exact V2|exact V3].
    + destruct m; cbn in *; auto.
      * destruct H as [P Q]. split; [now apply pinged_app|auto].
      * destruct H as (t1 & P & Q). exists t1. split; [now apply pinged_app|auto].
  - exact W'.
  - intros x. apply Forall_app. split; auto.
Qed.
Lemma step_H c D J t s l e s' o : sane c -> 0 <= D -> 0 <= J -> (forall x, 2 * D < wait_for_resp (c x)) -> HInv c D J t s l -> step c s t e = Some (s', o) -> HInv c D J t s' (l ++ o).
Proof.
  intros SN D0 J0 DW HI E. destruct e as [x u|i|x d|]; cbn [step] in E.
  - apply (ka_call_H c D J t s l x (kev_of u)); auto. now destruct u.
  - destruct (nth_error (wire s) i) as [m|] eqn:EN; [|apply someinj, pairinj in E as [<- <-]; now rewrite app_nil_r].
    set (x := m_to m) in *. pose proof (hw _ _ _ _ _ _ HI m (nth_error_In _ _ EN)) as TM.
    assert (RM : forall w, In w (remove_nth i (wire s)) -> m_at w <= t <= m_at w + D) by (intros w I; apply (hw _ _ _ _ _ _ HI); eapply in_remove_nth; eauto).
    destruct (hv _ _ _ _ _ _ HI x) as (mo & (V1 & V2 & V3) & H). destruct (kaof s x) as [k|] eqn:EK; [|exfalso; destruct mo; try contradiction].
    unfold rcv in E. rewrite kaof_wire, EK in E. 
    assert (Other : ccm_type (m_oct m) <> Some 0 -> ccm_type (m_oct m) <> Some 1 -> forall z t0, answer_due D s z t0 -> answer_due D (setwire s (remove_nth i (wire s))) z t0).
    { intros N0 N1 z t0 (w & I & C). exists w. split; [|exact C]. cbn. destruct (in_or_removed i _ m w EN I) as [->|]; [exfalso|assumption]. destruct C as [(_ & C & _)|(_ & C & _)]; rewrite C in *; [now apply N0|now apply N1]. }
    assert (Plain : ccm_type (m_oct m) <> Some 0 -> ccm_type (m_oct m) <> Some 1 -> HInv c D J t (setwire s (remove_nth i (wire s))) (l ++ [ORx x t (m_oct m)])).
    { intros N0 N1. apply wire_H; auto. }
    destruct (ccm_type (m_oct m)) as [ty|] eqn:ET; [|apply someinj, pairinj in E as [<- <-]; now apply Plain].
    destruct (Z.eq_dec ty 1) as [->|N1]; [|destruct (Z.eq_dec ty 0) as [->|N0]].
    + (* PONG *)
      unfold ka_call in E. rewrite kaof_wire, EK in E. destruct (kstep (c x) (Some k) (t, Pong)) as [[k' ko]|] eqn:KS; [|discriminate E]. apply someinj, pairinj in E as [<- <-].
      destruct (SN x) as (CS & SI & SW). destruct (kcase _ _ _ _ _ _ _ V2 CS KS) as [(m' & M1 & R1) ->]. cbn [sent flat_map map]. rewrite app_nil_r, wire_set. cbn [wire setwire].
      assert (OX : forall z t0, z <> x -> answer_due D s z t0 -> answer_due D (setwire (setka (setwire s (remove_nth i (wire s))) x k') (remove_nth i (wire s))) z t0).
      { intros z t0 N (w & I & C). exists w. split; [|exact C]. cbn. destruct (in_or_removed i _ m w EN I) as [->|]; [exfalso|assumption]. destruct C as [(_ & C & _)|(C & _ & _)]; [rewrite C in ET; discriminate ET|now apply N]. }
      assert (X : healthy D (setwire (setka (setwire s (remove_nth i (wire s))) x k') (remove_nth i (wire s))) (l ++ [ORx x t (m_oct m); OKa x (Called t CPong)]) x m' /\ mtime (c x) J m' t).
      { destruct mo; cbn in V2; try contradiction; cbn in M1; injection M1 as <-; cbn [healthy mtime].
        - split; exact Logic.I.
        - split; [|lia]. destruct H as [P (w & I & C)]. exists t0. split; [now apply pinged_app|]. pose proof (hw _ _ _ _ _ _ HI w I). destruct C as [(_ & _ & C)|(_ & _ & C)]; lia.
        - split; [|exact V3]. destruct H as (t1 & P & Q). exists t1. split; [now apply pinged_app|exact Q]. }
      destruct X as [X1 X2]. split.
      * intros y. destruct (Bool.eqb_spec y x) as [->|N].
        -- exists m'. split; [|exact X1]. split; [|split; [|exact X2]].
           ++ rewrite of_app, msteps_app, V1. unfold of at 1. cbn [flat_map]. rewrite Bool.eqb_reflx. exact M1.
           ++ rewrite kaof_wire, kaof_set, Bool.eqb_reflx. exact R1.
        -- destruct (hv _ _ _ _ _ _ HI y) as (n & (A' & B' & C') & H'). exists n. assert (NE : Bool.eqb y x = false) by now apply Bool.eqb_false_iff. split; [split; [|split; [|exact C']]|].
           ++ rewrite of_app, msteps_app, A'. unfold of at 1. cbn [flat_map]. rewrite NE. reflexivity.
           ++ rewrite kaof_wire, kaof_set, NE, kaof_wire. exact B'.
           ++ destruct n; cbn in *; auto.
              ** destruct H' as [P Q]. split; [now apply pinged_app|auto].
              ** destruct H' as (t1 & P & Q). exists t1. split; [now apply pinged_app|auto].
      * intros w I. cbn in I. auto.
      * intros y. apply Forall_app. split; [apply (hg _ _ _ _ _ _ HI)|]. repeat constructor; cbn; intros [].
    + (* PING *)
      apply someinj, pairinj in E as [<- <-]. cbn [wire setwire]. change (setwire (setwire s (remove_nth i (wire s))) (remove_nth i (wire s) ++ [mkM (negb x) pong_msg t])) with (setwire s (remove_nth i (wire s) ++ [mkM (negb x) pong_msg t])).
      apply wire_H; auto.
      * intros w I. apply in_app_or in I as [I|[<-|[]]]; [auto|cbn; lia].
      * intros z t0 (w & I & C). destruct (in_or_removed i _ m w EN I) as [->|I']; [|exists w; split; [cbn; apply in_or_app; now left|exact C]].
        destruct C as [(C1 & C2 & C3)|(C1 & C2 & C3)]; [|rewrite C2 in ET; discriminate ET].
        exists (mkM (negb x) pong_msg t). split; [cbn; apply in_or_app; right; now left|]. right. cbn. split; [unfold x; rewrite C1; apply negb_involutive|]. split; [reflexivity|lia].
    + assert (Q : Some (setwire s (remove_nth i (wire s)), [ORx x t (m_oct m)]) = Some (s', o)) by (destruct ty as [|p|p]; [contradiction|destruct p; try exact E; contradiction|exact E]).
      apply someinj, pairinj in Q as [<- <-]. apply Plain; congruence.
  - assert (Q : (s', o) = (s, []) \/ (s', o) = (setwire s (wire s ++ [mkM (negb x) d t]), [])).
    { destruct (ccm_type d) as [[|[p|p|]|p]|]; injection E as <- <-; auto. }
    destruct Q as [Q|Q]; apply pairinj in Q as [-> ->]; rewrite app_nil_r; [exact HI|]. rewrite <- (app_nil_r l). apply wire_H; auto.
    + intros w I. apply in_app_or in I as [I|[<-|[]]]; [now apply (hw _ _ _ _ _ _ HI)|cbn; lia].
    + intros z t0. apply due_mono. intros w I. cbn. apply in_or_app. now left.
  - apply someinj, pairinj in E as [<- <-]. now rewrite app_nil_r.
Qed.
Lemma init_H c D J t : 0 <= D -> 0 <= J -> HInv c D J t sys0 [].
Proof.
  intros D0 J0. split.
  - intros x. exists Off. split; [|exact Logic.I]. split; [reflexivity|]. split; [destruct x; split; reflexivity|exact Logic.I].
  - intros w [].
  - intros x. constructor.
Qed.
Lemma exec_H c D J t0 t s l : sane c -> 0 <= D -> 0 <= J -> (forall x, 2 * D < wait_for_resp (c x)) -> exec c both D J t0 sys0 t s l -> HInv c D J t s l.
Proof.
  intros SN D0 J0 DW X. induction X as [|t s l t' e s' o X IH T O E]; [now apply init_H|]. apply (step_H c D J t' s l e); auto. now apply (age c D J t).
Qed.

(** * a connection on which everything arrives within [D] and on which either end waits longer than
    [2 D] is never given up, by neither end, whatever is started, stopped and sent *)
Theorem C77_no_false_alarm : forall c D J t0 t s l, sane c -> 0 <= D -> 0 <= J -> (forall x, 2 * D < wait_for_resp (c x)) -> exec c both D J t0 sys0 t s l ->
  forall x, Forall (fun o => ~ gives_up x o) l /\ exists k, kaof s x = Some k.
Proof.
  intros c D J t0 t s l SN D0 J0 DW X x. apply exec_H in X; auto. split; [apply (hg _ _ _ _ _ _ X)|]. destruct (hv _ _ _ _ _ _ X x) as (m & (_ & B & _) & H). destruct (kaof s x) as [k|]; [eauto|]. destruct m; contradiction.
Qed.
(** a keep-alive that runs pings: after the start, at every moment, the last PING is not longer ago
    than the interval, twice the delay and the lateness of timers *)
Lemma started_mon c : forall b m m', (match m with Off | Dead => False | _ => True end) -> msteps c m b = Some m' -> Forall (fun o => ~ is_call CStop o) b -> Forall (fun o => ~ gone o) b -> match m' with Off | Dead => False | _ => True end.
Proof.
  induction b as [|o b IH]; intros m m' H M NS NG; [injection M as <-; exact H|]. cbn [msteps] in M. destruct (mstep c m o) as [m1|] eqn:E1; [|discriminate M]. apply Forall_inv in NS as NS1. apply Forall_inv in NG as NG1.
  apply (IH m1 m'); [|exact M|now apply Forall_inv_tail in NS|now apply Forall_inv_tail in NG].
  destruct o as [t [| |]|t v d|t|t], m; cbn in E1; try discriminate E1; try contradiction; try (injection E1 as <-; exact Logic.I); try (now cbn in NG1; exfalso; apply NG1); try (now cbn in NS1; exfalso; apply NS1);
    (destruct (_ && _) in E1; [injection E1 as <-; exact Logic.I|discriminate E1]).
Qed.
Lemma of_Forall x l (Q : kout -> Prop) : Forall (fun o => match o with OKa y k => y = x -> Q k | _ => True end) l -> Forall Q (of x l).
Proof. intros H. apply Forall_forall. intros o I. apply in_of in I. rewrite Forall_forall in H. exact (H _ I eq_refl). Qed.
Lemma running_mon c x l m : running x l -> Forall (fun o => ~ gives_up x o) l -> msteps c Off (of x l) = Some m -> match m with Off | Dead => False | _ => True end.
Proof.
  intros (a & t & b & -> & NS) NG M. rewrite of_app, msteps_app in M. destruct (msteps c Off (of x a)) as [m1|] eqn:E1; [|discriminate M].
  replace (of x (OKa x (Called t CStart) :: b)) with (Called t CStart :: of x b) in M by (unfold of; cbn [flat_map]; now rewrite Bool.eqb_reflx).
  cbn [msteps] in M. destruct (mstep c m1 (Called t CStart)) as [m2|] eqn:E2; [|discriminate M]. apply Forall_app in NG as [_ NG]. apply Forall_inv_tail in NG.
  apply (started_mon c (of x b) m2 m); auto.
  - destruct m1; cbn in E2; try discriminate E2; injection E2 as <-; exact Logic.I.
  - apply of_Forall. eapply Forall_impl; [|exact NS]. intros [y k|y tt d]; cbn; [intros N -> Q; destruct k as [tt k| | |]; cbn in Q; try contradiction; subst k; now apply N|auto].
  - apply of_Forall. eapply Forall_impl; [|exact NG]. intros [y k|y tt d]; cbn; [intros N -> Q; destruct k as [tt k| | |]; cbn in Q; try contradiction; now apply N|auto].
Qed.
Theorem C77_pings : forall c D J t0 t s l x, sane c -> 0 <= D -> 0 <= J -> (forall x, 2 * D < wait_for_resp (c x)) -> exec c both D J t0 sys0 t s l -> running x l ->
  exists p v, In (OKa x (Ping p v [0; 1; 254; 0])) l /\ t <= p + interval (c x) + 2 * D + J.
Proof.
  intros c D J t0 t s l x SN D0 J0 DW X RN. apply exec_H in X; auto. destruct (hv _ _ _ _ _ _ X x) as (m & (A & B & C) & H). pose proof (running_mon _ _ _ _ RN (hg _ _ _ _ _ _ X x) A) as RM. destruct (SN x) as (_ & SI & SW).
  destruct m; cbn [healthy mtime] in *; try contradiction.
  - destruct H as [(v & P) (w & I & Q)]. exists t1, v. split; [exact P|]. pose proof (hw _ _ _ _ _ _ X w I). destruct Q as [(_ & _ & Q)|(_ & _ & Q)]; lia.
  - destruct H as (p & (v & P) & Q). exists p, v. split; [exact P|]. lia.
Qed.

(** * A silent peer *)
Definition pending (m : mon) : Prop := match m with Off | Outst _ | Idle _ => True | _ => False end.
Lemma gone_up x o : Exists gone o -> Exists (gives_up x) (map (OKa x) o).
Proof. intros H. apply Exists_exists in H as (a & I & G). apply Exists_exists. exists (OKa x a). split; [now apply in_map|]. destruct a; cbn in G; try contradiction; reflexivity. Qed.
Lemma view_same c J s l t x m s' o : view c J s l t x m -> kaof s' x = kaof s x -> of x o = [] -> view c J s' (l ++ o) t x m.
Proof. intros (A & B & C) K O. split; [rewrite of_app, O, app_nil_r; exact A|]. split; [rewrite K; exact B|exact C]. Qed.
Definition moves (t : Z) (x : bool) (m m' : mon) (o : list sout) : Prop :=
  m' = m \/ (m' = Off /\ Exists (stops x) o) \/ (m = Off /\ m' = Outst t) \/ (exists t1, m = Outst t1 /\ m' = Idle t /\ Exists (gets_pong x) o) \/ (exists t1, m = Idle t1 /\ m' = Outst t).
Lemma call_moves c J t s l x m e s' o : sane c -> 0 <= J -> view c J s l t x m -> pending m -> ka_call (c x) s x t e = Some (s', o) ->
  Exists (gives_up x) o \/ exists m', view c J s' (l ++ o) t x m' /\ pending m' /\
    (match e with Pong => match m with Outst t1 => m' = Idle t | _ => m' = m end | _ => moves t x m m' o end).
Proof.
  intros SN J0 (A & B & C) PM E. destruct (SN x) as (CS & SI & SW). unfold ka_call in E. destruct (kaof s x) as [k|] eqn:EK; [|exfalso; destruct m; contradiction].
  destruct (kstep (c x) (Some k) (t, e)) as [[k' ko]|] eqn:KS; [|discriminate E]. apply someinj, pairinj in E as [<- <-]. destruct (kcase _ _ _ _ _ _ _ B CS KS) as [(m' & M1 & R1) KC].
  assert (F : forall n, m' = n -> mtime (c x) J n t -> view c J (setwire (setka s x k') (wire (setka s x k') ++ sent x ko)) (l ++ map (OKa x) ko) t x n).
  { intros n -> MT. split; [rewrite of_app, msteps_app, A, of_ka, Bool.eqb_reflx; exact M1|]. split; [rewrite kaof_wire, kaof_set, Bool.eqb_reflx; exact R1|exact MT]. }
  destruct e.
  - right. destruct m; cbn in B, PM; try contradiction.
    + destruct KC as (v & ->). cbn in M1. rewrite !Z.eqb_refl in M1. cbn in M1. injection M1 as <-. exists (Outst t). split; [apply F; [reflexivity|cbn [mtime]; lia]|]. split; [exact Logic.I|]. right. right. left. auto.
    + subst ko. cbn in M1. injection M1 as <-. exists (Outst t0). split; [now apply F|]. split; [exact Logic.I|now left].
    + subst ko. cbn in M1. injection M1 as <-. exists (Idle t0). split; [now apply F|]. split; [exact Logic.I|now left].
  - right. assert (KC' : ko = [Called t CStop]) by (destruct m; exact KC). subst ko. assert (m' = Off) by (destruct m; cbn in B, PM; try contradiction; cbn in M1; congruence). subst m'. exists Off. split; [apply F; [reflexivity|exact Logic.I]|]. split; [exact Logic.I|]. right. left. split; [reflexivity|]. left. reflexivity.
  - right. assert (KC' : ko = [Called t CPong]) by (destruct m; exact KC). subst ko. destruct m; cbn in B, PM; try contradiction; cbn in M1; injection M1 as <-; eexists; (split; [apply F; [reflexivity|]|split; [exact Logic.I|reflexivity]]).
    + exact Logic.I.
    + cbn [mtime]. lia.
    + exact C.
  - destruct m; cbn in B, PM; try contradiction.
    + right. destruct KC as [-> ->]. cbn in M1. injection M1 as <-. exists Off. split; [apply F; [reflexivity|exact Logic.I]|]. split; [exact Logic.I|now left].
    + destruct KC as [[L G]|[-> ->]]; [left; now apply gone_up|]. right. cbn in M1. injection M1 as <-. exists (Outst t0). split; [now apply F|]. split; [exact Logic.I|now left].
    + right. destruct KC as [[L (v & ->)]|[-> ->]].
      * cbn in M1. destruct (Z.leb_spec (t0 + interval (c x)) t) as [_|]; [|lia]. cbn in M1. injection M1 as <-. exists (Outst t). split; [apply F; [reflexivity|cbn [mtime]; lia]|]. split; [exact Logic.I|]. right. right. right. right. eauto.
      * cbn in M1. injection M1 as <-. exists (Idle t0). split; [now apply F|]. split; [exact Logic.I|now left].
Qed.
Lemma call_other cf s y x t e s' o : y <> x -> ka_call cf s y t e = Some (s', o) -> kaof s' x = kaof s x /\ of x o = [].
Proof.
  intros N E. unfold ka_call in E. destruct (kstep cf (kaof s y) (t, e)) as [[k' ko]|]; [|discriminate E]. apply someinj, pairinj in E as [<- <-]. assert (NE : Bool.eqb x y = false) by (apply Bool.eqb_false_iff; congruence).
  rewrite kaof_wire, kaof_set, of_ka, NE. now split.
Qed.
Lemma step_moves c J t s l x m e s' o : sane c -> 0 <= J -> view c J s l t x m -> pending m -> step c s t e = Some (s', o) ->
  Exists (gives_up x) o \/ exists m', view c J s' (l ++ o) t x m' /\ pending m' /\ moves t x m m' o.
Proof.
  intros SN J0 V PM E.
  assert (Same : forall s1 o1, kaof s1 x = kaof s x -> of x o1 = [] -> Exists (gives_up x) o1 \/ exists m', view c J s1 (l ++ o1) t x m' /\ pending m' /\ moves t x m m' o1).
  { intros s1 o1 K O. right. exists m. split; [now apply (view_same c J s)|]. split; [exact PM|now left]. }
  destruct e as [y u|i|y d|]; cbn [step] in E.
  - destruct (Bool.bool_dec y x) as [->|N].
    + destruct (call_moves c J t s l x m (kev_of u) s' o SN J0 V PM E) as [G|(m' & V' & P' & M)]; [now left|]. right. exists m'. split; [exact V'|]. split; [exact P'|]. now destruct u.
    + destruct (call_other _ _ _ _ _ _ _ _ N E) as [K O]. now apply Same.
  - destruct (nth_error (wire s) i) as [w|]; [|apply someinj, pairinj in E as [<- <-]; now apply Same].
    unfold rcv in E. rewrite kaof_wire in E. destruct (kaof s (m_to w)) as [k|] eqn:EK; [|apply someinj, pairinj in E as [<- <-]; apply Same; [apply kaof_wire|reflexivity]].
    destruct (ccm_type (m_oct w)) as [ty|] eqn:ET; [|apply someinj, pairinj in E as [<- <-]; apply Same; [apply kaof_wire|reflexivity]].
    destruct (Z.eq_dec ty 1) as [->|N1]; [|destruct (Z.eq_dec ty 0) as [->|N0]].
    + destruct (ka_call (c (m_to w)) (setwire s (remove_nth i (wire s))) (m_to w) t Pong) as [[s1 o1]|] eqn:KC; [|discriminate E]. apply someinj, pairinj in E as [<- <-].
      destruct (Bool.bool_dec (m_to w) x) as [Q|N].
      * rewrite Q in KC. assert (V0 : view c J (setwire s (remove_nth i (wire s))) (l ++ [ORx (m_to w) t (m_oct w)]) t x m) by (apply (view_same c J s); [exact V|apply kaof_wire|reflexivity]).
        destruct (call_moves c J t _ _ x m Pong s1 o1 SN J0 V0 PM KC) as [G|(m' & V' & P' & M)]; [left; now right|]. right. exists m'. rewrite <- app_assoc in V'. split; [exact V'|]. split; [exact P'|].
        destruct m; cbn in PM; try contradiction; subst m'; [now left| |now left]. right. right. right. left. exists t0. split; [reflexivity|]. split; [reflexivity|]. left. cbn. split; [exact Q|now apply pong_octets].
      * destruct (call_other _ _ _ _ _ _ _ _ N KC) as [K O]. apply Same; [rewrite K; apply kaof_wire|]. exact O.
    + apply someinj, pairinj in E as [<- <-]. apply Same; [now rewrite !kaof_wire|reflexivity].
    + assert (Q : Some (setwire s (remove_nth i (wire s)), [ORx (m_to w) t (m_oct w)]) = Some (s', o)) by (destruct ty as [|p|p]; [contradiction|destruct p; try exact E; contradiction|exact E]).
      apply someinj, pairinj in Q as [<- <-]. apply Same; [apply kaof_wire|reflexivity].
  - assert (Q : (s', o) = (s, []) \/ (s', o) = (setwire s (wire s ++ [mkM (negb y) d t]), [])) by (destruct (ccm_type d) as [[|[p|p|]|p]|]; injection E as <- <-; auto).
    destruct Q as [Q|Q]; apply pairinj in Q as [-> ->]; apply Same; try reflexivity.
  - apply someinj, pairinj in E as [<- <-]. now apply Same.
Qed.
Lemma view_age c P D J t t' s l x m : sane c -> view c J s l t x m -> t <= t' -> on_time P D J s t' -> view c J s l t' x m.
Proof. intros SN (A & B & C) T [_ O]. destruct (SN x) as (_ & SI & SW). split; [exact A|]. split; [exact B|]. apply (mtime_age _ _ (kaof s x) _ t); eauto. Qed.
Lemma exec_view c P D J t0 t s l x : sane c -> 0 <= J -> exec c P D J t0 sys0 t s l -> Exists (gives_up x) l \/ exists m, view c J s l t x m /\ pending m.
Proof.
  intros SN J0 X. induction X as [|t s l t' e s' o X IH T O E].
  - right. exists Off. split; [|exact Logic.I]. split; [reflexivity|]. split; [destruct x; split; reflexivity|exact Logic.I].
  - destruct IH as [G|(m & V & PM)]; [left; apply Exists_app; now left|]. apply (view_age c P D J t t') in V; auto. destruct (step_moves c J t' s l x m e s' o SN J0 V PM E) as [G|(m' & V' & P' & _)]; [left; apply Exists_app; now right|]. right. eauto.
Qed.

(** * a peer that stops answering (or a connection that carries no PONG any more) is given up within
    the interval, the waiting time and twice the lateness of timers, whatever else arrives *)
Theorem C77_silent_peer : forall c P D P' D' J t0 t1 s1 l1 t2 s2 l2 x, sane c -> 0 <= J ->
  exec c P D J t0 sys0 t1 s1 l1 -> running x l1 ->
  exec c P' D' J t1 s1 t2 s2 l2 -> Forall (fun o => ~ gets_pong x o) l2 -> Forall (fun o => ~ stops x o) l2 ->
  t1 + interval (c x) + wait_for_resp (c x) + 2 * J < t2 -> Exists (gives_up x) (l1 ++ l2).
Proof.
  intros c P D P' D' J t0 t1 s1 l1 t2 s2 l2 x SN J0 X1 RN X2 NP NS LT. destruct (SN x) as (_ & SI & SW).
  destruct (exec_view c P D J t0 t1 s1 l1 x SN J0 X1) as [G|(m1 & V1 & PM1)]; [apply Exists_app; now left|].
  destruct (Exists_dec (gives_up x) l1) as [G|NG].
  { intros [y [| |tt|tt]|]; cbn; try (right; now intros []); destruct (Bool.bool_dec y x); auto. }
  { apply Exists_app; now left. }
  assert (NGF : Forall (fun o => ~ gives_up x o) l1) by (apply Forall_forall; intros o I H; apply NG; apply Exists_exists; eauto).
  pose proof (running_mon _ _ _ _ RN NGF (proj1 V1)) as RM.
  assert (Q : Exists (gives_up x) l2 \/ exists m, view c J s2 (l1 ++ l2) t2 x m /\ match m with Outst t => t <= t1 + interval (c x) + J | Idle t => t <= t1 | _ => False end).
  { clear LT. induction X2 as [|t s l t' e s' o X IH T O E].
    - right. exists m1. rewrite app_nil_r. split; [exact V1|]. destruct V1 as (_ & _ & C). destruct m1; cbn [mtime pending] in *; try contradiction; lia.
    - apply Forall_app in NP as [NPl NPo]. apply Forall_app in NS as [NSl NSo]. destruct (IH NPl NSl) as [G|(m & V & M)]; [left; apply Exists_app; now left|].
      apply (view_age c P' D' J t t') in V; auto. assert (PM : pending m) by (destruct m; try contradiction; exact Logic.I). destruct (step_moves c J t' s _ x m e s' o SN J0 V PM E) as [G|(m' & V' & P1 & MV)]; [left; apply Exists_app; now right|].
      right. exists m'. rewrite app_assoc. split; [exact V'|]. destruct V as (_ & _ & C). destruct MV as [->|[[_ S1]|[[-> _]|[(u & _ & _ & S1)|(u & -> & ->)]]]].
      + exact M.
      + exfalso. apply Exists_exists in S1 as (a & I & S1). rewrite Forall_forall in NSo. exact (NSo a I S1).
      + contradiction.
      + exfalso. apply Exists_exists in S1 as (a & I & S1). rewrite Forall_forall in NPo. exact (NPo a I S1).
      + cbn [mtime] in C. lia. }
  apply Exists_app. right. destruct Q as [G|(m & (_ & _ & C) & M)]; [exact G|]. exfalso. destruct m; cbn [mtime] in C; try contradiction; lia.
Qed.
(** the two ends as ipaccess.c sets them up: the instance is terminated by the timeout callback *)
Definition c0 (i w : Z) : cfg := mkCfg i w (Generic true) true (Some (fun _ => ([], true, 1))).
(** a healthy connection: 30 between PINGs, 10 to wait, 4 delay, timers 1 late *)
Definition tick (c : bool -> cfg) (st : option (sys * list sout)) (te : Z * tev) : option (sys * list sout) :=
  do (s, l) <- st; do (s', o) <- step c s (fst te) (snd te); Some (s', l ++ o).
Fixpoint timely (c : bool -> cfg) (P : bool -> bool) (D J t : Z) (s : sys) (h : list (Z * tev)) : bool :=
  match h with
  | [] => true
  | (t', e) :: r => (t <=? t') && forallb (fun m => negb (P (m_to m)) || (t' <=? m_at m + D)) (wire s) &&
     forallb (fun x => match kaof s x with Some k => match deadline k with Some d => t' <=? d + J | None => true end | None => true end) [true; false] &&
     match step c s t' e with Some (s', _) => timely c P D J t' s' r | None => false end
  end.
Lemma run_exec c P D J t0 s0 : forall h t s l s' l', exec c P D J t0 s0 t s l -> timely c P D J t s h = true -> fold_left (tick c) h (Some (s, l)) = Some (s', l') ->
  exec c P D J t0 s0 (last (map fst h) t) s' l'.
Proof.
  assert (LC : forall (h : list (Z * tev)) a t, last (a :: map fst h) t = last (map fst h) a).
  { induction h as [|b h IH]; intros a t; [reflexivity|]. cbn [map]. change (last (a :: fst b :: map fst h) t) with (last (fst b :: map fst h) t). now rewrite !IH. }
  induction h as [|[t' e] h IH]; intros t s l s' l' X T F; [injection F as <- <-; exact X|]. cbn [timely] in T. cbn [fold_left tick map fst snd] in F. cbn [map fst]. rewrite LC.
  destruct (step c s t' e) as [[s1 o]|] eqn:E; [|rewrite andb_false_r in T; discriminate T]. apply andb_prop in T as [T T4]. apply andb_prop in T as [T T3]. apply andb_prop in T as [T1 T2].
  apply (IH t' s1 (l ++ o)); [|exact T4|exact F]. apply (X1 c P D J t0 s0 t s l t' e); [exact X|now apply Z.leb_le| |exact E]. rewrite forallb_forall in T2. split.
  - intros m I PM. specialize (T2 m I). rewrite PM in T2. now apply Z.leb_le.
  - intros x k d K1 K2. rewrite forallb_forall in T3. specialize (T3 x). rewrite K1, K2 in T3. apply Z.leb_le, T3. destruct x; cbn; auto.
Qed.
Definition good_run : list (Z * tev) :=
  [(0, TCall true UStart); (1, TCall false UStart); (2, TApp false [0; 2; 0; 5; 6]); (3, TDeliver 0); (5, TDeliver 0); (6, TDeliver 0); (7, TDeliver 0); (9, TDeliver 0); (37, TCall true UExpire); (40, TCall false UExpire); (41, TDeliver 0); (43, TPass)].
Example C77_good : exists s l, exec (fun _ => c0 30 10) both 4 1 0 sys0 43 s l /\ sane (fun _ => c0 30 10) /\ running true l /\ running false l.
Proof.
  destruct (fold_left (tick (fun _ => c0 30 10)) good_run (Some (sys0, []))) as [[s l]|] eqn:F; [|vm_compute in F; discriminate F]. exists s, l. split; [apply (run_exec _ both 4 1 0 sys0 good_run 0 sys0 []); [constructor|reflexivity|exact F]|].
  split; [intros x; split; [now split|cbn; lia]|]. vm_compute in F. injection F as <- <-. split.
  - exists [], 0. eexists. split; [reflexivity|]. repeat constructor; cbn; intuition discriminate.
  - exists [OKa true (Called 0 CStart); OKa true (Ping 0 ViaSendFn [0; 1; 254; 0])], 1. eexists. split; [reflexivity|]. repeat constructor; cbn; intuition discriminate.
Qed.
(** * the bound is sharp: with twice the delay equal to the waiting time a good connection is given up *)
Theorem C77_sharp : exists s l, exec (fun _ => c0 30 10) both 5 0 0 sys0 10 s l /\ Exists (gives_up true) l.
Proof.
  set (h := [(0, TCall true UStart); (5, TDeliver 0); (10, TCall true UExpire)]). destruct (fold_left (tick (fun _ => c0 30 10)) h (Some (sys0, []))) as [[s l]|] eqn:F; [|vm_compute in F; discriminate F]. exists s, l.
  split; [apply (run_exec _ both 5 0 0 sys0 h 0 sys0 []); [constructor|reflexivity|exact F]|]. vm_compute in F. injection F as <- <-. apply Exists_exists. eexists. split; [right; right; right; left; reflexivity|reflexivity].
Qed.
(** the silent peer of the theorem above exists: the PING of the end [true] is lost *)
Example C77_silent : exists s1 l1 s2 l2, exec (fun _ => c0 30 10) both 4 1 0 sys0 5 s1 l1 /\ running true l1 /\
  exec (fun _ => c0 30 10) (fun x => x) 4 1 5 s1 60 s2 l2 /\ Forall (fun o => ~ gets_pong true o) l2 /\ Forall (fun o => ~ stops true o) l2 /\ 5 + 30 + 10 + 2 * 1 < 60.
Proof.
  set (h := [(0, TCall true UStart); (2, TDeliver 0); (5, TDeliver 0)]). set (h2 := [(35, TCall true UExpire); (45, TCall true UExpire); (60, TPass)]).
  destruct (fold_left (tick (fun _ => c0 30 10)) h (Some (sys0, []))) as [[s1 l1]|] eqn:F; [|vm_compute in F; discriminate F].
  destruct (fold_left (tick (fun _ => c0 30 10)) h2 (Some (s1, []))) as [[s2 l2]|] eqn:F2; [|vm_compute in F; injection F as <- <-; vm_compute in F2; discriminate F2].
  exists s1, l1, s2, l2. split; [apply (run_exec _ both 4 1 0 sys0 h 0 sys0 []); [constructor|reflexivity|exact F]|].
  vm_compute in F. injection F as <- <-. split; [exists [], 0; eexists; split; [reflexivity|]; repeat constructor; cbn; intuition discriminate|].
  split; [eapply (run_exec _ (fun x => x) 4 1 5 _ h2 5 _ []); [constructor|reflexivity|exact F2]|]. vm_compute in F2. injection F2 as <- <-.
  split; [repeat constructor; cbn; intuition discriminate|]. split; [repeat constructor; cbn; intuition discriminate|lia].
Qed.
