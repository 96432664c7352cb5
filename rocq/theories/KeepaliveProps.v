(** C31, C32: IPA keep-alive (ipa_keepalive.c). *)
From Coq Require Import List Arith Lia Bool ZArith.
From Verif Require Import Base KeepaliveModel.
Import ListNotations.
Open Scope Z_scope.

(** a configuration that can send at all: a generic FSM needs data and a send function *)
Definition can_send (c : cfg) : Prop :=
  match who c with Generic d => d = true /\ send_fn c = true | _ => True end.
Definition is_ping (o : kout) : Prop := match o with Ping _ _ _ => True | _ => False end.
Definition is_timeout (o : kout) : Prop := match o with TimedOut _ => True | _ => False end.
Definition is_term (o : kout) : Prop := match o with Terminated _ => True | _ => False end.
Definition is_call (k : kcall) (o : kout) : Prop := match o with Called _ k' => k' = k | _ => False end.

(** all logs of a fresh instance *)
Definition logs (c : cfg) (h : list (Z * kev)) (s : option ka) (l : list kout) : Prop :=
  krun c (Some ka_alloc) h = Some (s, l).

(** * Monitor (proof device): what the log says about the instance *)
Inductive mon := Off | Starting (t : Z) | Outst (t : Z) | Late | Idle (t : Z) | Dead.
Definition mstep (c : cfg) (m : mon) (o : kout) : option mon :=
  match o, m with
  | Ping t _ msg, Starting t0 => if (t0 =? t) && (if list_eq_dec Z.eq_dec msg [0; 1; 254; 0] then true else false) then Some (Outst t) else None
  | _, (Dead | Starting _) => None
  | Called _ CStop, _ => Some Off
  | Called t CStart, Off => Some (Starting t)
  | Called _ CStart, _ => Some m
  | Called t CPong, (Outst _ | Late) => Some (Idle t)
  | Called _ CPong, _ => Some m
  | Ping t _ msg, Idle t0 => if (t0 + interval c <=? t) && (if list_eq_dec Z.eq_dec msg [0; 1; 254; 0] then true else false) then Some (Outst t) else None
  | Ping _ _ _, _ => None
  | TimedOut t, Outst t0 => if (t0 + wait_for_resp c <=? t) && (match timeout_cb c with Some _ => true | None => false end) then Some Late else None
  | TimedOut _, _ => None
  | Terminated t, Outst t0 =>
      if match timeout_cb c with None => t0 + wait_for_resp c <=? t | Some _ => true end then Some Dead else None
  | Terminated _, _ => match timeout_cb c with None => None | Some _ => Some Dead end
  end.
Fixpoint msteps (c : cfg) (m : mon) (l : list kout) : option mon :=
  match l with [] => Some m | o :: r => do m <- mstep c m o; msteps c m r end.

Definition arm (t secs : Z) : option Z := if secs =? 0 then None else Some (t + secs).
Definition R (c : cfg) (s : option ka) (m : mon) : Prop :=
  match s, m with
  | None, Dead => True
  | Some s, Off => st s = KA_INIT /\ deadline s = None
  | Some s, Outst t => st s = KA_WAIT_RESP /\ T s = T_PONG_NOT_RECEIVED /\ deadline s = arm t (wait_for_resp c)
  | Some s, Late => st s = KA_WAIT_RESP /\ deadline s = None
  | Some s, Idle t => st s = KA_IDLE /\ T s = T_SEND_NEXT_PING /\ deadline s = arm t (interval c)
  | _, _ => False
  end.

Lemma msteps_app c a : forall m b, msteps c m (a ++ b) = do m' <- msteps c m a; msteps c m' b.
Proof. induction a as [|x a IH]; intros m b; cbn; [reflexivity|]. destruct (mstep c m x); [apply IH|reflexivity]. Qed.

Lemma call_mon c now s m k r : R c (Some s) m ->
  called now k (match k with CStart => start c now s | CStop => stop c now s | CPong => pong c now s end) = Some r ->
  exists m', msteps c m (snd r) = Some m' /\ R c (Some (fst r)) m'.
Proof.
  intros HR. destruct s as [q t d n], r as [s' o].
  destruct m; cbn in HR; try contradiction;
    [destruct HR as [-> ->]|destruct HR as (-> & -> & ->)|destruct HR as [-> ->]|destruct HR as (-> & -> & ->)];
    destruct k; unfold called, start, stop, pong, state_chg; cbn;
    unfold onenter_wait_resp;
    try (destruct (who c) as [| |[|]]); try (destruct (send_fn c)); cbn; intros E; try discriminate; injection E as <- <-; cbn; rewrite ?Z.eqb_refl; cbn;
    (eexists; split; [reflexivity|]); cbn; repeat split; reflexivity.
Qed.

Lemma cbs_mon c now l : forall s m r, R c (Some s) m -> cb_calls c now s l = Some r ->
  exists m', msteps c m (snd r) = Some m' /\ R c (Some (fst r)) m'.
Proof.
  induction l as [|x l IH]; intros s m r HR; cbn [cb_calls].
  - intros E. injection E as <-. cbn. eauto.
  - intros E.
    assert (P : exists r1 k, called now k (match k with CStart => start c now s | CStop => stop c now s | CPong => pong c now s end) = Some r1 /\
       (do (s, o') <- cb_calls c now (fst r1) l; Some (s, snd r1 ++ o')) = Some r).
    { destruct x.
      - destruct (called now CStart (start c now s)) as [r1|] eqn:E1; [|discriminate].
        exists r1, CStart. split; [exact E1|]. destruct r1. exact E.
      - destruct (called now CStop (stop c now s)) as [r1|] eqn:E1; [|discriminate].
        exists r1, CStop. split; [exact E1|]. destruct r1. exact E. }
    destruct P as ([s1 o1] & k & E1 & E2). destruct (call_mon c now s m k _ HR E1) as (m1 & M1 & R1). cbn [fst snd] in *.
    destruct (cb_calls c now s1 l) as [[s2 o2]|] eqn:E3; [|discriminate]. injection E2 as <-. cbn [fst snd].
    destruct (IH s1 m1 _ R1 E3) as (m2 & M2 & R2). exists m2. rewrite msteps_app, M1. now split.
Qed.

Lemma step_mon c s m te s' o : R c s m -> kstep c s te = Some (s', o) ->
  exists m', msteps c m o = Some m' /\ R c s' m'.
Proof.
  destruct te as [now e]. intros HR E. destruct s as [s|].
  2:{ destruct e; cbn in E; try discriminate. injection E as <- <-. cbn. eauto. }
  destruct e; cbn [kstep] in E.
  1-3: match type of E with context [called ?nw ?k ?x] => destruct (called nw k x) as [[s1 o1]|] eqn:E1; [|discriminate];
         injection E as <- <-; apply (call_mon c nw s m k _ HR E1) end.
  destruct (deadline s) as [d|] eqn:Ed; [|injection E as <- <-; cbn; eauto].
  destruct (Z.leb_spec d now) as [Hd|]; [|injection E as <- <-; cbn; eauto].
  destruct m as [|?|t| |t|]; cbn in HR; try contradiction.
  - destruct HR as [_ HR]. congruence.
  - destruct HR as (Hs & HT & HD). unfold arm in HD. destruct (wait_for_resp c =? 0) eqn:W; [congruence|].
    assert (d = t + wait_for_resp c) by congruence. subst d.
    unfold expire in E. cbn [T st cb_count] in E. rewrite HT in E. cbn [mstep msteps].
    destruct (timeout_cb c) as [cb|] eqn:EC.
    + destruct (cb (cb_count s)) as [[calls frees] rc].
      destruct (cb_calls c now _ calls) as [[s1 o1]|] eqn:E1; [|discriminate].
      assert (RL : R c (Some (mkKa (st s) T_PONG_NOT_RECEIVED None (S (cb_count s)))) Late) by (cbn; now split).
      destruct (cbs_mon c now calls _ Late _ RL E1) as (m1 & M1 & R1). cbn [fst snd] in *.
      assert (TT : mstep c (Outst t) (TimedOut now) = Some Late).
      { cbn. rewrite EC. now rewrite (proj2 (Z.leb_le _ _) Hd). }
      assert (ND : mstep c m1 (Terminated now) = Some Dead).
      { destruct m1; cbn; rewrite ?EC; try reflexivity; destruct R1. }
      destruct frees; [|destruct (rc =? 1)]; injection E as <- <-; cbn [msteps]; rewrite TT.
      * exists Dead. rewrite msteps_app, M1. cbn [msteps]. rewrite ND. now split.
      * exists Dead. rewrite msteps_app, M1. cbn [msteps]. rewrite ND. now split.
      * eauto.
    + injection E as <- <-. cbn. rewrite EC, (proj2 (Z.leb_le _ _) Hd). exists Dead. now split.
  - destruct HR as [_ HR]. congruence.
  - destruct HR as (Hs & HT & HD). unfold expire in E. cbn [T st cb_count] in E. rewrite HT in E.
    unfold state_chg in E. cbn [st] in E. rewrite Hs in E. cbn [may_chg negb] in E.
    destruct (onenter_wait_resp c now) as [oo|] eqn:EO; [|discriminate]. injection E as <- <-.
    assert (exists v, oo = [Ping now v gen_ipa_ping]) as (v & ->).
    { unfold onenter_wait_resp in EO. destruct (who c) as [| |[|]]; try (destruct (send_fn c)); try discriminate; injection EO as <-; eauto. }
    unfold arm in HD. destruct (interval c =? 0); [congruence|]. assert (d = t + interval c) by congruence. subst d.
    exists (Outst now). split; [|cbn; now repeat split].
    cbn [msteps mstep]. rewrite (proj2 (Z.leb_le _ _) Hd). reflexivity.
Qed.

Lemma run_mon c h : forall s m s' o, R c s m -> krun c s h = Some (s', o) -> exists m', msteps c m o = Some m' /\ R c s' m'.
Proof.
  induction h as [|te h IH]; intros s m s' o HR E; cbn [krun] in E.
  - injection E as <- <-. cbn. eauto.
  - destruct (kstep c s te) as [[s1 o1]|] eqn:E1; [|discriminate].
    destruct (krun c s1 h) as [[s2 o2]|] eqn:E2; [|discriminate]. injection E as <- <-.
    destruct (step_mon c s m te s1 o1 HR E1) as (m1 & M1 & R1).
    destruct (IH s1 m1 s2 o2 R1 E2) as (m2 & M2 & R2). exists m2. rewrite msteps_app, M1. now split.
Qed.

Lemma logs_mon c h s l : logs c h s l -> exists m, msteps c Off l = Some m /\ R c s m.
Proof. intros H. apply (run_mon c h (Some ka_alloc) Off s l); [now split|exact H]. Qed.

Lemma msteps_split c m a x b m' : msteps c m (a ++ x :: b) = Some m' ->
  exists m1 m2, msteps c m a = Some m1 /\ mstep c m1 x = Some m2 /\ msteps c m2 b = Some m'.
Proof.
  rewrite msteps_app. destruct (msteps c m a) as [m1|]; [|discriminate]. cbn.
  destruct (mstep c m1 x) as [m2|] eqn:E; [|discriminate]. eauto.
Qed.

(** while neither stop nor PONG is logged *)
Lemma quiet_outst c b : forall m m', (m = Late \/ exists t, m = Outst t) -> msteps c m b = Some m' ->
  Forall (fun o => ~ is_call CStop o /\ ~ is_call CPong o) b ->
  Forall (fun o => ~ is_ping o) b /\ (m' = Dead \/ m' = Late \/ m' = m).
Proof.
  induction b as [|x b IH]; intros m m' Hm E Q; cbn in E.
  { split; [constructor|]. injection E as <-. auto. }
  destruct (mstep c m x) as [m1|] eqn:E1; [|discriminate]. inversion Q as [|? ? [Q1 Q2] Q']; subst.
  assert (NP : ~ is_ping x). { destruct x; cbn; auto. destruct Hm as [->|[? ->]]; discriminate. }
  assert (C : m1 = Dead \/ ((m1 = Late \/ exists t, m1 = Outst t) /\ (m1 = Late \/ m1 = m))).
  { destruct x as [? []| | |]; cbn in Q1, Q2; try contradiction; try (exfalso; now auto).
    - right. destruct Hm as [->|[? ->]]; injection E1 as <-; eauto.
    - exfalso. now apply NP.
    - right. destruct Hm as [->|[? ->]]; cbn in E1; [discriminate|]. destruct (_ && _); [|discriminate]. injection E1 as <-. auto.
    - left. destruct Hm as [->|[? ->]]; cbn in E1; destruct (timeout_cb c); try discriminate; try (injection E1 as <-; reflexivity).
      destruct (_ <=? _); [|discriminate]. injection E1 as <-. reflexivity. }
  destruct C as [->|[C1 C2]].
  - destruct b as [|y b]. { cbn in E. injection E as <-. split; [now constructor|auto]. }
    exfalso. cbn in E. destruct y as [? []| | |]; discriminate.
  - destruct (IH m1 m' C1 E Q') as [F [D|[D|D]]]; (split; [now constructor|]); auto. subst m'. destruct C2; auto.
Qed.

(** * C31 *)
(** At most one PING is outstanding: between two PINGs there is a stop or a PONG. *)
Theorem C31_one_outstanding : forall c h s l a t v msg b t' v' msg' d, logs c h s l ->
  l = a ++ Ping t v msg :: b ++ Ping t' v' msg' :: d ->
  Exists (fun o => is_call CStop o \/ is_call CPong o) b.
Proof.
  intros c h s l a t v msg b t' v' msg' d H E. destruct (logs_mon c h s l H) as (m & M & _). subst l.
  destruct (msteps_split _ _ _ _ _ _ M) as (m1 & m2 & _ & M2 & M3).
  assert (m2 = Outst t) as -> by (destruct m1; cbn in M2; try discriminate; destruct (_ && _); congruence).
  assert (DEC : Exists (fun o => is_call CStop o \/ is_call CPong o) b \/ Forall (fun o => ~ is_call CStop o /\ ~ is_call CPong o) b).
  { clear. induction b as [|x b IH]; [right; constructor|]. destruct IH as [IH|IH]; [left; now right|].
    destruct x as [? []| | |]; cbn; try (right; constructor; [split; cbn; congruence|assumption]);
      try (right; constructor; [cbn; tauto|assumption]); left; left; cbn; auto. }
  destruct DEC as [D|D]; [exact D|exfalso].
  destruct (msteps_split _ _ _ _ _ _ M3) as (m3 & m4 & M4 & M5 & _).
  destruct (quiet_outst c b (Outst t) m3 ltac:(eauto) M4 D) as [_ [Em|[Em|Em]]]; rewrite Em in M5; discriminate M5.
Qed.

(** A stopped instance sends nothing, reports nothing and runs no timer until
    it is started again. *)
Theorem C31_silent_after_stop : forall c h s l a t b, logs c h s l ->
  l = a ++ Called t CStop :: b -> Forall (fun o => ~ is_call CStart o) b ->
  Forall (fun o => ~ is_ping o /\ ~ is_timeout o) b /\ (forall k, s = Some k -> deadline k = None).
Proof.
  intros c h s l a t b H E Q. destruct (logs_mon c h s l H) as (m & M & HR). subst l.
  destruct (msteps_split _ _ _ _ _ _ M) as (m1 & m2 & _ & M2 & M3).
  assert (m2 = Off) as -> by (destruct m1; cbn in M2; congruence).
  assert (G : Forall (fun o => ~ is_ping o /\ ~ is_timeout o) b /\ (m = Off \/ m = Dead)).
  { clear H M M2 HR. revert M3. induction Q as [|x b Q1 Q IH]; cbn; intros E.
    - injection E as <-. split; [constructor|auto].
    - destruct x as [? []| | |]; cbn in *; try contradiction; try discriminate.
      + destruct (IH E). split; [constructor; cbn; tauto|assumption].
      + destruct (IH E). split; [constructor; cbn; tauto|assumption].
      + destruct (timeout_cb c); [|discriminate]. destruct b as [|y b].
        * cbn in E. injection E as <-. split; [repeat constructor; cbn; tauto|auto].
        * cbn in E. destruct y as [? []| | |]; discriminate. }
  destruct G as [G1 [Em|Em]]; rewrite Em in HR; (split; [exact G1|]); intros k ->; cbn in HR; tauto.
Qed.

(** what the monitor state says about the log so far *)
Lemma last_pong c a t0 : msteps c Off a = Some (Idle t0) ->
  exists a' b', a = a' ++ Called t0 CPong :: b' /\ Forall (fun o => ~ is_ping o /\ ~ is_call CStop o) b'.
Proof.
  induction a as [|x a IH] using rev_ind; intros E; [discriminate|].
  destruct (msteps_split _ _ _ _ _ _ E) as (m1 & m2 & M1 & M2 & M3). cbn in M3. injection M3 as ->.
  assert (D : (exists t1, x = Called t0 CPong /\ (m1 = Outst t1 \/ m1 = Late)) \/
              (m1 = Idle t0 /\ ~ is_ping x /\ ~ is_call CStop x)).
  { destruct x as [t1 []| | |], m1; cbn in M2; try discriminate; try (destruct (_ && _); discriminate);
      try (destruct (timeout_cb c); discriminate); try (destruct (match timeout_cb c with Some _ => _ | None => _ end); discriminate);
      injection M2 as ->; try (left; exists 0; auto; fail); try (left; eexists; auto; fail);
      right; cbn; repeat split; auto; try discriminate. }
  destruct D as [(t1 & -> & _)|(-> & Q)].
  - exists a, []. split; [reflexivity|constructor].
  - destruct (IH M1) as (a' & b' & -> & F). exists a', (b' ++ [x]). rewrite <- app_assoc. split; [reflexivity|].
    apply Forall_app. split; [assumption|]. now constructor.
Qed.

Lemma last_ping c a t0 : msteps c Off a = Some (Outst t0) ->
  exists a' v msg b', a = a' ++ Ping t0 v msg :: b' /\
    Forall (fun o => ~ is_call CPong o /\ ~ is_call CStop o /\ ~ is_timeout o /\ ~ is_ping o) b'.
Proof.
  induction a as [|x a IH] using rev_ind; intros E; [discriminate|].
  destruct (msteps_split _ _ _ _ _ _ E) as (m1 & m2 & M1 & M2 & M3). cbn in M3. injection M3 as ->.
  assert (D : (exists v msg, x = Ping t0 v msg) \/
              (m1 = Outst t0 /\ ~ is_call CPong x /\ ~ is_call CStop x /\ ~ is_timeout x /\ ~ is_ping x)).
  { destruct x as [t1 []|t1 v1 g1| |], m1; cbn in M2; try discriminate;
      try (destruct (timeout_cb c); discriminate); try (destruct (match timeout_cb c with Some _ => _ | None => _ end); discriminate);
      try (destruct (_ && _); [|discriminate]); try discriminate;
      injection M2 as ->; try (left; eauto; fail); right; cbn; repeat split; auto; try discriminate. }
  destruct D as [(v & msg & ->)|(-> & Q)].
  - exists a, v, msg, []. split; [reflexivity|constructor].
  - destruct (IH M1) as (a' & v & msg & b' & -> & F). exists a', v, msg, (b' ++ [x]). rewrite <- app_assoc. split; [reflexivity|].
    apply Forall_app. split; [assumption|]. now constructor.
Qed.

(** A PING is only sent by a start, or when the interval timer expires: at
    least [interval] seconds after the last PONG that was awaited. *)
Theorem C31_ping_only_when_due : forall c h s l a t v msg b, logs c h s l ->
  l = a ++ Ping t v msg :: b ->
  msg = [0; 1; 254; 0] /\
  ((exists a', a = a' ++ [Called t CStart]) \/
   (exists a' t0 b', a = a' ++ Called t0 CPong :: b' /\ t0 + interval c <= t /\
      Forall (fun o => ~ is_ping o /\ ~ is_call CStop o) b')).
Proof.
  intros c h s l a t v msg b H E. destruct (logs_mon c h s l H) as (m & M & _). subst l.
  destruct (msteps_split _ _ _ _ _ _ M) as (m1 & m2 & M1 & M2 & M3).
  destruct m1 as [|t0|t0| |t0|]; cbn in M2; try discriminate.
  - destruct (Z.eqb_spec t0 t) as [->|]; [|discriminate]. cbn [andb] in M2.
    destruct (list_eq_dec Z.eq_dec msg [0; 1; 254; 0]) as [Em|]; [|discriminate]. split; [exact Em|]. left.
    clear - M1. destruct a as [|x a] using rev_ind; [discriminate|]. clear IHa.
    destruct (msteps_split _ _ _ _ _ _ M1) as (m1 & m2 & M2 & M3 & M4). cbn in M4. injection M4 as ->.
    exists a. destruct x as [t1 []|t1 v1 g1| |], m1; cbn in M3; try discriminate;
      try (destruct (timeout_cb c); discriminate); try (destruct (match timeout_cb c with Some _ => _ | None => _ end); discriminate);
      try (destruct (_ && _); discriminate); injection M3 as ->; reflexivity.
  - destruct (Z.leb_spec (t0 + interval c) t); [|discriminate]. cbn [andb] in M2.
    destruct (list_eq_dec Z.eq_dec msg [0; 1; 254; 0]) as [Em|]; [|discriminate]. split; [exact Em|]. right.
    destruct (last_pong c a t0 M1) as (a' & b' & -> & F). exists a', t0, b'. auto.
Qed.

(** every PING goes out through the right sender: the send function if one is set, else
    the connection the FSM was made for; a generic FSM has no other way *)
Definition right_sender (c : cfg) (o : kout) : Prop :=
  match o with
  | Ping _ v _ => if send_fn c then v = ViaSendFn
                  else match who c with Server => v = ViaServer | Client => v = ViaClient | Generic _ => False end
  | _ => True
  end.
Lemma chg_sender c now s to secs t r : state_chg c now s to secs t = Some r -> Forall (right_sender c) (snd r).
Proof.
  unfold state_chg. destruct (may_chg (st s) to); cbn [negb]; [|intros E; injection E as <-; constructor].
  destruct to; try (intros E; injection E as <-; constructor).
  unfold onenter_wait_resp. destruct (who c) as [| |[|]] eqn:W; destruct (send_fn c) eqn:F; intros E; try discriminate;
    injection E as <-; (constructor; [cbn; rewrite F, ?W; reflexivity|constructor]).
Qed.
Lemma call_sender c now s k r :
  called now k (match k with CStart => start c now s | CStop => stop c now s | CPong => pong c now s end) = Some r ->
  Forall (right_sender c) (snd r).
Proof.
  unfold called. intros E.
  destruct (match k with CStart => start c now s | CStop => stop c now s | CPong => pong c now s end) as [[s1 o1]|] eqn:E1; [|discriminate].
  injection E as <-. cbn [snd]. constructor; [exact I|].
  change o1 with (snd (s1, o1)).
  destruct k; unfold start, stop, pong in E1.
  - destruct (st s); [exact (chg_sender _ _ _ _ _ _ _ E1)|injection E1 as <- <-; constructor..].
  - exact (chg_sender _ _ _ _ _ _ _ E1).
  - destruct (st s); [injection E1 as <- <-; constructor..|exact (chg_sender _ _ _ _ _ _ _ E1)].
Qed.
Lemma cbs_sender c now l : forall s r, cb_calls c now s l = Some r -> Forall (right_sender c) (snd r).
Proof.
  induction l as [|x l IH]; intros s r; cbn [cb_calls]; [intros E; injection E as <-; constructor|].
  intros E.
  destruct (match x with CbStart => called now CStart (start c now s) | CbStop => called now CStop (stop c now s) end) as [[s1 o1]|] eqn:E1; [|discriminate].
  destruct (cb_calls c now s1 l) as [[s2 o2]|] eqn:E2; [|discriminate]. injection E as <-. cbn [snd].
  apply Forall_app. split; [|exact (IH _ _ E2)]. change o1 with (snd (s1, o1)).
  destruct x; [exact (call_sender c now s CStart _ E1)|exact (call_sender c now s CStop _ E1)].
Qed.
Lemma step_sender c s te r : kstep c s te = Some r -> Forall (right_sender c) (snd r).
Proof.
  destruct te as [now e], s as [s|]; cbn [kstep].
  - destruct e.
    + destruct (called now CStart (start c now s)) as [[s1 o1]|] eqn:E1; [|discriminate]. intros E; injection E as <-. exact (call_sender c now s CStart _ E1).
    + destruct (called now CStop (stop c now s)) as [[s1 o1]|] eqn:E1; [|discriminate]. intros E; injection E as <-. exact (call_sender c now s CStop _ E1).
    + destruct (called now CPong (pong c now s)) as [[s1 o1]|] eqn:E1; [|discriminate]. intros E; injection E as <-. exact (call_sender c now s CPong _ E1).
    + destruct (deadline s) as [d|]; [|intros E; injection E as <-; constructor].
      destruct (d <=? now); [|intros E; injection E as <-; constructor].
      unfold expire. cbn [T st cb_count]. destruct (T s).
      * match goal with |- context [state_chg ?a ?b ?x ?y ?z ?w] => destruct (state_chg a b x y z w) as [[s1 o1]|] eqn:E1 end; [|discriminate].
        intros E; injection E as <-. exact (chg_sender _ _ _ _ _ _ _ E1).
      * destruct (timeout_cb c) as [cb|]; [|intros E; injection E as <-; constructor; [exact I|constructor]].
        destruct (cb (cb_count s)) as [[calls frees] rc].
        match goal with |- context [cb_calls ?a ?b ?x ?y] => destruct (cb_calls a b x y) as [[s1 o1]|] eqn:E1 end; [|discriminate].
        pose proof (cbs_sender _ _ _ _ _ E1) as H. cbn [snd] in H.
        destruct frees; [|destruct (rc =? 1)]; intros E; injection E as <-; cbn [snd];
          (constructor; [exact I|]); try (apply Forall_app; split; [exact H|]); try exact H; constructor; try exact I; constructor.
  - destruct e; intros E; try discriminate. injection E as <-. constructor.
Qed.
Theorem C31_right_sender : forall c h s l, logs c h s l -> Forall (right_sender c) l.
Proof.
  intros c h. unfold logs. generalize (Some ka_alloc). induction h as [|x h IH]; intros k s l; cbn [krun].
  - intros E; injection E as <- <-. constructor.
  - destruct (kstep c k x) as [[k1 o1]|] eqn:E1; [|discriminate].
    destruct (krun c k1 h) as [[k2 o2]|] eqn:E2; [|discriminate]. intros E; injection E as <- <-.
    apply Forall_app. split; [exact (step_sender _ _ _ _ E1)|exact (IH _ _ _ E2)].
Qed.
Example C31_right_sender_witness :
  krun (mkCfg 30 10 Server false None) (Some ka_alloc) [(0, Start)] =
    Some (Some (mkKa KA_WAIT_RESP T_PONG_NOT_RECEIVED (Some 10) 0), [Called 0 CStart; Ping 0 ViaServer [0; 1; 254; 0]]).
Proof. reflexivity. Qed.

(** No API use aborts, provided the FSM can send and is not used after it was
    terminated: start/stop/PONG/expiry at any times. *)
Theorem C31_no_abort : forall c s now e, can_send c -> exists r, kstep c (Some s) (now, e) = Some r.
Proof.
  intros c s now e CS.
  assert (ON : exists o, onenter_wait_resp c now = Some o).
  { unfold onenter_wait_resp, can_send in *. destruct (who c) as [| |d]; [eauto..|]. destruct CS as [-> ->]. eauto. }
  destruct ON as (o & ON).
  assert (SC : forall q to x t, exists r, state_chg c now q to x t = Some r).
  { intros q to x t. unfold state_chg. destruct (negb _); [eauto|]. destruct to; rewrite ?ON; eauto. }
  assert (ST : forall q, exists r, start c now q = Some r) by (intros q; unfold start; destruct (KeepaliveModel.st q); eauto).
  assert (SP : forall q, exists r, stop c now q = Some r) by (intros q; apply SC).
  assert (PO : forall q, exists r, pong c now q = Some r) by (intros q; unfold pong; destruct (KeepaliveModel.st q); eauto).
  assert (CB : forall l q, exists r, cb_calls c now q l = Some r).
  { induction l as [|[] l IH]; intros q; cbn [cb_calls]; [eauto| |]; unfold called.
    - destruct (ST q) as [[q1 o1] ->]. destruct (IH q1) as [[q2 o2] ->]. eauto.
    - destruct (SP q) as [[q1 o1] ->]. destruct (IH q1) as [[q2 o2] ->]. eauto. }
  destruct e; cbn [kstep]; unfold called.
  - destruct (ST s) as [[q1 o1] ->]. eauto.
  - destruct (SP s) as [[q1 o1] ->]. eauto.
  - destruct (PO s) as [[q1 o1] ->]. eauto.
  - destruct (deadline s); [|eauto]. destruct (_ <=? _); [|eauto]. unfold expire. cbn [T].
    destruct (T s).
    + match goal with |- context [state_chg ?a ?b ?q ?d ?e ?f] => destruct (SC q d e f) as [[q1 o1] ->] end. eauto.
    + destruct (timeout_cb c) as [cb|]; [|eauto]. cbn [cb_count]. destruct (cb (cb_count s)) as [[calls fr] rc].
      match goal with |- context [cb_calls ?a ?b ?q ?d] => destruct (CB d q) as [[q1 o1] ->] end.
      destruct fr; [|destruct (rc =? 1)]; eauto.
Qed.
(** a generic FSM without send function (or data) aborts as soon as it is started *)
Theorem C31_generic_without_send_fn_refuted : forall i w cb,
  krun (mkCfg i w (Generic true) false cb) (Some ka_alloc) [(0, Start)] = None /\
  krun (mkCfg i w (Generic false) true cb) (Some ka_alloc) [(0, Start)] = None.
Proof. intros. split; reflexivity. Qed.

(** * C32 *)
(** A live peer is never dropped: the timeout callback (without one, the
    termination) is only reached [wait_for_resp] seconds after a PING, with no
    PONG, stop or earlier report in between - so at most once per PING. *)
Theorem C32_timeout_only_if_silent : forall c h s l a t b o, logs c h s l ->
  l = a ++ o :: b ->
  o = TimedOut t \/ (o = Terminated t /\ timeout_cb c = None) ->
  exists a' t0 v msg b', a = a' ++ Ping t0 v msg :: b' /\ t0 + wait_for_resp c <= t /\
    Forall (fun o => ~ is_call CPong o /\ ~ is_call CStop o /\ ~ is_timeout o /\ ~ is_ping o) b'.
Proof.
  intros c h s l a t b o H E HO. destruct (logs_mon c h s l H) as (m & M & _). subst l.
  destruct (msteps_split _ _ _ _ _ _ M) as (m1 & m2 & M1 & M2 & M3).
  assert (D : exists t0, m1 = Outst t0 /\ t0 + wait_for_resp c <= t).
  { destruct HO as [->|[-> EC]]; destruct m1 as [|t0|t0| |t0|]; cbn in M2; try rewrite EC in M2; try discriminate.
    - exists t0. split; [reflexivity|]. apply Z.leb_le. destruct (_ <=? _); [reflexivity|discriminate].
    - exists t0. split; [reflexivity|]. apply Z.leb_le. destruct (_ <=? _); [reflexivity|discriminate]. }
  destruct D as (t0 & -> & Ht). destruct (last_ping c a t0 M1) as (a' & v & msg & b' & -> & F).
  exists a', t0, v, msg, b'. auto.
Qed.

Lemma cb_no_timeout c t calls : forall q q1 o1, cb_calls c t q calls = Some (q1, o1) -> Forall (fun o => ~ is_timeout o) o1.
Proof.
      assert (SC : forall q to x tt q1 o1, state_chg c t q to x tt = Some (q1, o1) -> Forall (fun o => ~ is_timeout o) o1).
      { intros q to x tt q1 o1. unfold state_chg. destruct (negb _); [intros E; injection E as <- <-; constructor|].
        destruct to; try (intros E; injection E as <- <-; constructor). unfold onenter_wait_resp.
        destruct (who c) as [| |[|]]; try (destruct (send_fn c)); intros E; try discriminate; injection E as <- <-;
          repeat constructor; cbn; tauto. }
      induction calls as [|x calls IH]; intros q q1 o1; cbn [cb_calls].
      - intros E. injection E as <- <-. constructor.
      - unfold called. destruct x.
        + destruct (start c t q) as [[q2 o2]|] eqn:E1; cbv beta iota zeta; [|discriminate].
          destruct (cb_calls c t q2 calls) as [[q3 o3]|] eqn:E2; [|discriminate]. intros E. injection E as <- <-.
          constructor; [cbn; tauto|]. apply Forall_app. split; [|eapply IH; eassumption].
          unfold start in E1. destruct (KeepaliveModel.st q); try (injection E1 as <- <-; constructor). eapply SC; eassumption.
        + destruct (stop c t q) as [[q2 o2]|] eqn:E1; cbv beta iota zeta; [|discriminate].
          destruct (cb_calls c t q2 calls) as [[q3 o3]|] eqn:E2; [|discriminate]. intros E. injection E as <- <-.
          constructor; [cbn; tauto|]. apply Forall_app. split; [|eapply IH; eassumption]. eapply SC; eassumption. 
Qed.

(** A silent peer is always detected: as long as neither a PONG nor a stop nor a
    report follows the PING, the timer is armed for exactly [wait_for_resp] seconds after it, and
    its expiry (any time from then on) invokes the callback, or without one
    terminates the instance. *)
Theorem C32_silent_peer_detected : forall c h s l a t0 v msg b, logs c h s l ->
  wait_for_resp c <> 0 ->
  l = a ++ Ping t0 v msg :: b ->
  Forall (fun o => ~ is_call CPong o /\ ~ is_call CStop o /\ ~ is_timeout o /\ ~ is_term o) b ->
  exists k, s = Some k /\ deadline k = Some (t0 + wait_for_resp c) /\
  forall t, t0 + wait_for_resp c <= t -> forall r, kstep c s (t, Expire) = Some r ->
    match timeout_cb c with
    | None => r = (None, [Terminated t])
    | Some _ => exists rest, snd r = TimedOut t :: rest /\ Forall (fun o => ~ is_timeout o) rest
    end.
Proof.
  intros c h s l a t0 v msg b H W E Q. destruct (logs_mon c h s l H) as (m & M & HR). subst l.
  destruct (msteps_split _ _ _ _ _ _ M) as (m1 & m2 & M1 & M2 & M3).
  assert (m2 = Outst t0) as -> by (destruct m1; cbn in M2; try discriminate; destruct (_ && _); congruence).
  assert (m = Outst t0) as ->.
  { destruct (quiet_outst c b (Outst t0) m ltac:(eauto) M3) as [_ D].
    { eapply Forall_impl; [|exact Q]. cbn. tauto. }
    clear - M3 Q. revert M3. induction Q as [|x b (Q1 & Q2 & Q3 & Q4) Q IH]; cbn; [congruence|].
    destruct x as [? []| | |]; cbn in *; try contradiction; try (exfalso; tauto); try discriminate; auto. }
  destruct s as [k|]; [|destruct HR]. cbn in HR. destruct HR as (Hs & HT & HD). unfold arm in HD.
  destruct (Z.eqb_spec (wait_for_resp c) 0); [contradiction|].
  exists k. split; [reflexivity|]. split; [exact HD|]. intros t Ht r. cbn [kstep]. rewrite HD.
  rewrite (proj2 (Z.leb_le _ _) Ht). unfold expire. cbn [T]. rewrite HT.
  destruct (timeout_cb c) as [cb|] eqn:EC.
  - cbn [cb_count]. destruct (cb (cb_count k)) as [[calls fr] rc].
    match goal with |- context [cb_calls ?a ?b ?q ?d] => destruct (cb_calls a b q d) as [[q1 o1]|] eqn:EQ; [|discriminate] end.
    assert (NT : Forall (fun o => ~ is_timeout o) o1).
    { eapply cb_no_timeout; exact EQ. }
    destruct fr; [|destruct (rc =? 1)]; intros E; injection E as <-; cbn [snd]; eexists; (split; [reflexivity|]);
      try assumption; apply Forall_app; (split; [assumption|]); repeat constructor; cbn; tauto.
  - intros E. injection E as <-. reflexivity.
Qed.

(** The callback's verdict decides: the instance ends iff it returned 1 (or the
    callback freed it itself). *)
Theorem C32_verdict : forall c k t d calls frees rc cb r,
  deadline k = Some d -> d <= t -> T k = T_PONG_NOT_RECEIVED -> timeout_cb c = Some cb ->
  cb (cb_count k) = (calls, frees, rc) ->
  kstep c (Some k) (t, Expire) = Some r ->
  (fst r = None <-> (rc = 1 \/ frees = true)) /\
  (exists r1, cb_calls c t (mkKa (st k) T_PONG_NOT_RECEIVED None (S (cb_count k))) calls = Some r1 /\
     (rc <> 1 -> frees = false -> fst r = Some (fst r1))).
Proof.
  intros c k t d calls frees rc cb r HD Hd HT HC Hcb. cbn [kstep]. rewrite HD, (proj2 (Z.leb_le _ _) Hd).
  unfold expire. cbn [T cb_count st]. rewrite HT, HC, Hcb.
  destruct (cb_calls c t _ calls) as [[q o]|]; [|discriminate].
  destruct frees; [|destruct (Z.eqb_spec rc 1)]; intros E; injection E as <-; cbn [fst];
    (split; [split; intros; try discriminate; try tauto; auto; try (destruct H; congruence)|exists (q, o); split; [reflexivity|]; intros; cbn; congruence]).
Qed.

(** After a PONG the next PING is due exactly [interval] seconds later. *)
Theorem C32_next_ping : forall c h s l a t v msg b t0 d, logs c h s l -> interval c <> 0 -> can_send c ->
  l = a ++ Ping t v msg :: b ++ Called t0 CPong :: d ->
  Forall (fun o => ~ is_call CPong o /\ ~ is_call CStop o) b ->
  Forall (fun o => ~ is_call CStop o /\ ~ is_ping o /\ ~ is_term o) d ->
  exists k, s = Some k /\ deadline k = Some (t0 + interval c) /\
  forall t1, t0 + interval c <= t1 -> exists k' v', kstep c s (t1, Expire) = Some (Some k', [Ping t1 v' [0; 1; 254; 0]]).
Proof.
  intros c h s l a t v msg b t0 d H W CS E Qb Qd. destruct (logs_mon c h s l H) as (m & M & HR). subst l.
  destruct (msteps_split _ _ _ _ _ _ M) as (m1 & m2 & M1 & M2 & M3).
  assert (m2 = Outst t) as -> by (destruct m1; cbn in M2; try discriminate; destruct (_ && _); congruence).
  destruct (msteps_split _ _ _ _ _ _ M3) as (m3 & m4 & M4 & M5 & M6).
  assert (m4 = Idle t0) as ->.
  { destruct (quiet_outst c b (Outst t) m3 ltac:(eauto) M4) as [_ [Em|[Em|Em]]]; try rewrite Em in M5; cbn in M5; try congruence.
    eapply Forall_impl; [|exact Qb]. cbn. tauto. }
  assert (m = Idle t0) as ->.
  { clear - M6 Qd. revert M6. induction Qd as [|x d (Q1 & Q2 & Q3) Q IH]; cbn; [congruence|].
    destruct x as [? []| | |]; cbn in *; try contradiction; try (exfalso; tauto); try discriminate; auto. }
  destruct s as [k|]; [|destruct HR]. cbn in HR. destruct HR as (Hs & HT & HD). unfold arm in HD.
  destruct (Z.eqb_spec (interval c) 0); [contradiction|].
  exists k. split; [reflexivity|]. split; [exact HD|]. intros t1 Ht. cbn [kstep]. rewrite HD.
  rewrite (proj2 (Z.leb_le _ _) Ht). unfold expire. cbn [T]. rewrite HT. unfold state_chg. cbn [st]. rewrite Hs. cbn [may_chg negb].
  unfold onenter_wait_resp, can_send in *. destruct (who c) as [| |dd]; [eauto..|]. destruct CS as [-> ->]. eauto.
Qed.

(** Refuted: a callback that returns 0 (do not terminate) without restarting the
    FSM leaves it waiting without a timer; start is ignored then, so a peer that
    stays silent is never pinged or reported again. *)
Theorem C32_stuck_after_callback_refuted : forall i w h, w <> 0 ->
  Forall (fun e => snd e = Start \/ snd e = Expire) h ->
  let c := mkCfg i w Client false (Some (fun _ => ([], false, 0))) in
  exists k l, krun c (Some ka_alloc) ((0, Start) :: (w, Expire) :: h) = Some (Some k, l) /\
    length (filter (fun o => match o with Called _ _ => false | _ => true end) l) = 2%nat /\ deadline k = None.
Proof.
  intros i w h W F c. set (k0 := mkKa KA_WAIT_RESP T_PONG_NOT_RECEIVED None 1).
  assert (G : exists k l, krun c (Some k0) h = Some (Some k, l) /\ filter (fun o => match o with Called _ _ => false | _ => true end) l = [] /\ deadline k = None).
  { clearbody c. induction F as [|[t e] h He F (k & l & E & Fl & D)]; [exists k0, []; repeat split|].
    cbn [krun]. cbn [snd] in He. destruct He as [He|He]; subst e; cbn [kstep]; unfold called, start; cbn [st k0 deadline].
    - change (mkKa KA_WAIT_RESP T_PONG_NOT_RECEIVED None 1) with k0. rewrite E. exists k, (Called t CStart :: l). repeat split; assumption.
    - change (mkKa KA_WAIT_RESP T_PONG_NOT_RECEIVED None 1) with k0. rewrite E. exists k, l. repeat split; assumption. }
  destruct G as (k & l & E & Fl & D).
  assert (S1 : kstep c (Some ka_alloc) (0, Start) = Some (Some (mkKa KA_WAIT_RESP T_PONG_NOT_RECEIVED (Some (0 + w)) 0), [Called 0 CStart; Ping 0 ViaClient gen_ipa_ping])).
  { cbn -[Z.add]. destruct (Z.eqb_spec w 0); [contradiction|reflexivity]. }
  assert (S2 : kstep c (Some (mkKa KA_WAIT_RESP T_PONG_NOT_RECEIVED (Some (0 + w)) 0)) (w, Expire) = Some (Some k0, [TimedOut w])).
  { cbn -[Z.add]. rewrite (proj2 (Z.leb_le (0 + w) w)) by lia. reflexivity. }
  cbn [krun]. rewrite S1, S2, E.
  eexists _, _. split; [reflexivity|]. cbn [app filter length]. rewrite Fl. split; [reflexivity|exact D].
Qed.

(** Refuted: with wait_for_resp = 0 no response timer runs at all. *)
Theorem C32_zero_wait_refuted : forall i h, Forall (fun e => snd e = Start \/ snd e = Expire) h ->
  let c := mkCfg i 0 Client false None in
  exists k l, krun c (Some ka_alloc) ((0, Start) :: h) = Some (Some k, l) /\
    Forall (fun o => ~ is_timeout o /\ ~ is_term o) l.
Proof.
  intros i h F c. set (k0 := mkKa KA_WAIT_RESP T_PONG_NOT_RECEIVED None 0).
  assert (G : exists k l, krun c (Some k0) h = Some (Some k, l) /\ Forall (fun o => ~ is_timeout o /\ ~ is_term o) l).
  { clearbody c. induction F as [|[t e] h He F (k & l & E & Fl)]; [exists k0, []; repeat split; constructor|].
    cbn [krun]. cbn [snd] in He. destruct He as [He|He]; subst e; cbn [kstep]; unfold called, start; cbn [st k0 deadline].
    - change (mkKa KA_WAIT_RESP T_PONG_NOT_RECEIVED None 0) with k0. rewrite E. exists k, (Called t CStart :: l). split; [reflexivity|].
      constructor; [cbn; tauto|assumption].
    - change (mkKa KA_WAIT_RESP T_PONG_NOT_RECEIVED None 0) with k0. rewrite E. exists k, l. split; [reflexivity|assumption]. }
  destruct G as (k & l & E & Fl).
  assert (S1 : kstep c (Some ka_alloc) (0, Start) = Some (Some k0, [Called 0 CStart; Ping 0 ViaClient gen_ipa_ping])) by reflexivity.
  cbn [krun]. rewrite S1, E.
  eexists _, _. split; [reflexivity|]. repeat (apply Forall_cons; [cbn; tauto|]). exact Fl.
Qed.

(** a full cycle meeting the hypotheses above *)
Example C32_witness :
  logs (mkCfg 30 10 Client false (Some (fun _ => ([CbStop; CbStart], false, 0))))
    [(0, Start); (4, Pong); (34, Expire); (44, Expire); (45, Pong)]
    (Some (mkKa KA_IDLE T_SEND_NEXT_PING (Some 75) 1))
    [Called 0 CStart; Ping 0 ViaClient [0; 1; 254; 0]; Called 4 CPong; Ping 34 ViaClient [0; 1; 254; 0];
     TimedOut 44; Called 44 CStop; Called 44 CStart; Ping 44 ViaClient [0; 1; 254; 0]; Called 45 CPong].
Proof. reflexivity. Qed.
