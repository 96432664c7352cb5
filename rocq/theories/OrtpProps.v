(** C67: RTP sockets. *)
From Coq Require Import List Arith Lia Bool ZArith.
From Verif Require Import Base OrtpModel OrtpSpec.
Import ListNotations.
Open Scope Z_scope.

(** ** invariant *)
Definition hist (P : list eff -> eff -> Prop) (es : list eff) : Prop := forall a e b, es = a ++ e :: b -> P a e.
Lemma hist_nil P : hist P []. Proof. intros a e b H. destruct a; discriminate. Qed.
Lemma hist_snoc P es x : hist P es -> P es x -> hist P (es ++ [x]).
Proof.
  intros H X a e b E. destruct (exists_last (l := e :: b) ltac:(easy)) as (b' & y & B). rewrite B in E. rewrite app_assoc in E. apply app_inj_tail in E. destruct E as [E ->].
  destruct b' as [|e' b']; [cbn in B; injection B as -> ->; rewrite app_nil_r in E; now subst|]. cbn in B. injection B as <- B. subst es. apply (H a e b'). reflexivity.
Qed.
Definition is_ret (e : eff) : bool := match e with ERet _ => true | _ => false end.
Definition good (k : kern) (t0 : Z) (a : list eff) (e : eff) : Prop :=
  (traffic e = true -> In EUp a) /\ (is_ret e = false -> ~ In EDestroy a) /\
  match e with
  | ESent ts _ _ _ _ => ts = u32 (t0 + elapsed a)
  | ERx p => exists a' ts n, a = a' ++ [EAsk ts] /\ k_recv k n ts = Some p /\ p_data p <> []
  | _ => True
  end.
Record Inv (k : kern) (t0 : Z) (pl : bool) (s : st) : Prop := {
  i_poll : poll s = pl;
  i_tx : tx_ts s = u32 (t0 + elapsed (out s));
  i_hist : hist (good k t0) (out s);
  i_up : disabled s = false <-> In EUp (out s);
  i_rtp : member false false (out s) = Some (r_reg s);
  i_rtcp : member true false (out s) = Some (c_reg s);
  i_both : r_reg s = c_reg s;
  i_reg : r_reg s = true -> disabled s = false /\ pl = false /\ r_read s = true;
  i_freed : freed s = true <-> In EDestroy (out s);
  i_gone : freed s = true -> r_reg s = false
}.
Lemma elapsed_app a b : elapsed (a ++ b) = elapsed a + elapsed b.
Proof. induction a as [|e r IH]; [easy|]. cbn [app elapsed]. destruct e; lia. Qed.
Lemma heard_app a b : heard (a ++ b) = heard a + heard b.
Proof. induction a as [|e r IH]; [easy|]. cbn [app heard]. destruct e; lia. Qed.
Lemma member_app c a : forall b es, member c b (a ++ es) = match member c b a with Some b => member c b es | None => None end.
Proof. induction a as [|e r IH]; intros b es; [easy|]. cbn [app member]. destruct e; auto; destruct (Bool.eqb c _), b; auto. Qed.
Lemma u32_add a b : u32 (u32 a + b) = u32 (a + b).
Proof. unfold u32. now rewrite Zplus_mod_idemp_l. Qed.
Definition plain (e : eff) : bool := match e with ELocal _ _ _ | EConnMode _ | ERemote _ _ | ESymmetric | EBuffer _ _ | EAdaptive _ | ERet _ | EReadable => true | _ => false end.
Lemma in_snoc {A} (x : A) l y : In x (l ++ [y]) <-> In x l \/ y = x. Proof. rewrite in_app_iff. cbn. tauto. Qed.
(** a plain effect *)
Lemma inv_plain k t0 pl s e : Inv k t0 pl s -> plain e = true -> (is_ret e = false -> freed s = false) -> Inv k t0 pl (emit s e).
Proof.
  intros [A B C D E F G H I J] P NF. constructor; cbn [emit poll tx_ts out disabled r_reg c_reg r_read freed]; auto.
  - rewrite elapsed_app. replace (elapsed [e]) with 0 by (destruct e; easy). now rewrite Z.add_0_r.
  - apply hist_snoc; [easy|]. split; [destruct e; easy|]. split; [intros R; specialize (NF R); intros X; apply I in X; congruence|destruct e; easy].
  - rewrite in_snoc, D. split; [auto|]. intros [X| ->]; [easy|discriminate].
  - rewrite member_app, E. destruct e; easy.
  - rewrite member_app, F. destruct e; easy.
  - rewrite in_snoc, I. split; [auto|]. intros [X| ->]; [easy|discriminate].
Qed.
(** fields that do not matter *)
Lemma inv_same k t0 pl s s' : Inv k t0 pl s -> poll s' = poll s -> tx_ts s' = tx_ts s -> out s' = out s -> disabled s' = disabled s -> r_reg s' = r_reg s -> c_reg s' = c_reg s -> r_read s' = r_read s -> freed s' = freed s -> Inv k t0 pl s'.
Proof. intros [A B C D E F G H I J] E1 E2 E3 E4 E5 E6 E7 E8. constructor; rewrite ?E1, ?E2, ?E3, ?E4, ?E5, ?E6, ?E7, ?E8; auto. Qed.
Lemma inv_ret k t0 pl p : Inv k t0 pl (fst p) -> Inv k t0 pl (ret p).
Proof. intros I. apply inv_plain; easy. Qed.
Lemma up_inv k t0 pl s : Inv k t0 pl s -> freed s = false -> Inv k t0 pl (emit (w_up s) EUp).
Proof.
  intros [A B C D E F G H I J] NF. constructor; cbn [emit w_up poll tx_ts out disabled r_reg c_reg r_read freed]; auto.
  - rewrite elapsed_app. cbn. now rewrite Z.add_0_r.
  - apply hist_snoc; [easy|]. split; [easy|]. split; [intros _ X; apply I in X; congruence|easy].
  - rewrite in_snoc. split; auto.
  - now rewrite member_app, E.
  - now rewrite member_app, F.
  - intros X. specialize (H X). tauto.
  - rewrite in_snoc, I. split; [auto|]. intros [X|X]; [easy|discriminate].
Qed.
Lemma fdreg_inv k t0 s p : Inv k t0 false s -> freed s = false -> disabled s = false -> fdreg k s = Ok p -> Inv k t0 false (fst p).
Proof.
  intros I NF U H. unfold fdreg in H. cbn [w_read r_reg] in H. destruct (r_reg s) eqn:R; [discriminate|]. cbn [w_read tick] in H.
  assert (CR : c_reg s = false) by (rewrite <- (i_both _ _ _ _ I); exact R).
  destruct (k_reg k (tick s)); cbn [negb] in H.
  2: { injection H as <-. cbn [fst]. destruct I as [A B C D E F G H' I J]. constructor; cbn [next w_read poll tx_ts out disabled r_reg c_reg r_read freed]; auto; try (intros; congruence). }
  cbn [emit next w_reg w_read c_reg tick] in H. rewrite CR in H. destruct I as [A B C D E F G H' I J].
  assert (NU : In EUp (out s)) by now apply D. assert (ND : ~ In EDestroy (out s)) by (intros X; apply I in X; congruence).
  assert (M1 : hist (good k t0) (out s ++ [EReg false])) by (apply hist_snoc; [easy|]; split; [auto|]; split; easy).
  assert (M2 : forall e, e = EReg true \/ e = EUnreg false -> hist (good k t0) ((out s ++ [EReg false]) ++ [e])).
  { intros e HE. apply hist_snoc; [easy|]. split; [intros _; apply in_snoc; now left|]. split; [intros _ X; apply in_snoc in X; destruct X as [X|X]; [easy|discriminate]|destruct HE as [-> | ->]; easy]. }
  destruct (k_reg k (S (tick s))); cbn [negb] in H; injection H as <-; cbn [fst].
  - constructor; cbn [emit next w_reg w_read poll tx_ts out disabled r_reg c_reg r_read freed]; auto.
    + rewrite !elapsed_app. cbn. now rewrite !Z.add_0_r.
    + rewrite !in_snoc. intuition (try discriminate).
    + rewrite !member_app, E. cbn. now rewrite R.
    + rewrite !member_app, F. cbn. now rewrite CR.
    + rewrite !in_snoc, I. intuition (try discriminate).
    + congruence.
  - constructor; cbn [emit next w_reg w_read poll tx_ts out disabled r_reg c_reg r_read freed]; auto.
    + rewrite !elapsed_app. cbn. now rewrite !Z.add_0_r.
    + rewrite !in_snoc. intuition (try discriminate).
    + rewrite !member_app, E. cbn. now rewrite R.
    + rewrite !member_app, F. cbn. now rewrite CR.
    + rewrite !in_snoc, I. intuition (try discriminate).
Qed.
Lemma exec_inv k t0 pl s c s' : Inv k t0 pl s -> exec k s c = Ok s' -> Inv k t0 pl s'.
Proof.
  intros I H. unfold exec in H. destruct (freed s) eqn:NF; [discriminate|]. destruct c as [port|port| |d|m d mk|a v|t|b|].
  - injection H as <-. apply inv_ret. unfold bind. cbn [fst]. apply (inv_plain k t0 pl (next s)); [eapply inv_same; eauto|easy|easy].
  - destruct (connect k port s) as [p|] eqn:E; [|discriminate]. injection H as <-. apply inv_ret. unfold connect in E. destruct (port =? 0); [injection E as <-; easy|].
    set (s1 := emit (next (emit s (EConnMode false))) _) in *. assert (I1 : Inv k t0 pl s1). { unfold s1. apply inv_plain; [|easy|easy]. eapply inv_same; [apply (inv_plain k t0 pl s (EConnMode false)); easy|..]; easy. }
    assert (F1 : freed s1 = false) by easy. clearbody s1. destruct (_ <? 0); [injection E as <-; easy|].
    assert (I2 : Inv k t0 pl (emit (w_up (emit s1 (EConnMode true))) EUp)) by (apply up_inv; [now apply inv_plain|easy]). cbn [emit w_up poll] in E. rewrite (i_poll _ _ _ _ I1) in E. destruct pl; [injection E as <-; exact I2|]. apply (fdreg_inv k t0 _ p I2); [exact F1|easy|exact E].
  - destruct (autoconnect k s) as [p|] eqn:E; [|discriminate]. injection H as <-. apply inv_ret. unfold autoconnect in E.
    assert (I2 : Inv k t0 pl (emit (w_up (emit (emit s ESymmetric) (EConnMode true))) EUp)) by (apply up_inv; [apply inv_plain; [now apply inv_plain|easy|easy]|easy]). cbn [emit w_up poll] in E. rewrite (i_poll _ _ _ _ I) in E. destruct pl; [injection E as <-; exact I2|]. apply (fdreg_inv k t0 _ p I2); [easy|easy|exact E].
  - injection H as <-. apply inv_ret. unfold skipped. destruct (disabled s) eqn:DS; [easy|]. cbn [fst]. destruct I as [A B C D E F G H I J]. constructor; cbn [emit w_tx poll tx_ts out disabled r_reg c_reg r_read freed]; auto.
    + rewrite elapsed_app, B, u32_add. cbn. f_equal. lia.
    + apply hist_snoc; [easy|]. split; [intros _; now apply D|]. split; [intros _ X; apply I in X; congruence|easy].
    + rewrite in_snoc. rewrite DS in D. intuition (try discriminate).
    + now rewrite member_app, E.
    + now rewrite member_app, F.
    + rewrite in_snoc, I. intuition (try discriminate).
  - injection H as <-. apply inv_ret. unfold send. destruct (disabled s) eqn:DS; [easy|]. destruct I as [A B C D E F G H I J]. destruct (k_make k (tick s)); cbn [negb fst].
    + constructor; cbn [emit next w_tx poll tx_ts out disabled r_reg c_reg r_read freed]; auto.
      * rewrite elapsed_app, B, u32_add. cbn. f_equal. lia.
      * apply hist_snoc; [easy|]. split; [intros _; now apply D|]. split; [intros _ X; apply I in X; congruence|easy].
      * rewrite in_snoc. rewrite DS in D. intuition (try discriminate).
      * now rewrite member_app, E.
      * now rewrite member_app, F.
      * rewrite in_snoc, I. intuition (try discriminate).
    + constructor; cbn [emit next w_tx poll tx_ts out disabled r_reg c_reg r_read freed]; auto.
      * rewrite elapsed_app, B. cbn. f_equal. lia.
      * apply hist_snoc; [easy|]. split; [intros _; now apply D|]. split; [intros _ X; apply I in X; congruence|easy].
      * rewrite in_snoc. rewrite DS in D. intuition (try discriminate).
      * now rewrite member_app, E.
      * now rewrite member_app, F.
      * rewrite in_snoc, I. intuition (try discriminate).
  - injection H as <-. apply inv_ret. unfold set_param. cbn [fst]. set (s1 := if a then _ else s). assert (I1 : Inv k t0 pl s1 /\ freed s1 = false). { unfold s1. destruct a; [|easy]. split; [|easy]. apply inv_plain; [eapply inv_same; eauto|easy|easy]. } destruct I1 as [I1 F1]. clearbody s1. apply inv_plain; [eapply inv_same; [exact I1|..]; easy|easy|easy].
  - injection H as <-. eapply inv_same; eauto.
  - injection H as <-. eapply inv_same; eauto.
  - injection H as <-. destruct I as [A B C D E F G H I J]. assert (ND : ~ In EDestroy (out s)) by (intros X; apply I in X; congruence). unfold free. destruct (r_reg s) eqn:R; rewrite <- G; cbn [emit w_reg c_reg]; rewrite <- ?G; cbn [emit w_reg w_freed].
    + assert (M1 : hist (good k t0) (out s ++ [EUnreg false])) by (apply hist_snoc; [easy|]; split; [easy|]; split; easy).
      assert (M2 : hist (good k t0) ((out s ++ [EUnreg false]) ++ [EUnreg true])) by (apply hist_snoc; [easy|]; split; [easy|]; split; [intros _ X; apply in_snoc in X; destruct X as [X|X]; [easy|discriminate]|easy]).
      constructor; cbn [emit w_reg w_freed poll tx_ts out disabled r_reg c_reg r_read freed]; auto.
      * rewrite !elapsed_app. cbn. now rewrite !Z.add_0_r.
      * apply hist_snoc; [easy|]. split; [easy|]. split; [intros _ X; rewrite !in_snoc in X; destruct X as [[X|X]|X]; [easy|discriminate|discriminate]|easy].
      * rewrite !in_snoc. intuition (try discriminate).
      * rewrite !member_app, E. easy.
      * rewrite !member_app, F, <- G. easy.
      * rewrite !in_snoc. intuition (try discriminate).
    + constructor; cbn [emit w_reg w_freed poll tx_ts out disabled r_reg c_reg r_read freed]; rewrite ?R; auto; try congruence.
      * rewrite !elapsed_app. cbn. now rewrite !Z.add_0_r.
      * apply hist_snoc; [easy|]. split; [easy|]. split; easy.
      * rewrite !in_snoc. intuition (try discriminate).
      * rewrite !member_app, E. easy.
      * rewrite !member_app, F, <- G. easy.
      * rewrite !in_snoc. intuition (try discriminate).
Qed.
Lemma execs_inv k t0 pl cs : forall s s', Inv k t0 pl s -> execs k cs s = Ok s' -> Inv k t0 pl s'.
Proof. induction cs as [|c cs IH]; intros s s' I H; cbn [execs] in H; [now injection H as <-|]. destruct (exec k s c) as [s1|] eqn:E; [|discriminate]. apply (IH s1 s'); [|easy]. now apply (exec_inv k t0 pl s c). Qed.
Lemma ask_inv k t0 pl s : Inv k t0 pl s -> freed s = false -> disabled s = false -> Inv k t0 pl (emit (next s) (EAsk (rx_ts s))).
Proof.
  intros [A B C D E F G H I J] NF DS. constructor; cbn [emit next poll tx_ts out disabled r_reg c_reg r_read freed]; auto.
  - rewrite elapsed_app, B. cbn. f_equal. lia.
  - apply hist_snoc; [easy|]. split; [intros _; now apply D|]. split; [intros _ X; apply I in X; congruence|easy].
  - rewrite in_snoc. intuition (try discriminate).
  - now rewrite member_app, E.
  - now rewrite member_app, F.
  - rewrite in_snoc, I. intuition (try discriminate).
Qed.
Lemma recv_inv k t0 pl act s p : Inv k t0 pl s -> freed s = false -> disabled s = false -> recv k act s = Ok p -> Inv k t0 pl (fst p).
Proof.
  intros I NF DS H. pose proof (ask_inv k t0 pl s I NF DS) as I1. unfold recv in H. destruct (k_recv k (tick s) (rx_ts s)) as [q|] eqn:K; [|injection H as <-; exact I1].
  match type of H with context [if ?c then _ else _] => destruct c eqn:CB end; [|injection H as <-; exact I1]. destruct (execs k act _) as [s2|] eqn:EX; [|discriminate]. injection H as <-. cbn [fst]. eapply execs_inv; [|exact EX].
  apply andb_prop in CB. destruct CB as [_ NE]. destruct I as [A B C D E F G H I J]. destruct I1 as [A1 B1 C1 D1 E1 F1 G1 H1 I1 J1]. constructor; cbn [emit next poll tx_ts out disabled r_reg c_reg r_read freed]; auto.
  - rewrite !elapsed_app, B. cbn. f_equal. lia.
  - apply hist_snoc; [easy|]. split; [intros _; apply in_snoc; left; now apply D|]. split; [intros _ X; apply in_snoc in X; destruct X as [X|X]; [apply I in X; congruence|discriminate]|].
    exists (out s), (rx_ts s), (tick s). split; [easy|]. split; [easy|]. intros X. rewrite X in NE. discriminate.
  - rewrite !in_snoc. intuition (try discriminate).
  - rewrite !member_app, E. easy.
  - rewrite !member_app, F. easy.
  - rewrite !in_snoc, I. intuition (try discriminate).
Qed.
Lemma step_inv k t0 pl s v s' : Inv k t0 pl s -> step k s v = Ok s' -> Inv k t0 pl s'.
Proof.
  intros I H. destruct v as [cs|act|act|]; cbn [step] in H.
  - now apply (execs_inv k t0 pl cs s).
  - unfold poll_socket in H. destruct (freed s) eqn:NF; [discriminate|]. destruct (disabled s) eqn:DS; [injection H as <-; now apply inv_plain|]. destruct (recv k act s) as [p|] eqn:R; [|discriminate]. injection H as <-. apply inv_plain; [|easy|easy]. now apply (recv_inv k t0 pl act s).
  - destruct (r_reg s && r_read s) eqn:RG; [|now injection H as <-]. apply andb_prop in RG. destruct RG as [RG _]. unfold fd_cb in H. destruct (i_reg _ _ _ _ I RG) as (U & PL & RD). rewrite (i_poll _ _ _ _ I), PL in H.
    assert (NF : freed s = false) by (destruct (freed s) eqn:NF; [|easy]; apply (i_gone _ _ _ _ I) in NF; congruence).
    destruct (recv k act s) as [p|] eqn:R; [|discriminate]. destruct (freed (fst p)) eqn:F2; [discriminate|]. injection H as <-. apply inv_plain; [|easy|easy]. eapply inv_same; [apply (recv_inv k t0 pl act s p I NF U R)|..]; easy.
  - injection H as <-. destruct (c_reg s) eqn:CR; [|easy]. rewrite <- (i_both _ _ _ _ I) in CR. destruct (i_reg _ _ _ _ I CR) as (U & PL & RD).
    assert (NF : freed s = false) by (destruct (freed s) eqn:NF; [|easy]; apply (i_gone _ _ _ _ I) in NF; congruence).
    destruct I as [A B C D E F G H I J]. constructor; cbn [emit next poll tx_ts out disabled r_reg c_reg r_read freed]; auto.
    + rewrite elapsed_app, B. cbn. f_equal. lia.
    + apply hist_snoc; [easy|]. split; [intros _; now apply D|]. split; [intros _ X; apply I in X; congruence|easy].
    + rewrite in_snoc. intuition (try discriminate).
    + now rewrite member_app, E.
    + now rewrite member_app, F.
    + rewrite in_snoc, I. intuition (try discriminate).
Qed.
Lemma run_inv k t0 pl vs : forall s s', Inv k t0 pl s -> run k s vs = Ok s' -> Inv k t0 pl s'.
Proof. induction vs as [|v r IH]; intros s s' I H; cbn [run] in H; [now injection H as <-|]. destruct (step k s v) as [s1|] eqn:E; [|discriminate]. apply (IH s1 s'); [|easy]. now apply (step_inv k t0 pl s v). Qed.
Lemma init_inv k t0 pl : Inv k t0 pl (st_init pl t0).
Proof. constructor; cbn; try easy. - now rewrite Z.add_0_r. - apply hist_nil. Qed.
Lemma reach k t0 pl vs s : run k (st_init pl t0) vs = Ok s -> Inv k t0 pl s.
Proof. apply run_inv, init_inv. Qed.

(** ** C67 *)
(** every packet bears the time it is due: the first timestamp and the durations of all packets
    and skipped frames before it, whether or not those could be sent *)
Theorem C67_clock k t0 pl vs s a ts mk m d rc b : run k (st_init pl t0) vs = Ok s -> out s = a ++ ESent ts mk m d rc :: b -> ts = (t0 + elapsed a) mod 2 ^ 32.
Proof. intros R E. apply reach in R. apply (i_hist _ _ _ _ R) in E. apply E. Qed.
(** nothing goes in or out before the socket is connected *)
Theorem C67_quiet k t0 pl vs s a e b : run k (st_init pl t0) vs = Ok s -> out s = a ++ e :: b -> traffic e = true -> In EUp a.
Proof. intros R E. apply reach in R. apply (i_hist _ _ _ _ R) in E. apply E. Qed.
(** nothing happens on a socket after it was freed but that calls return *)
Theorem C67_freed k t0 pl vs s a b : run k (st_init pl t0) vs = Ok s -> out s = a ++ EDestroy :: b -> Forall (fun e => exists rc, e = ERet rc) b.
Proof.
  intros R E. apply reach in R. apply Forall_forall. intros e H. apply in_split in H. destruct H as (b1 & b2 & ->). change (EDestroy :: b1 ++ e :: b2) with ((EDestroy :: b1) ++ e :: b2) in E. rewrite app_assoc in E. apply (i_hist _ _ _ _ R) in E. destruct E as (_ & E & _). destruct e; eauto; exfalso; apply E; auto; apply in_or_app; right; now left.
Qed.
(** packets handed to the application are libortp's answers, not empty, each once *)
Theorem C67_rx k t0 pl vs s a p b : run k (st_init pl t0) vs = Ok s -> out s = a ++ ERx p :: b -> exists a' ts n, a = a' ++ [EAsk ts] /\ k_recv k n ts = Some p /\ p_data p <> [].
Proof. intros R E. apply reach in R. apply (i_hist _ _ _ _ R) in E. apply E. Qed.
(** RTP and RTCP descriptor are in the select loop both or neither, never twice, never in polling
    mode and never after the socket was freed *)
Theorem C67_select k t0 pl vs s : run k (st_init pl t0) vs = Ok s -> exists b, member false false (out s) = Some b /\ member true false (out s) = Some b /\ (b = true -> pl = false /\ In EUp (out s) /\ ~ In EDestroy (out s)).
Proof.
  intros R. apply reach in R. exists (r_reg s). split; [apply R|]. rewrite (i_both _ _ _ _ R) at 1. split; [apply R|]. intros B. destruct (i_reg _ _ _ _ R B) as (U & P & _). split; [easy|]. split; [now apply (i_up _ _ _ _ R)|]. intros D. apply (i_freed _ _ _ _ R), (i_gone _ _ _ _ R) in D. congruence.
Qed.
(** what the calls do *)
Theorem C67_send k t0 pl vs s m d mk s' : run k (st_init pl t0) vs = Ok s -> exec k s (CSend m d mk) = Ok s' ->
  (~ In EUp (out s) -> out s' = out s ++ [ERet 0]) /\
  (In EUp (out s) -> (exists rc, out s' = out s ++ [ESent ((t0 + elapsed (out s)) mod 2 ^ 32) mk m d rc; ERet rc]) \/ (exists n, k_make k n = false) /\ out s' = out s ++ [ENoMem; ERet (-12)]).
Proof.
  intros R H. apply reach in R. unfold exec in H. destruct (freed s); [discriminate|]. injection H as <-. unfold send, ret. destruct (disabled s) eqn:DS.
  - split; [easy|]. intros U. apply (i_up _ _ _ _ R) in U. congruence.
  - split; [intros U; elim U; now apply (i_up _ _ _ _ R)|]. intros _. destruct (k_make k (tick s)) eqn:K; cbn [negb fst snd emit next w_tx out tx_ts]; rewrite <- app_assoc; [left; eexists; cbn [tick next]; rewrite (i_tx _ _ _ _ R); reflexivity|right; split; [eauto|reflexivity]].
Qed.
Theorem C67_skip k t0 pl vs s d s' : run k (st_init pl t0) vs = Ok s -> exec k s (CSkip d) = Ok s' -> (~ In EUp (out s) -> out s' = out s ++ [ERet 0]) /\ (In EUp (out s) -> out s' = out s ++ [ESkip d; ERet 0]).
Proof.
  intros R H. apply reach in R. unfold exec in H. destruct (freed s); [discriminate|]. injection H as <-. unfold skipped, ret. destruct (disabled s) eqn:DS.
  - split; [easy|]. intros U. apply (i_up _ _ _ _ R) in U. congruence.
  - split; [intros U; elim U; now apply (i_up _ _ _ _ R)|]. intros _. cbn [fst snd emit w_tx out]. now rewrite <- app_assoc.
Qed.

Lemma fdreg_out k s p : fdreg k s = Ok p -> r_reg s = false /\ exists es, out (fst p) = out s ++ es /\ (snd p = 0 /\ es = [EReg false; EReg true] \/ snd p = -1 /\ exists n, k_reg k n = false).
Proof.
  intros E. unfold fdreg in E. cbn [w_read r_reg tick] in E. destruct (r_reg s); [discriminate|]. split; [easy|]. destruct (k_reg k (tick s)) eqn:K1; cbn [negb] in E.
  2: { injection E as <-. exists []. rewrite app_nil_r. split; [easy|]. right. split; [easy|]. now exists (tick s). }
  cbn [emit next w_reg w_read c_reg tick] in E. destruct (c_reg s); [discriminate|]. destruct (k_reg k (S (tick s))) eqn:K2; cbn [negb] in E; injection E as <-; cbn [fst snd emit next w_reg w_read out]; rewrite <- app_assoc; eexists; (split; [reflexivity|]).
  - now left.
  - right. split; [easy|]. now exists (S (tick s)).
Qed.
Definition conn_ok (k : kern) (pl : bool) (pre : list eff) (s : st) (p : st * Z) : Prop :=
  exists es, out (fst p) = out s ++ pre ++ es /\ (0 <= snd p -> pl = false -> member false false (out (fst p)) = Some true /\ member true false (out (fst p)) = Some true) /\ (snd p < 0 -> exists n, k_reg k n = false).
Lemma conn_tail k t0 pl s s1 pre rc p : Inv k t0 pl s -> out s1 = out s ++ pre -> r_reg s1 = r_reg s -> c_reg s1 = c_reg s -> poll s1 = pl -> (forall b, member false b pre = Some b) -> (forall b, member true b pre = Some b) -> 0 <= rc -> (if poll s1 then Ok (s1, rc) else fdreg k s1) = Ok p -> conn_ok k pl pre s p.
Proof.
  intros I O RR CR P M1 M2 RC H. unfold conn_ok. rewrite P in H. destruct pl.
  - injection H as <-. exists []. cbn [fst snd]. rewrite app_nil_r. split; [easy|]. split; [easy|]. lia.
  - destruct (fdreg_out _ _ _ H) as (R0 & es & O2 & X). exists es. rewrite O2, O, <- app_assoc. split; [easy|]. rewrite RR in R0. destruct X as [[X ->]|[X N]]; rewrite X; (split; [|]); try lia; [|easy].
    intros _ _. split.
    + rewrite member_app, (i_rtp _ _ _ _ I), R0. cbv iota. now rewrite member_app, M1.
    + rewrite member_app, (i_rtcp _ _ _ _ I), <- (i_both _ _ _ _ I), R0. cbv iota. now rewrite member_app, M2.
Qed.
(** connecting: with a remote address and (unless polling) both descriptors in the select loop;
    a failure is told by a negative number *)
Theorem C67_connect k t0 pl vs s c s' : run k (st_init pl t0) vs = Ok s -> connects c = true -> exec k s c = Ok s' ->
  exists es rc, out s' = out s ++ es ++ [ERet rc] /\ (0 <= rc -> In EUp es /\ (match c with CConnect port => exists rc', In (ERemote port rc') es /\ 0 <= rc' | _ => In ESymmetric es end) /\ (pl = false -> member false false (out s') = Some true /\ member true false (out s') = Some true)) /\
  (rc < 0 -> (exists n, k_remote k n < 0) \/ exists n, k_reg k n = false).
Proof.
  intros R C H. apply reach in R. unfold exec in H. destruct (freed s) eqn:NF; [discriminate|].
  assert (FIN : forall pre p (X : Prop), (X -> In EUp pre /\ match c with CConnect port => exists rc', In (ERemote port rc') pre /\ 0 <= rc' | _ => In ESymmetric pre end) -> X -> conn_ok k pl pre s p -> exists es rc, out (ret p) = out s ++ es ++ [ERet rc] /\ (0 <= rc -> In EUp es /\ (match c with CConnect port => exists rc', In (ERemote port rc') es /\ 0 <= rc' | _ => In ESymmetric es end) /\ (pl = false -> member false false (out (ret p)) = Some true /\ member true false (out (ret p)) = Some true)) /\
  (rc < 0 -> (exists n, k_remote k n < 0) \/ exists n, k_reg k n = false)).
  { intros pre p X PR HX (es & O & A & B). exists (pre ++ es), (snd p). unfold ret. cbn [emit out]. split; [rewrite O; now rewrite <- !app_assoc|]. split; [|intros L; right; now apply B]. intros L. destruct (PR HX) as [P1 P2]. split; [apply in_or_app; now left|]. split.
    - destruct c; try (apply in_or_app; now left). destruct P2 as (rc' & P2 & P3). exists rc'. split; [apply in_or_app; now left|easy].
    - intros PL. destruct (A L PL) as [A1 A2]. now rewrite !member_app, A1, A2. }
  destruct c as [port|port| | | | | | |]; try discriminate.
  - destruct (connect k port s) as [p|] eqn:E; [|discriminate]. injection H as <-. cbn [connects] in C. unfold connect in E. destruct (port =? 0); [discriminate|]. set (rc0 := k_remote k (tick (emit s (EConnMode false)))) in *.
    destruct (Z.ltb_spec rc0 0) as [L|L].
    + injection E as <-. exists [EConnMode false; ERemote port rc0], rc0. split; [unfold ret; cbn [fst snd emit next out]; now rewrite <- !app_assoc|]. split; [lia|]. intros _. left. now exists (tick (emit s (EConnMode false))).
    + cbv iota in E. clearbody rc0. apply (FIN [EConnMode false; ERemote port rc0; EConnMode true; EUp] p (0 <= rc0)); [|easy|].
      * intros L0. split; [cbn; tauto|]. exists rc0. cbn. tauto.
      * eapply conn_tail; [exact R| | | | | | |exact L|exact E]; try easy; [cbn [emit next w_up out]; now rewrite <- !app_assoc|apply R].
  - destruct (autoconnect k s) as [p|] eqn:E; [|discriminate]. injection H as <-. unfold autoconnect in E. apply (FIN [ESymmetric; EConnMode true; EUp] p True); [|easy|].
    + intros _. cbn. tauto.
    + eapply conn_tail; [exact R| | | | | | |apply Z.le_refl|exact E]; try easy; [cbn [emit next w_up out]; now rewrite <- !app_assoc|apply R].
Qed.

(** ** commands add to the trace *)
Definition extends (s s' : st) : Prop := exists es, out s' = out s ++ es.
Lemma ext_refl s : extends s s. Proof. exists []. now rewrite app_nil_r. Qed.
Lemma ext_trans a b c : extends a b -> extends b c -> extends a c. Proof. intros [x X] [y Y]. exists (x ++ y). now rewrite Y, X, app_assoc. Qed.
Lemma ext_emit a b e : extends a b -> extends a (emit b e). Proof. intros [x X]. exists (x ++ [e]). cbn [emit out]. now rewrite X, app_assoc. Qed.
Lemma ext_same a b c : extends a b -> out c = out b -> extends a c. Proof. intros [x X] E. exists x. congruence. Qed.
Lemma fdreg_ext k s p : fdreg k s = Ok p -> extends s (fst p).
Proof. intros H. destruct (fdreg_out _ _ _ H) as (_ & es & O & _). now exists es. Qed.
Lemma exec_ext k s c s' : exec k s c = Ok s' -> extends s s'.
Proof.
  intros H. unfold exec in H. destruct (freed s); [discriminate|]. destruct c as [port|port| |d|m d mk|a v|t|b|].
  - injection H as <-. apply ext_emit, ext_emit. now exists []; rewrite app_nil_r.
  - destruct (connect k port s) as [p|] eqn:E; [|discriminate]. injection H as <-. apply ext_emit. unfold connect in E. destruct (port =? 0); [injection E as <-; apply ext_refl|].
    set (s1 := emit (next (emit s (EConnMode false))) _) in *. assert (X : extends s s1) by (unfold s1; apply ext_emit; eapply ext_same; [apply ext_emit, ext_refl|reflexivity]). clearbody s1. destruct (_ <? 0); [injection E as <-; exact X|].
    assert (X2 : extends s (emit (w_up (emit s1 (EConnMode true))) EUp)) by (apply ext_emit; eapply ext_same; [apply ext_emit, X|reflexivity]). set (s2 := emit (w_up _) EUp) in *. clearbody s2. destruct (poll s2); [injection E as <-; easy|]. eapply ext_trans; [exact X2|]. now apply fdreg_ext in E.
  - destruct (autoconnect k s) as [p|] eqn:E; [|discriminate]. injection H as <-. apply ext_emit. unfold autoconnect in E.
    assert (X2 : extends s (emit (w_up (emit (emit s ESymmetric) (EConnMode true))) EUp)) by (apply ext_emit; eapply ext_same; [apply ext_emit, ext_emit, ext_refl|reflexivity]). set (s2 := emit (w_up _) EUp) in *. clearbody s2. destruct (poll s2); [injection E as <-; easy|]. eapply ext_trans; [exact X2|]. now apply fdreg_ext in E.
  - injection H as <-. apply ext_emit. unfold skipped. destruct (disabled s); [apply ext_refl|]. apply ext_emit. eapply ext_same; [apply ext_refl|reflexivity].
  - injection H as <-. apply ext_emit. unfold send. destruct (disabled s); [apply ext_refl|]. destruct (k_make k (tick s)); apply ext_emit; (eapply ext_same; [apply ext_refl|reflexivity]).
  - injection H as <-. apply ext_emit. unfold set_param. cbn [fst]. apply ext_emit. destruct a; [eapply (ext_same s (emit (w_jit s (buffer s) (negb (v =? 0))) (EAdaptive (negb (v =? 0))))); [|reflexivity]; apply ext_emit|]; (eapply (ext_same s s); [apply ext_refl|reflexivity]).
  - injection H as <-. eapply ext_same; [apply ext_refl|reflexivity].
  - injection H as <-. eapply ext_same; [apply ext_refl|reflexivity].
  - injection H as <-. unfold free. apply ext_emit. eapply ext_same; [|reflexivity]. set (s1 := if r_reg s then _ else s). assert (X : extends s s1). { unfold s1. destruct (r_reg s); [apply ext_emit; eapply ext_same; [apply ext_refl|reflexivity]|apply ext_refl]. } clearbody s1. destruct (c_reg s1); [apply ext_emit; eapply ext_same; [exact X|reflexivity]|exact X].
Qed.
Lemma execs_ext k cs : forall s s', execs k cs s = Ok s' -> extends s s'.
Proof. induction cs as [|c r IH]; intros s s' H; cbn [execs] in H; [injection H as <-; apply ext_refl|]. destruct (exec k s c) as [s1|] eqn:E; [|discriminate]. eapply ext_trans; [apply (exec_ext _ _ _ _ E)|now apply IH]. Qed.
(** what is received: [q] libortp's answer, [set] the callback is set *)
Definition delivers (q : option pkt) (set : bool) (es : list eff) (r : bool) : Prop :=
  match q with
  | Some p => match p_data p with [] => es = [] /\ r = false | _ => r = true /\ if set then exists es', es = ERx p :: es' else es = [] end
  | None => es = [] /\ r = false
  end.
Lemma recv_out k act s p : recv k act s = Ok p -> exists es, out (fst p) = out s ++ EAsk (rx_ts s) :: es /\ delivers (k_recv k (tick s) (rx_ts s)) (cb s) es (snd p).
Proof.
  intros H. unfold recv in H. destruct (k_recv k (tick s) (rx_ts s)) as [q|]; cbn [delivers]; [|injection H as <-; exists []; easy].
  cbn [emit next cb] in H. destruct (p_data q) as [|x y] eqn:D; cbn [length Nat.eqb negb] in H; rewrite ?andb_false_r, ?andb_true_r in H; [injection H as <-; exists []; easy|].
  destruct (cb s); [|injection H as <-; exists []; easy]. destruct (execs k act _) as [s2|] eqn:X; [|discriminate]. injection H as <-. apply execs_ext in X. destruct X as [es X]. cbn [fst snd emit out] in *. exists (ERx q :: es). split; [rewrite X; now rewrite <- !app_assoc|]. split; [easy|]. now exists es.
Qed.
(** polling gives the application the packet libortp has, if any, and says whether there was one *)
Theorem C67_poll k t0 pl vs s act s' : run k (st_init pl t0) vs = Ok s -> step k s (Poll act) = Ok s' ->
  (~ In EUp (out s) -> out s' = out s ++ [ERet 0]) /\
  (In EUp (out s) -> exists ts es r n, out s' = out s ++ EAsk ts :: es ++ [ERet (if r : bool then 1 else 0)] /\ delivers (k_recv k n ts) (cb s) es r).
Proof.
  intros R H. apply reach in R. cbn [step] in H. unfold poll_socket in H. destruct (freed s) eqn:NF; [discriminate|]. destruct (disabled s) eqn:DS.
  - injection H as <-. split; [easy|]. intros U. apply (i_up _ _ _ _ R) in U. congruence.
  - split; [intros U; elim U; now apply (i_up _ _ _ _ R)|]. intros _. destruct (recv k act s) as [p|] eqn:RC; [|discriminate]. injection H as <-. destruct (recv_out _ _ _ _ RC) as (es & O & D). exists (rx_ts s), es, (snd p), (tick s). split; [|easy]. cbn [emit out]. rewrite O. now rewrite <- app_assoc.
Qed.
(** in select mode, a packet that arrives on a socket connected is taken and given to the application *)
Theorem C67_ready k t0 pl vs s act s' : run k (st_init pl t0) vs = Ok s -> step k s (Ready act) = Ok s' ->
  match member false false (out s) with
  | Some true => exists ts es r n, out s' = out s ++ EAsk ts :: es ++ [EReadable] /\ delivers (k_recv k n ts) (cb s) es r
  | _ => s' = s
  end.
Proof.
  intros R H. apply reach in R. cbn [step] in H. rewrite (i_rtp _ _ _ _ R). destruct (r_reg s) eqn:RR; [|now injection H as <-]. destruct (i_reg _ _ _ _ R RR) as (U & P & RD). rewrite RD in H. cbn [andb] in H. unfold fd_cb in H. rewrite (i_poll _ _ _ _ R), P in H. destruct (recv k act s) as [p|] eqn:RC; [|discriminate]. destruct (freed (fst p)); [discriminate|]. injection H as <-. destruct (recv_out _ _ _ _ RC) as (es & O & D). exists (rx_ts s), es, (snd p), (tick s). split; [|easy]. cbn [emit w_rx out]. rewrite O. now rewrite <- app_assoc.
Qed.

(** ** the receive clock *)
Definition tsgood (a : list eff) (e : eff) : Prop := match e with EAsk ts => ts = u32 (heard a) | _ => True end.
Record Clk (s : st) : Prop := { k_rx : rx_ts s = u32 (heard (out s)); k_hist : hist tsgood (out s) }.
Definition quiet (e : eff) : bool := match e with EAsk _ | EReadable => false | _ => true end.
Lemma clk_quiet s s' e : Clk s -> rx_ts s' = rx_ts s -> out s' = out s ++ [e] -> quiet e = true -> Clk s'.
Proof. intros [A B] E O Q. constructor; rewrite O; [rewrite heard_app, E, A; f_equal; destruct e; try discriminate; cbn; lia|]. apply hist_snoc; [easy|]. destruct e; easy. Qed.
Lemma clk_emit s e : Clk s -> quiet e = true -> Clk (emit s e). Proof. intros C Q. now apply (clk_quiet s _ e). Qed.
Lemma clk_same s s' : Clk s -> rx_ts s' = rx_ts s -> out s' = out s -> Clk s'.
Proof. intros [A B] E O. constructor; rewrite O; [congruence|easy]. Qed.
Lemma fdreg_clk k s p : Clk s -> fdreg k s = Ok p -> Clk (fst p).
Proof.
  intros C E. unfold fdreg in E. cbn [w_read r_reg tick] in E. destruct (r_reg s); [discriminate|]. destruct (k_reg k (tick s)); cbn [negb] in E; [|injection E as <-; eapply clk_same; eauto].
  cbn [emit next w_reg w_read c_reg tick] in E. destruct (c_reg s); [discriminate|]. destruct (k_reg k (S (tick s))); cbn [negb] in E; injection E as <-; cbn [fst].
  - eapply (clk_quiet (mkS (disabled s) (poll s) true true true (rx_ts s) (tx_ts s) (cb s) (buffer s) (adaptive s) (freed s) 0 (out s ++ [EReg false]))); [eapply clk_quiet; [exact C|..]; easy|..]; reflexivity.
  - eapply (clk_quiet (mkS (disabled s) (poll s) true true true (rx_ts s) (tx_ts s) (cb s) (buffer s) (adaptive s) (freed s) 0 (out s ++ [EReg false]))); [eapply clk_quiet; [exact C|..]; easy|..]; reflexivity.
Qed.
Lemma exec_clk k s c s' : Clk s -> keeps_ts c = true -> exec k s c = Ok s' -> Clk s'.
Proof.
  intros C T H. unfold exec in H. destruct (freed s); [discriminate|]. destruct c as [port|port| |d|m d mk|a v|t|b|]; try discriminate T.
  - injection H as <-. apply clk_emit; [|easy]. unfold bind. cbn [fst]. apply clk_emit; [|easy]. eapply clk_same; eauto.
  - destruct (connect k port s) as [p|] eqn:E; [|discriminate]. injection H as <-. apply clk_emit; [|easy]. unfold connect in E. destruct (port =? 0); [injection E as <-; easy|].
    set (s1 := emit (next (emit s (EConnMode false))) _) in *. assert (X : Clk s1) by (unfold s1; apply clk_emit; [|easy]; eapply clk_same; [apply (clk_emit s (EConnMode false)); easy|easy|easy]). clearbody s1. destruct (_ <? 0); [injection E as <-; exact X|].
    assert (X2 : Clk (emit (w_up (emit s1 (EConnMode true))) EUp)) by (apply clk_emit; [|easy]; eapply clk_same; [apply (clk_emit s1 (EConnMode true)); easy|easy|easy]). set (s2 := emit (w_up _) EUp) in *. clearbody s2. destruct (poll s2); [injection E as <-; easy|]. now apply fdreg_clk in E.
  - destruct (autoconnect k s) as [p|] eqn:E; [|discriminate]. injection H as <-. apply clk_emit; [|easy]. unfold autoconnect in E.
    assert (X2 : Clk (emit (w_up (emit (emit s ESymmetric) (EConnMode true))) EUp)) by (apply clk_emit; [|easy]; eapply clk_same; [apply (clk_emit (emit s ESymmetric) (EConnMode true)); [now apply clk_emit|easy]|easy|easy]). set (s2 := emit (w_up _) EUp) in *. clearbody s2. destruct (poll s2); [injection E as <-; easy|]. now apply fdreg_clk in E.
  - injection H as <-. apply clk_emit; [|easy]. unfold skipped. destruct (disabled s); [easy|]. apply clk_emit; [|easy]. eapply clk_same; eauto.
  - injection H as <-. apply clk_emit; [|easy]. unfold send. destruct (disabled s); [easy|]. destruct (k_make k (tick s)); (apply clk_emit; [|easy]); eapply clk_same; eauto.
  - injection H as <-. apply clk_emit; [|easy]. unfold set_param. cbn [fst]. apply clk_emit; [|easy]. destruct a; [eapply (clk_same (emit (w_jit s (buffer s) (negb (v =? 0))) (EAdaptive (negb (v =? 0))))); [|easy|easy]; apply clk_emit; [|easy]; eapply clk_same; eauto|eapply clk_same; eauto].
  - injection H as <-. eapply clk_same; eauto.
  - injection H as <-. unfold free. apply clk_emit; [|easy]. set (s1 := if r_reg s then _ else s). assert (X : Clk s1). { unfold s1. destruct (r_reg s); [|easy]. apply clk_emit; [|easy]. eapply clk_same; eauto. } clearbody s1. destruct (c_reg s1); [|eapply clk_same; eauto]. eapply (clk_quiet s1); [exact X|easy|reflexivity|easy].
Qed.
Lemma execs_clk k cs : forall s s', Clk s -> Forall (fun c => keeps_ts c = true) cs -> execs k cs s = Ok s' -> Clk s'.
Proof. induction cs as [|c r IH]; intros s s' C F H; cbn [execs] in H; [now injection H as <-|]. destruct (exec k s c) as [s1|] eqn:E; [|discriminate]. apply (IH s1 s'); [|exact (Forall_inv_tail F)|easy]. apply (exec_clk k s c s1 C (Forall_inv F) E). Qed.
Lemma recv_clk k act s p : Clk s -> Forall (fun c => keeps_ts c = true) act -> recv k act s = Ok p -> Clk (fst p).
Proof.
  intros C F H. assert (C1 : Clk (emit (next s) (EAsk (rx_ts s)))). { destruct C as [A B]. constructor; cbn [emit next rx_ts out]; [rewrite heard_app; cbn; now rewrite Z.add_0_r|]. apply hist_snoc; [easy|]. exact A. }
  unfold recv in H. destruct (k_recv _ _ _) as [q|]; [|injection H as <-; exact C1]. match type of H with context [if ?c then _ else _] => destruct c eqn:CB end; [|injection H as <-; exact C1]. destruct (execs k act _) as [s2|] eqn:EX; [|discriminate]. injection H as <-. cbn [fst]. eapply execs_clk; [|exact F|exact EX]. now apply clk_emit.
Qed.
Lemma step_clk k s v s' : Clk s -> Forall (fun c => keeps_ts c = true) (cmds v) -> step k s v = Ok s' -> Clk s'.
Proof.
  intros C F H. destruct v as [cs|act|act|]; cbn [step cmds] in *.
  - now apply (execs_clk k cs s).
  - unfold poll_socket in H. destruct (freed s); [discriminate|]. destruct (disabled s); [injection H as <-; now apply clk_emit|]. destruct (recv k act s) as [p|] eqn:R; [|discriminate]. injection H as <-. apply clk_emit; [|easy]. now apply (recv_clk k act s).
  - destruct (r_reg s && r_read s); [|now injection H as <-]. unfold fd_cb in H. destruct (poll s); [injection H as <-; eapply clk_same; eauto|]. destruct (recv k act s) as [p|] eqn:R; [|discriminate]. destruct (freed (fst p)); [discriminate|]. injection H as <-. apply (recv_clk k act s p C F) in R. destruct R as [A B]. constructor; cbn [emit w_rx rx_ts out].
    + rewrite heard_app, A, u32_add. reflexivity.
    + apply hist_snoc; easy.
  - injection H as <-. destruct (c_reg s); [now apply clk_emit|easy].
Qed.
Lemma run_clk k vs : forall s s', Clk s -> Forall (fun c => keeps_ts c = true) (flat_map cmds vs) -> run k s vs = Ok s' -> Clk s'.
Proof. induction vs as [|v r IH]; intros s s' C F H; cbn [run flat_map] in *; [now injection H as <-|]. apply Forall_app in F. destruct F as [F1 F2]. destruct (step k s v) as [s1|] eqn:E; [|discriminate]. apply (IH s1 s'); [|easy|easy]. now apply (step_clk k s v). Qed.
(** libortp is asked with a clock that starts at 0 and gains a frame (160 ticks) with every call
    of the select loop, with or without a packet; polling leaves it to the application *)
Theorem C67_asks k t0 pl vs s a ts b : run k (st_init pl t0) vs = Ok s -> Forall (fun c => keeps_ts c = true) (flat_map cmds vs) -> out s = a ++ EAsk ts :: b -> ts = heard a mod 2 ^ 32.
Proof. intros R F E. apply run_clk in R; [|constructor; [easy|apply hist_nil]|easy]. apply (k_hist _ R) in E. exact E. Qed.
(** after the application set its clock, the next question uses what it set *)
Theorem C67_set_clock k t0 pl vs s t act s' : run k (st_init pl t0) vs = Ok s -> In EUp (out s) -> run k s [App [CRxTs t]; Poll act] = Ok s' -> exists es, out s' = out s ++ EAsk (t mod 2 ^ 32) :: es.
Proof.
  intros R U H. apply reach in R. cbn [run step execs] in H. unfold exec in H. destruct (freed s) eqn:NF; cbv iota in H; [exfalso; easy|]. unfold poll_socket in H. cbn [w_rx freed disabled] in H. rewrite NF in H. destruct (disabled s) eqn:DS; [apply (i_up _ _ _ _ R) in U; congruence|]. destruct (recv k act _) as [p|] eqn:RC; [|discriminate]. injection H as <-. destruct (recv_out _ _ _ _ RC) as (es & O & _). cbn [w_rx out rx_ts] in O. exists (es ++ [ERet (if snd p then 1 else 0)]). cbn [emit out]. rewrite O, <- app_assoc. reflexivity.
Qed.
(** the jitter buffer *)
Theorem C67_jitter k s a v s' : exec k s (CJitter a v) = Ok s' -> out s' = out s ++ (if a : bool then [EAdaptive (negb (v =? 0))] else []) ++ [EBuffer (negb (v =? 0)) v; ERet (if v =? 0 then 0 else 1)].
Proof. intros H. unfold exec in H. destruct (freed s); [discriminate|]. injection H as <-. unfold set_param, ret. destruct a; cbn [fst snd emit w_jit out adaptive buffer app]; rewrite <- ?app_assoc; cbn [app]; repeat f_equal; destruct (v =? 0); reflexivity. Qed.
(** binding asks for the port and the next one for RTCP, or for any two *)
Theorem C67_bind k s port s' : exec k s (CBind port) = Ok s' -> exists rc, out s' = out s ++ [ELocal port (if port =? -1 then -1 else port + 1) rc; ERet (Z.min rc 0)].
Proof. intros H. unfold exec in H. destruct (freed s); [discriminate|]. injection H as <-. exists (k_local k (tick s)). unfold bind, ret. cbn [fst snd emit next out]. rewrite <- app_assoc. cbn [app]. do 4 f_equal. destruct (Z.ltb_spec (k_local k (tick s)) 0); lia. Qed.
(** freeing takes the descriptors out of the select loop *)
Theorem C67_free k t0 pl vs s s' : run k (st_init pl t0) vs = Ok s -> exec k s CFree = Ok s' -> member false false (out s') = Some false /\ member true false (out s') = Some false /\ exists a, out s' = a ++ [EDestroy].
Proof.
  intros R H. apply reach in R. pose proof (exec_inv _ _ _ _ _ _ R H) as I. unfold exec in H. destruct (freed s) eqn:NF; [discriminate|]. injection H as H. assert (F : freed s' = true) by (rewrite <- H; easy). pose proof (i_gone _ _ _ _ I F) as G. rewrite (i_rtp _ _ _ _ I), (i_rtcp _ _ _ _ I), <- (i_both _ _ _ _ I), G. split; [easy|]. split; [easy|]. rewrite <- H. unfold free. cbn [emit out]. eauto.
Qed.

(** ** what may go wrong *)
Lemma exec_bad k t0 pl s c r : Inv k t0 pl s -> exec k s c = Bad r -> r = UseAfterFree /\ freed s = true \/ r = Twice /\ pl = false /\ r_reg s = true /\ connects c = true.
Proof.
  intros I H. unfold exec in H. destruct (freed s) eqn:NF; [injection H as <-; now left|]. right.
  assert (FD : forall s1, r_reg s1 = r_reg s -> c_reg s1 = c_reg s -> fdreg k s1 = Bad r -> r = Twice /\ r_reg s = true).
  { intros s1 R1 C1 E. unfold fdreg in E. cbn [w_read r_reg tick] in E. rewrite R1 in E. destruct (r_reg s) eqn:RR; [now injection E as <-|]. destruct (k_reg k (tick s1)); cbn [negb] in E; [|discriminate]. cbn [emit next w_reg w_read c_reg tick] in E. rewrite C1, <- (i_both _ _ _ _ I), RR in E. destruct (k_reg k _); discriminate. }
  destruct c as [port|port| |d|m d mk|a v|t|b|]; try discriminate.
  - destruct (connect k port s) as [p|q] eqn:E; [discriminate|]. injection H as <-. cbn [connects]. unfold connect in E. destruct (port =? 0); [discriminate|]. destruct (_ <? 0); [discriminate|]. match type of E with (if ?b then _ else _) = _ => destruct b eqn:P end; [discriminate|]. cbn in P. rewrite (i_poll _ _ _ _ I) in P. apply FD in E; [|easy|easy]. easy.
  - destruct (autoconnect k s) as [p|q] eqn:E; [discriminate|]. injection H as <-. unfold autoconnect in E. match type of E with (if ?b then _ else _) = _ => destruct b eqn:P end; [discriminate|]. cbn in P. rewrite (i_poll _ _ _ _ I) in P. apply FD in E; [|easy|easy]. easy.
Qed.
Definition cnt (cs : list cmd) : nat := length (filter connects cs).
Lemma cnt_app a b : cnt (a ++ b) = (cnt a + cnt b)%nat. Proof. unfold cnt. now rewrite filter_app, app_length. Qed.
(** before: the commands done so far *)
Definition Past (past : list cmd) (s : st) : Prop := (r_reg s = true -> (1 <= cnt past)%nat) /\ (freed s = true -> In CFree past).
Lemma past_more a b s : Past a s -> Past (a ++ b) s.
Proof. intros [A B]. split; [intros X; rewrite cnt_app; specialize (A X); lia|intros X; apply in_or_app; left; auto]. Qed.
Lemma exec_reg k s c s' : exec k s c = Ok s' -> (r_reg s' = true -> r_reg s = true \/ connects c = true) /\ (freed s' = true -> c = CFree).
Proof.
  intros H. unfold exec in H. destruct (freed s) eqn:NF; [discriminate|].
  assert (FD : forall s1 p, freed s1 = false -> fdreg k s1 = Ok p -> freed (fst p) = false).
  { intros s1 p F E. unfold fdreg in E. cbn [w_read r_reg tick] in E. destruct (r_reg s1); [discriminate|]. destruct (k_reg k (tick s1)); cbn [negb] in E; [|now injection E as <-]. cbn [emit next w_reg w_read c_reg tick] in E. destruct (c_reg s1); [discriminate|]. destruct (k_reg k _); cbn [negb] in E; now injection E as <-. }
  destruct c as [port|port| |d|m d mk|a v|t|b|]; cbn [connects].
  - injection H as <-. split; [now left|]. cbn. congruence.
  - destruct (connect k port s) as [p|] eqn:E; [|discriminate]. injection H as <-. unfold connect in E. destruct (port =? 0) eqn:P0; [injection E as <-; cbn; split; [now left|congruence]|]. split; [now right|]. destruct (_ <? 0); [injection E as <-; cbn; congruence|]. match type of E with (if ?b then _ else _) = _ => destruct b end; [injection E as <-; cbn; congruence|]. apply FD in E; [cbn; congruence|easy].
  - destruct (autoconnect k s) as [p|] eqn:E; [|discriminate]. injection H as <-. split; [now right|]. unfold autoconnect in E. match type of E with (if ?b then _ else _) = _ => destruct b end; [injection E as <-; cbn; congruence|]. apply FD in E; [cbn; congruence|easy].
  - injection H as <-. unfold skipped. destruct (disabled s); cbn; (split; [now left|congruence]).
  - injection H as <-. unfold send. destruct (disabled s); [cbn; split; [now left|congruence]|]. destruct (k_make k (tick s)); cbn; (split; [now left|congruence]).
  - injection H as <-. unfold set_param. destruct a; cbn; (split; [now left|congruence]).
  - injection H as <-. cbn. split; [now left|congruence].
  - injection H as <-. cbn. split; [now left|congruence].
  - injection H as <-. split; [|easy]. unfold free. cbn [emit w_freed r_reg]. destruct (r_reg s) eqn:RR; [now left|]. destruct (c_reg s); cbn [emit w_reg r_reg]; rewrite ?RR; now left.
Qed.
Lemma exec_past k past s c s' : Past past s -> exec k s c = Ok s' -> Past (past ++ [c]) s'.
Proof.
  intros [A B] H. destruct (exec_reg _ _ _ _ H) as [X Y]. split.
  - intros R. rewrite cnt_app. destruct (X R) as [X1|X1]; [specialize (A X1); lia|]. unfold cnt at 2. cbn. rewrite X1. cbn. lia.
  - intros F. apply in_or_app. right. left. now apply Y.
Qed.
Lemma execs_past k cs : forall past s s', Past past s -> execs k cs s = Ok s' -> Past (past ++ cs) s'.
Proof. induction cs as [|c r IH]; intros past s s' P H; cbn [execs] in H; [injection H as <-; now rewrite app_nil_r|]. destruct (exec k s c) as [s1|] eqn:E; [|discriminate]. replace (past ++ c :: r) with ((past ++ [c]) ++ r) by now rewrite <- app_assoc. apply (IH _ s1 s'); [|easy]. now apply (exec_past k past s c). Qed.
Lemma execs_bad k t0 pl cs : forall past s r, Inv k t0 pl s -> Past past s -> execs k cs s = Bad r -> r = UseAfterFree /\ (exists a b, past ++ cs = a ++ CFree :: b /\ b <> []) \/ r = Twice /\ pl = false /\ (2 <= cnt (past ++ cs))%nat.
Proof.
  induction cs as [|c cs IH]; intros past s r I P H; cbn [execs] in H; [discriminate|]. destruct (exec k s c) as [s1|q] eqn:E.
  - replace (past ++ c :: cs) with ((past ++ [c]) ++ cs) by now rewrite <- app_assoc. apply (IH _ s1 r); [now apply (exec_inv k t0 pl s c)|now apply (exec_past k past s c)|easy].
  - injection H as <-. destruct (exec_bad _ _ _ _ _ _ I E) as [[-> F]|(-> & PL & RR & C)].
    + left. split; [easy|]. apply (proj2 P) in F. apply in_split in F. destruct F as (a & b & ->). exists a, (b ++ c :: cs). split; [now rewrite <- app_assoc|now destruct b].
    + right. split; [easy|]. split; [easy|]. rewrite cnt_app. pose proof (proj1 P RR). unfold cnt at 2. cbn. rewrite C. cbn. lia.
Qed.
Lemma recv_past k past act s p : Past past s -> recv k act s = Ok p -> Past (past ++ act) (fst p).
Proof.
  intros P H. unfold recv in H. destruct (k_recv _ _ _) as [q|]; [|injection H as <-; now apply past_more]. match type of H with context [if ?c then _ else _] => destruct c eqn:CB end; [|injection H as <-; now apply past_more]. destruct (execs k act _) as [s2|] eqn:EX; [|discriminate]. injection H as <-. eapply execs_past; [|exact EX]. exact P.
Qed.
Lemma ask_rx_inv k t0 pl s q : Inv k t0 pl s -> freed s = false -> disabled s = false -> k_recv k (tick s) (rx_ts s) = Some q -> p_data q <> [] -> Inv k t0 pl (emit (emit (next s) (EAsk (rx_ts s))) (ERx q)).
Proof.
  intros I NF DS K NE. pose proof (ask_inv k t0 pl s I NF DS) as I1. destruct I as [A B C D E F G H I J]. destruct I1 as [A1 B1 C1 D1 E1 F1 G1 H1 I1 J1]. constructor; cbn [emit next poll tx_ts out disabled r_reg c_reg r_read freed]; auto.
  - rewrite !elapsed_app, B. cbn. f_equal. lia.
  - apply hist_snoc; [easy|]. split; [intros _; apply in_snoc; left; now apply D|]. split; [intros _ X; apply in_snoc in X; destruct X as [X|X]; [apply I in X; congruence|discriminate]|].
    exists (out s), (rx_ts s), (tick s). easy.
  - rewrite !in_snoc. intuition (try discriminate).
  - rewrite !member_app, E. easy.
  - rewrite !member_app, F. easy.
  - rewrite !in_snoc, I. intuition (try discriminate).
Qed.
Lemma recv_bad k t0 pl past act s r : Inv k t0 pl s -> freed s = false -> disabled s = false -> Past past s -> recv k act s = Bad r -> r = UseAfterFree /\ (exists a b, past ++ act = a ++ CFree :: b /\ b <> []) \/ r = Twice /\ pl = false /\ (2 <= cnt (past ++ act))%nat.
Proof.
  intros I NF DS P H. unfold recv in H. destruct (k_recv k (tick s) (rx_ts s)) as [q|] eqn:K; [|discriminate]. match type of H with context [if ?c then _ else _] => destruct c eqn:CB end; [|discriminate]. apply andb_prop in CB. destruct CB as [_ NE]. destruct (execs k act _) as [s2|r'] eqn:EX; [discriminate|]. injection H as <-. pose proof (P : Past past (emit (emit (next s) (EAsk (rx_ts s))) (ERx q))) as P0. eapply (execs_bad k t0 pl act past); [|exact P0|exact EX]. apply ask_rx_inv; [easy|easy|easy|easy|]. intros X. rewrite X in NE. discriminate.
Qed.
Lemma step_past k past s v s' : Past past s -> step k s v = Ok s' -> Past (past ++ cmds v) s'.
Proof.
  intros P H. destruct v as [cs|act|act|]; cbn [step cmds] in *.
  - now apply (execs_past k cs past s).
  - unfold poll_socket in H. destruct (freed s); [discriminate|]. destruct (disabled s); [injection H as <-; now apply past_more|]. destruct (recv k act s) as [p|] eqn:R; [|discriminate]. injection H as <-. apply (recv_past k past act s p P R).
  - destruct (r_reg s && r_read s); [|injection H as <-; now apply past_more]. unfold fd_cb in H. destruct (poll s); [injection H as <-; now apply past_more|]. destruct (recv k act s) as [p|] eqn:R; [|discriminate]. destruct (freed (fst p)); [discriminate|]. injection H as <-. apply (recv_past k past act s p P R).
  - injection H as <-. rewrite app_nil_r. destruct (c_reg s); exact P.
Qed.
Lemma step_bad k t0 pl past s v r : Inv k t0 pl s -> Past past s -> step k s v = Bad r ->
  r = Twice /\ pl = false /\ (2 <= cnt (past ++ cmds v))%nat \/ r = UseAfterFree /\ (In CFree past \/ (exists a b, past ++ cmds v = a ++ CFree :: b /\ b <> []) \/ (exists act, v = Ready act) /\ pl = false /\ In CFree (cmds v)).
Proof.
  intros I P H. destruct v as [cs|act|act|]; cbn [step cmds] in *.
  - destruct (execs_bad _ _ _ _ _ _ _ I P H) as [[-> X]|X]; [right; auto|now left].
  - unfold poll_socket in H. destruct (freed s) eqn:NF; [injection H as <-; right; split; [easy|left; now apply P]|]. destruct (disabled s) eqn:DS; [discriminate|]. destruct (recv k act s) as [p|r'] eqn:R; [discriminate|]. injection H as <-. destruct (recv_bad _ _ _ _ _ _ _ I NF DS P R) as [[-> X]|X]; [right; auto|now left].
  - destruct (r_reg s && r_read s) eqn:RG; [|discriminate]. apply andb_prop in RG. destruct RG as [RG _]. unfold fd_cb in H. destruct (i_reg _ _ _ _ I RG) as (U & PL & RD). rewrite (i_poll _ _ _ _ I), PL in H.
    assert (NF : freed s = false) by (destruct (freed s) eqn:NF; [|easy]; apply (i_gone _ _ _ _ I) in NF; congruence).
    destruct (recv k act s) as [p|r'] eqn:R.
    + destruct (freed (fst p)) eqn:F2; [|discriminate]. injection H as <-. right. split; [easy|]. apply (recv_past k past act s p P) in R. apply R in F2. apply in_app_or in F2. destruct F2 as [F2|F2]; [now left|]. right. right. split; [eauto|]. easy.
    + injection H as <-. destruct (recv_bad _ _ _ _ _ _ _ I NF U P R) as [[-> X]|X]; [right; auto|now left].
  - discriminate.
Qed.
Lemma run_split k vs : forall s r, run k s vs = Bad r -> exists a v b s1, vs = a ++ v :: b /\ run k s a = Ok s1 /\ step k s1 v = Bad r.
Proof.
  induction vs as [|v vs IH]; intros s r H; cbn [run] in H; [discriminate|]. destruct (step k s v) as [s1|r'] eqn:E.
  - destruct (IH s1 r H) as (a & w & b & s2 & -> & R & B). exists (v :: a), w, b, s2. split; [easy|]. split; [cbn [run]; now rewrite E|easy].
  - injection H as <-. now exists [], v, vs, s.
Qed.
Lemma run_past k vs : forall past s s', Past past s -> run k s vs = Ok s' -> Past (past ++ flat_map cmds vs) s'.
Proof. induction vs as [|v r IH]; intros past s s' P H; cbn [run flat_map] in *; [injection H as <-; now rewrite app_nil_r|]. destruct (step k s v) as [s1|] eqn:E; [|discriminate]. rewrite app_assoc. apply (IH _ s1 s'); [|easy]. now apply (step_past k past s v). Qed.
Lemma past_init pl t0 : Past [] (st_init pl t0). Proof. split; discriminate. Qed.
(** a socket connected once at most, or polled, is never put in the select loop twice *)
Theorem C67_once k t0 pl vs : run k (st_init pl t0) vs = Bad Twice -> pl = false /\ (2 <= length (filter connects (flat_map cmds vs)))%nat.
Proof.
  intros H. destruct (run_split _ _ _ _ H) as (a & v & b & s1 & -> & R & B). pose proof (run_past _ _ _ _ _ (past_init pl t0) R) as P. cbn [app] in P. destruct (step_bad _ t0 pl _ _ _ _ (reach _ _ _ _ _ R) P B) as [(_ & PL & N)|[X _]]; [|discriminate]. split; [easy|]. rewrite flat_map_app. cbn [flat_map]. rewrite app_assoc. fold (cnt ((flat_map cmds a ++ cmds v) ++ flat_map cmds b)). rewrite cnt_app. unfold cnt in *. lia.
Qed.
(** the socket is used after it was freed only if the application freed it and went on, or freed
    it in its receive callback in select mode *)
Theorem C67_uaf k t0 pl vs : run k (st_init pl t0) vs = Bad UseAfterFree ->
  exists a v b, vs = a ++ v :: b /\ (In CFree (flat_map cmds a) \/ (exists x y, cmds v = x ++ CFree :: y /\ y <> []) \/ pl = false /\ (exists act, v = Ready act /\ In CFree act)).
Proof.
  intros H. destruct (run_split _ _ _ _ H) as (a & v & b & s1 & E & R & B). exists a, v, b. split; [easy|]. pose proof (run_past _ _ _ _ _ (past_init pl t0) R) as P. cbn [app] in P. destruct (step_bad _ t0 pl _ _ _ _ (reach _ _ _ _ _ R) P B) as [[X _]|[_ [X|[(x & y & X & Y)|[[act ->] X]]]]]; [discriminate|now left| |right; right; split; [apply X|exists act; split; [easy|apply X]]].
  destruct (in_dec (fun c d : cmd => ltac:(repeat decide equality) : {c = d} + {c <> d}) CFree (flat_map cmds a)) as [F|F]; [now left|]. right. left. revert X F. generalize (flat_map cmds a). intros l X F.
  revert x X. induction l as [|c l IH]; intros x X; [now exists x, y|]. cbn [app] in X. destruct x as [|c' x]; cbn [app] in X; injection X as -> X; [elim F; now left|]. apply IH with x; [|easy]. intros N. apply F. now right.
Qed.
(** *** not what one would expect *)
Definition kn (q : nat -> Z -> option pkt) (g : nat -> bool) : kern := mkK q (fun _ => true) (fun _ => 0) (fun _ => 0) (fun _ => 0) g.
Definition hello : pkt := mkP [1; 2; 3] 7 160 false.
Lemma connect_first k p s : (p =? 0) = false -> (forall n, (k_remote k n <? 0) = false) -> (forall n, k_reg k n = true) -> r_reg s = false -> c_reg s = false -> poll s = false -> freed s = false ->
  exists s', exec k s (CConnect p) = Ok s' /\ r_reg s' = true /\ freed s' = false /\ poll s' = false.
Proof.
  intros P L KG R C PL F. unfold exec. rewrite F. unfold connect. rewrite P. cbv zeta. rewrite L. cbn [poll emit w_up next]. rewrite PL. unfold fdreg. cbv zeta. cbn [w_read emit w_up next r_reg tick]. rewrite R, KG. cbn [negb w_reg c_reg emit next tick w_read w_up]. rewrite C, KG. cbn [negb]. eexists. split; [reflexivity|]. easy.
Qed.
Lemma connect_again k p s : (p =? 0) = false -> (forall n, (k_remote k n <? 0) = false) -> r_reg s = true -> poll s = false -> freed s = false -> exec k s (CConnect p) = Bad Twice.
Proof. intros P L R PL F. unfold exec. rewrite F. unfold connect. rewrite P. cbv zeta. rewrite L. cbn [poll emit w_up next]. rewrite PL. unfold fdreg. cbv zeta. cbn [w_read emit w_up next r_reg]. rewrite R. reflexivity. Qed.
(** connecting a second time to change the remote address puts the descriptors in the select loop
    twice *)
Theorem C67_reconnect_refuted k t0 p p' : p <> 0 -> p' <> 0 -> (forall n, 0 <= k_remote k n) -> (forall n, k_reg k n = true) -> run k (st_init false t0) [App [CConnect p; CConnect p']] = Bad Twice.
Proof.
  intros P P' KR KG. apply Z.eqb_neq in P, P'. pose proof (fun n => proj2 (Z.ltb_ge _ 0) (KR n)) as L.
  destruct (connect_first k p (st_init false t0) P L KG eq_refl eq_refl eq_refl eq_refl) as (s & A & R & F & PL). cbn [run step execs]. rewrite A. now rewrite (connect_again k p' s P' L R PL F).
Qed.
(** freeing the socket in the receive callback is fine when polling, not in select mode *)
Theorem C67_free_in_callback_refuted : run (kn (fun _ _ => Some hello) (fun _ => true)) (st_init false 1000) [App [CCallback true; CConnect 4000]; Ready [CFree]] = Bad UseAfterFree /\
  exists s, run (kn (fun _ _ => Some hello) (fun _ => true)) (st_init true 1000) [App [CCallback true; CConnect 4000]; Poll [CFree]] = Ok s.
Proof. split; [vm_compute; reflexivity|]. eexists. vm_compute. reflexivity. Qed.
(** port 0 is refused but the call returns 0 and the socket stays silent *)
Theorem C67_port0_refuted k s : freed s = false -> exec k s (CConnect 0) = Ok (emit s (ERet 0)).
Proof. intros F. unfold exec. now rewrite F. Qed.
(** when a descriptor cannot be put in the select loop the call fails, but packets are sent
    from then on *)
Theorem C67_failed_refuted : exists s, run (kn (fun _ _ => None) (fun _ => false)) (st_init false 1000) [App [CConnect 4000; CSend [9] 160 false]] = Ok s /\ In (ERet (-1)) (out s) /\ exists ts, In (ESent ts false [9] 160 0) (out s).
Proof. eexists. split; [vm_compute; reflexivity|]. cbn. split; [tauto|]. exists 1000. tauto. Qed.
(** a packet received while no callback is set is lost, yet polling reports it *)
Theorem C67_lost_refuted : exists s, run (kn (fun _ _ => Some hello) (fun _ => true)) (st_init true 1000) [App [CConnect 4000]; Poll []] = Ok s /\ In (ERet 1) (out s) /\ received (out s) = [].
Proof. eexists. split; [vm_compute; reflexivity|]. cbn. split; [tauto|reflexivity]. Qed.
(** a conversation: hypotheses are met *)
Example C67_met : exists s, run (kn (fun n _ => if Nat.eqb n 5 then Some hello else None) (fun _ => true)) (st_init false 1000) [App [CBind 4000; CCallback true; CConnect 5000; CSkip 160]; Ready []; Ready [CSend [9] 160 true]; App [CSend [8] 160 false; CFree]] = Ok s /\
  received (out s) = [hello] /\ In (ESent 1160 true [9] 160 0) (out s) /\ In (ESent 1320 false [8] 160 0) (out s) /\ In (EAsk 160) (out s) /\ member false false (out s) = Some false.
Proof. eexists. split; [vm_compute; reflexivity|]. cbn. tauto. Qed.
