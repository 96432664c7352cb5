(** Proofs for C56: what the links of a BTS were given is what they handed to their streams, over
    every history. *)
From Coq Require Import List Arith Lia Bool ZArith.
From Verif Require Import Base ProxyProofs IpaccessModel IpaccessProofs IpaccessBtsModel IpaccessBtsSpec IpaccessBtsProofs IpaccessBtsProps.
Import ListNotations.
Open Scope Z_scope.

(** what link [i] was given; what became of it, each as it was handed over *)
Definition queued (i : nat) (es : list beff) : list (list Z) := flat_map (fun e => match e with BQueue j m => if Nat.eqb j i then [m] else [] | _ => [] end) es.
Definition moved (i : nat) (es : list beff) : list (bool * list Z) :=
  flat_map (fun e => match e with BSend j _ b => if Nat.eqb j i then [(true, b)] else [] | BDrop j b => if Nat.eqb j i then [(false, b)] else [] | _ => [] end) es.
Definition wireb (k : lk) (m : list Z) : bool * list Z := if known_type (l_type k) then (true, ipa_header (l_tei k) (Z.of_nat (length m)) ++ m) else (false, m).
Definition quiet (e : beff) : bool := match e with BQueue _ _ | BSend _ _ _ | BDrop _ _ => false | _ => true end.
Record O (s : bst) : Prop := {
  o_q : forall k, In k (lks s) -> l_tx k = [];
  o_nd : NoDup (map l_id (lks s));
  o_lt : forall k, In k (lks s) -> (l_id k < nxt s)%nat;
  o_ln : forall k, In k (lks s) -> l_line k = 0%nat;
  o_same : forall k, In k (lks s) -> map (wireb k) (queued (l_id k) (out s)) = moved (l_id k) (out s);
  o_new : forall i, (nxt s <= i)%nat -> queued i (out s) = [] /\ moved i (out s) = []
}.
Definition pres (s s' : bst) : Prop := O s -> O s'.
Lemma p_refl s : pres s s. Proof. now intro. Qed.
Lemma p_trans a b c : pres a b -> pres b c -> pres a c. Proof. unfold pres. auto. Qed.
Lemma q_app i a b : queued i (a ++ b) = queued i a ++ queued i b. Proof. apply flat_map_app. Qed.
Lemma m_app i a b : moved i (a ++ b) = moved i a ++ moved i b. Proof. apply flat_map_app. Qed.
Lemma quiet_q i e : quiet e = true -> queued i [e] = [] /\ moved i [e] = []. Proof. now destruct e. Qed.
Lemma p_emit s s' e : quiet e = true -> out s' = out s ++ [e] -> (nxt s <= nxt s')%nat -> lks s' = lks s -> pres s s'.
Proof.
  intros Q E N L G. destruct (fun i => quiet_q i e Q : queued i [e] = [] /\ moved i [e] = []) with (i := 0%nat) as [_ _].
  assert (X : forall i, queued i (out s') = queued i (out s)) by (intros i; rewrite E, q_app; destruct (quiet_q i e Q) as [-> _]; now rewrite app_nil_r).
  assert (Y : forall i, moved i (out s') = moved i (out s)) by (intros i; rewrite E, m_app; destruct (quiet_q i e Q) as [_ ->]; now rewrite app_nil_r).
  constructor; rewrite ?L; try apply G.
  - intros k I. pose proof (o_lt s G k I). lia.
  - intros k I. rewrite X, Y. now apply G.
  - intros i LE. rewrite X, Y. apply (o_new s G). lia.
Qed.
Lemma p_same s s' : out s' = out s -> (nxt s <= nxt s')%nat -> lks s' = lks s -> pres s s'.
Proof.
  intros E N L G. constructor; rewrite ?L, ?E; try apply G.
  - intros k I. pose proof (o_lt s G k I). lia.
  - intros i LE. apply (o_new s G). lia.
Qed.
Lemma NoDup_snoc1 (l : list nat) a : NoDup l -> ~ In a l -> NoDup (l ++ [a]).
Proof. induction l as [|b l IH]; intros N M; [repeat constructor; easy|]. apply NoDup_cons_iff in N as [N1 N2]. cbn [app]. constructor; [|apply IH; [easy|intros I; apply M; now right]]. intros I. apply in_app_or in I as [I|[<-|[]]]; [easy|]. apply M. now left. Qed.
Ltac gs_ := apply p_same; [reflexivity|cbn; lia|reflexivity].
Lemma p_filter s f : pres s (set_lks s (filter f (lks s))).
Proof.
  intros G. constructor; cbn [lks set_lks out nxt]; try (intros k I; apply filter_In in I as [I _]; now apply G); try apply G.
  pose proof (o_nd s G) as N. clear - N. induction (lks s) as [|k r IH]; [constructor|]. cbn [filter map] in *. apply NoDup_cons_iff in N as [N1 N2]. destruct (f k); [|auto]. cbn [map]. constructor; [|auto].
  intros I. apply N1. apply in_map_iff in I as (y & E & I). apply filter_In in I as [I _]. rewrite <- E. now apply in_map.
Qed.
Definition pf (f : bst -> res bst) : Prop := forall s s', f s = Ok s' -> pres s s'.
Ltac ok H := injection H as <-.

Lemma g_clean s t s' : ka_cleanup s t = Ok s' -> pres s s'.
Proof.
  unfold ka_cleanup. cbv zeta. destruct (b_ka _) as [k|]; [|intros H; ok H; apply p_refl]. destruct (kas s k); [|discriminate]. intros H. ok H. (apply (p_emit _ _ (BKaTerm k)); [reflexivity|reflexivity|cbn; lia|reflexivity]).
Qed.
Lemma g_alloc s t c s' : ka_alloc s t c = Ok s' -> pres s s'.
Proof. unfold ka_alloc. cbv zeta. destruct (b_ka _); [discriminate|]. destruct (kap s); intros H; ok H; gs_. Qed.
Lemma g_down f s t s' : pf f -> down_cb f s t = Ok s' -> pres s s'.
Proof.
  intros F. unfold down_cb. destruct (ka_cleanup s t) as [s1|] eqn:Q; [|discriminate]. apply g_clean in Q. intros H. apply F in H. apply (p_trans _ s1); [easy|].
  eapply p_trans; [|exact H]. (apply (p_emit _ _ (BDown t)); [reflexivity|reflexivity|cbn; lia|reflexivity]).
Qed.
Lemma g_close f s c s' : pf f -> cli_close f s c = Ok s' -> pres s s'.
Proof.
  intros F. unfold cli_close. destruct (find_cli s c) as [x|]; [|discriminate]. destruct (c_open x); [|intros H; ok H; apply p_refl]. intros H. apply (g_down _ _ _ _ F) in H.
  eapply p_trans; [|exact H]. (apply (p_emit _ _ (BClose c)); [reflexivity|reflexivity|cbn; lia|reflexivity]).
Qed.
Lemma g_free s c : pres s (cli_free s c).
Proof. unfold cli_free. destruct (find_cli s c); [|apply p_refl]. (apply (p_emit _ _ (BFree c)); [reflexivity|reflexivity|cbn; lia|reflexivity]). Qed.
Lemma g_destroy f s c s' : pf f -> cli_destroy f s c = Ok s' -> pres s s'.
Proof. intros F. unfold cli_destroy. destruct (cli_close f s c) as [s1|] eqn:Q; [|discriminate]. apply (g_close _ _ _ _ F) in Q. intros H. ok H. apply (p_trans _ s1); [easy|]. apply g_free. Qed.
Lemma g_drop f s t s' : pf f -> rsl_drop f s t = Ok s' -> pres s s'.
Proof.
  intros F. unfold rsl_drop. destruct (negb (il s)); [intros H; ok H; apply p_refl|]. destruct (ka_cleanup s t) as [s1|] eqn:Q; [|discriminate]. apply g_clean in Q. cbv zeta.
  destruct (tab _ t) as [c|].
  - destruct (cli_destroy f _ c) as [s2|] eqn:D; [|discriminate]. apply (g_destroy _ _ _ _ F) in D. intros H. ok H. apply (p_trans _ s1); [easy|]. apply (p_trans _ s2); [|gs_].
    eapply p_trans; [|exact D]. gs_.
  - intros H. ok H. apply (p_trans _ s1); [easy|]. gs_.
Qed.
Lemma g_close_n f s trx s' : pf f -> rsl_close_n f s trx = Ok s' -> pres s s'.
Proof.
  intros F. unfold rsl_close_n. destruct (in_range trx); [|intros H; ok H; (apply (p_emit _ _ (BRet (-22))); [reflexivity|reflexivity|cbn; lia|reflexivity])]. destruct (rsl_drop f s (1 + trx)) as [s1|] eqn:Q; [|discriminate].
  apply (g_drop _ _ _ _ F) in Q. intros H. ok H. apply (p_trans _ s1); [easy|]. (apply (p_emit _ _ (BRet 0)); [reflexivity|reflexivity|cbn; lia|reflexivity]).
Qed.
Lemma g_start s t a p i s' : cli_start s t a p i = Ok s' -> pres s s'.
Proof.
  unfold cli_start. destruct i; [|intros H; ok H; (apply (p_emit _ _ (BRet (-5))); [reflexivity|reflexivity|cbn; lia|reflexivity])]. cbv zeta.
  destruct (ka_alloc _ t (nxt s)) as [s1|] eqn:Q; [|discriminate]. apply g_alloc in Q. intros H. ok H. apply (p_trans _ s1); [|(apply (p_emit _ _ (BRet 0)); [reflexivity|reflexivity|cbn; lia|reflexivity])].
  eapply p_trans; [|exact Q]. (apply (p_emit _ _ (BConnect (nxt s) t a p)); [reflexivity|reflexivity|cbn; lia|reflexivity]).
Qed.
Lemma g_connect f s trx a p i s' : pf f -> rsl_connect_n f s trx a p i = Ok s' -> pres s s'.
Proof.
  intros F. unfold rsl_connect_n. destruct (in_range trx).
  - destruct (rsl_ts trx) as [t|]; [|discriminate]. destruct (rsl_drop f s t) as [s1|] eqn:Q; [|discriminate]. apply (g_drop _ _ _ _ F) in Q. cbv zeta. intros H. apply g_start in H.
    apply (p_trans _ s1); [easy|]. eapply p_trans; [|exact H]. gs_.
  - destruct (rsl_ts trx); [intros H; ok H; (apply (p_emit _ _ (BRet (-22))); [reflexivity|reflexivity|cbn; lia|reflexivity])|]. destruct (logs s); [discriminate|]. intros H; ok H; (apply (p_emit _ _ (BRet (-22))); [reflexivity|reflexivity|cbn; lia|reflexivity]).
Qed.
Lemma g_update f s a i s' : pf f -> line_update f s a i = Ok s' -> pres s s'.
Proof.
  intros F. unfold line_update. cbv zeta. destruct (tab (set_il s) oml_ts) as [c|].
  - destruct (cli_close f (set_il s) c) as [s1|] eqn:A; [|discriminate]. apply (g_close _ _ _ _ F) in A. destruct (ka_cleanup s1 oml_ts) as [s2|] eqn:B; [|discriminate]. apply g_clean in B.
    destruct (tab _ oml_ts) as [c'|]; [|discriminate]. destruct (cli_destroy f _ c') as [s3|] eqn:D; [|discriminate]. apply (g_destroy _ _ _ _ F) in D. intros H. apply g_start in H.
    apply (p_trans _ (set_il s)); [gs_|]. apply (p_trans _ s1); [easy|]. apply (p_trans _ s2); [easy|]. apply (p_trans _ s3); [eapply p_trans; [|exact D]; gs_|].
    eapply p_trans; [|exact H]. gs_.
  - intros H. apply g_start in H. eapply p_trans; [|exact H]. gs_.
Qed.
Lemma g_ipclose f s t s' : pf f -> ipaccess_close f s t = Ok s' -> pres s s'.
Proof.
  intros F. unfold ipaccess_close. match goal with |- match ?z with _ => _ end = _ -> _ => destruct z as [s1|] eqn:Q end; [|discriminate].
  assert (G : pres s s1).
  { destruct (b_ka _) as [k|]; [destruct (kas s k); [|discriminate Q]; ok Q; (apply (p_emit _ _ (BKaStop k)); [reflexivity|reflexivity|cbn; lia|reflexivity])|ok Q; apply p_refl]. }
  destruct (stream_cli s1 t) as [c|]; [|discriminate]. destruct (cli_close f s1 c) as [s2|] eqn:D; [|discriminate]. apply (g_close _ _ _ _ F) in D. intros H. ok H.
  apply (p_trans _ s1); [easy|]. apply (p_trans _ s2); [easy|]. gs_.
Qed.
Lemma g_unlink f s id s' : pf f -> link_destroy f s id = Ok s' -> pres s s'.
Proof.
  intros F. unfold link_destroy. destruct (find_lk s id); [|intros H; ok H; apply p_refl]. intros H. apply (g_ipclose _ _ _ _ F) in H. eapply p_trans; [|exact H]. apply p_filter.
Qed.
Lemma g_create s t ty tei sapi : pres s (link_create s t ty tei sapi).
Proof.
  unfold link_create. destruct (_ && _); [|apply p_refl]. intros G. constructor; cbn [lks set_lks fresh out nxt].
  - intros k I. apply in_app_or in I as [I|[<-|[]]]; [now apply G|reflexivity].
  - rewrite map_app. cbn [map l_id]. apply NoDup_snoc1; [apply G|]. intros I. apply in_map_iff in I as (k & E & I). pose proof (o_lt s G k I). lia.
  - intros k I. apply in_app_or in I as [I|[<-|[]]]; [pose proof (o_lt s G k I); lia|cbn; lia].
  - intros k I. apply in_app_or in I as [I|[<-|[]]]; [now apply G|reflexivity].
  - intros k I. apply in_app_or in I as [I|[<-|[]]]; [now apply G|]. cbn [l_id]. destruct (o_new s G (nxt s) (le_n _)) as [-> ->]. reflexivity.
  - intros i LE. apply (o_new s G). lia.
Qed.
Lemma g_send s id m s' : link_send s id m = Ok s' -> pres s s'.
Proof.
  unfold link_send. destruct (find_lk s id) as [k|] eqn:F; [|intros H; ok H; apply p_refl]. apply (find_id_some l_id) in F as [I <-]. unfold write_cb, stream_cli. intros H G.
  change (tab (set_lks (emit s (BQueue (l_id k) m)) _)) with (tab s) in H. destruct (tab s (l_ts k)) as [c|] eqn:TB; [|discriminate H].
  change (find_cli (set_lks _ _) c) with (find_cli s c) in H. destruct (find_cli s c); [|discriminate H]. destruct (negb _); [discriminate H|]. cbv zeta in H.
  match type of H with context[write_loop (pending 0 ?t ?L) 0 ?t ?c ?S0] => rewrite (write_all 0 t c S0 : write_loop (pending 0 t L) 0 t c S0 = _) in H end. cbn [IpaccessModel.lks IpaccessModel.out] in H.
  fold (addm m) in H. change (lks (set_lks (emit s (BQueue (l_id k) m)) ?x)) with x in H.
  change (map (fun x0 => if Nat.eqb (l_id x0) (l_id k) then mkL (l_id x0) (l_line x0) (l_ts x0) (l_type x0) (l_tei x0) (l_sapi x0) (l_tx x0 ++ [m]) else x0) (lks s)) with (rep l_id (l_id k) (addm m) (lks s)) in H.
  destruct (addm_one (l_ts k) c (lks s) m k (o_q s G) (o_nd s G) I (o_ln s G k I) eq_refl) as [E1 E2].
  change (out (set_lks (emit s (BQueue (l_id k) m)) ?x)) with (out s ++ [BQueue (l_id k) m]) in H.
  rewrite E1, E2 in H. ok H. constructor; cbn [lks out nxt set_lks emit app flat_map]; try apply G.
  - intros y J. rewrite q_app, m_app, q_app, m_app, map_app, map_app, (o_same s G y J). change (moved (l_id y) [BQueue (l_id k) m]) with (@nil (bool * list Z)). rewrite !app_nil_r, <- app_assoc. f_equal. cbn [map queued moved flat_map app].
    destruct (Nat.eqb_spec (l_id k) (l_id y)) as [E|E].
    + assert (y = k) as -> by (symmetry; eapply (id_inj l_id); [apply (o_nd s G)|exact I|exact J|exact E]). unfold send_msg, wireb. destruct (known_type (l_type k)); cbn; rewrite ?Nat.eqb_refl; reflexivity.
    + unfold send_msg. destruct (known_type (l_type k)); cbn; destruct (Nat.eqb_spec (l_id k) (l_id y)); try contradiction; reflexivity.
  - intros i LE. pose proof (o_lt s G k I). rewrite q_app, m_app, q_app, m_app. destruct (o_new s G i LE) as [-> ->]. cbn [map queued moved flat_map app]. unfold send_msg.
    destruct (Nat.eqb_spec (l_id k) i); [lia|]. destruct (known_type (l_type k)); cbn; destruct (Nat.eqb_spec (l_id k) i); try contradiction; easy.
Qed.
Fixpoint depth (c : ucmd) : nat := match c with UDestroy _ d | UConnect _ _ _ _ d | UClose _ d | UUpdate _ _ d => S (list_sum (map depth d)) | _ => 1 end.
Lemma g_exec_n : forall n c, (depth c <= n)%nat -> pf (exec c).
Proof.
  induction n as [|n IH]; intros c L s s' H; [destruct c; cbn in L; lia|].
  assert (D : forall d, (list_sum (map depth d) <= n)%nat -> pf (execs d)).
  { clear s s' H L. induction d as [|x d IHd]; intros L s s' H; cbn [execs] in H; [ok H; apply p_refl|]. cbn [map] in L. unfold list_sum in L. cbn [fold_right] in L. fold (list_sum (map depth d)) in L.
    destruct (exec x s) as [s1|] eqn:Q; [|discriminate H]. apply (p_trans _ s1); [apply (IH x); [lia|easy]|]. apply IHd; [lia|exact H]. }
  destruct c as [t|t ty tei sapi|k m|k d|trx a p i d|trx d|a i d]; cbn [exec] in H; cbn [depth] in L.
  - ok H. destruct (Nat.ltb _ _); [gs_|apply p_refl].
  - ok H. apply g_create.
  - now apply g_send in H.
  - revert H. apply g_unlink. apply D. lia.
  - revert H. apply g_connect. apply D. lia.
  - revert H. apply g_close_n. apply D. lia.
  - revert H. apply g_update. apply D. lia.
Qed.
Lemma g_execs cs : pf (execs cs).
Proof.
  induction cs as [|c cs IH]; intros s s' H; cbn [execs] in H; [ok H; apply p_refl|]. destruct (exec c s) as [s1|] eqn:Q; [|discriminate H].
  apply (p_trans _ s1); [now apply (g_exec_n (depth c) c)|now apply IH].
Qed.
Lemma g_running f s c s' : pf f -> close_running f s c = Ok s' -> pres s s'.
Proof. intros F. unfold close_running. destruct (find_cli s c); [now apply g_close|]. intros H. ok H. apply p_refl. Qed.
Lemma g_ccm e s x d s' o : handle_ccm e s x d = Ok (s', o) -> pres s s'.
Proof.
  unfold handle_ccm. destruct d as [|mt d]; [discriminate|]. match goal with |- match ?z with _ => _ end = _ -> _ => destruct z as [s1|] eqn:Q end; [|discriminate].
  assert (G : pres s s1).
  { destruct (b_ka _) as [k|]; [|ok Q; apply p_refl]. destruct (mt =? _); [|ok Q; apply p_refl]. destruct (kas s k); [|discriminate Q]. ok Q. (apply (p_emit _ _ (BKaPong k)); [reflexivity|reflexivity|cbn; lia|reflexivity]). }
  destruct (negb _); [intros H; injection H as <- _; easy|]. destruct (mt =? MSGT_ID_GET); [|intros H; injection H as <- _; easy]. cbv zeta.
  destruct (e_id e); intros H; injection H as <- _; apply (p_trans _ s1); try easy; [|gs_].
  eapply p_trans; [(apply (p_emit s1 (emit (set_unit s1 (unit_trx s1)) (BIdResp (c_id x) (ts_trx_nr (ts_num (c_ts x))))) (BIdResp (c_id x) (ts_trx_nr (ts_num (c_ts x))))); [reflexivity|reflexivity|cbn; lia|reflexivity])|].
  (apply (p_emit _ _ (BIdAck (c_id x))); [reflexivity|reflexivity|cbn; lia|reflexivity]).
Qed.
Lemma g_step s v s' : step s v = Ok s' -> pres s s'.
Proof.
  destruct v as [u|c|c d|e c m|k d]; cbn [step]; intros H.
  - now apply (g_exec_n (depth u) u) in H.
  - unfold if_open in H. destruct (find_cli s c) as [x|]; [|ok H; apply p_refl]. destruct (c_open x); [|ok H; apply p_refl]. unfold connect_cb in H.
    destruct (b_ka _) as [k|]; [|ok H; apply p_refl]. destruct (kap s); [|ok H; apply p_refl]. destruct (kas s k); [|discriminate H]. ok H. apply (p_emit _ _ (BKaStart k)); [reflexivity|reflexivity|cbn; lia|reflexivity].
  - unfold if_open in H. destruct (find_cli s c) as [x|]; [|ok H; apply p_refl]. destruct (c_open x); [|ok H; apply p_refl]. now apply (g_close _ _ _ _ (g_execs _)) in H.
  - unfold if_open in H. destruct (find_cli s c) as [x|] eqn:F; [|ok H; apply p_refl]. destruct (c_open x) eqn:O; [|ok H; apply p_refl]. unfold read_cb in H. cbv zeta in H.
    destruct m as [[p d]|]; [|now apply (g_running _ _ _ _ (g_execs _)) in H]. destruct (p =? PROTO_IPACCESS) eqn:P.
    + destruct (handle_ccm e s x d) as [[s1 o]|] eqn:Q; [|discriminate H]. apply g_ccm in Q. apply (p_trans _ s1); [easy|].
      destruct (negb o); [now apply (g_running _ _ _ _ (g_execs _)) in H|]. destruct (_ =? MSGT_ID_GET); [|ok H; apply p_refl].
      destruct (execs (e_up e) _) as [s2|] eqn:U; [|discriminate H]. apply g_execs in U. apply (p_trans _ s2); [eapply p_trans; [|exact U]; eapply p_emit; [|reflexivity|apply le_n|reflexivity]; reflexivity|].
      destruct (e_ret e); [ok H; apply p_refl|now apply (g_running _ _ _ _ (g_execs _)) in H].
    + destruct (negb _); [discriminate H|]. destruct (lookup_link s (c_ts x) p 0) as [k|] eqn:L; [|now apply (g_running _ _ _ _ (g_execs _)) in H].
      apply g_execs in H. eapply p_trans; [|exact H]. apply (p_emit _ _ (BDeliver (l_id k) d)); [reflexivity|reflexivity|apply le_n|reflexivity].
  - unfold ka_timeout in H. destruct (kas s k); [|ok H; apply p_refl]. destruct (find_cli s _) as [x|]; [|discriminate H]. now apply (g_down _ _ _ _ (g_execs _)) in H.
Qed.
Lemma o_init k g trx : O (bst_init k g trx).
Proof. constructor; cbn; try contradiction; [constructor|easy]. Qed.
Lemma g_run vs : forall s s', run s vs = Ok s' -> pres s s'.
Proof.
  induction vs as [|v vs IH]; intros s s' H; cbn [run] in H; [ok H; apply p_refl|]. destruct (step s v) as [s1|] eqn:Q; [|discriminate H]. apply g_step in Q. apply (p_trans _ s1); [easy|]. now apply IH.
Qed.
(** C56: over any history, also one that breaks the rules of C55 without crashing: what a link was
    given is, in order and without exception, what was written for it, each message with the
    header of its TEI *)
Theorem C56_order : forall kap g trx vs s k, run (bst_init kap g trx) vs = Ok s -> In k (lks s) -> In (l_type k) [OML; RSL; OSMO] ->
  map (framed (l_tei k)) (flat_map (fun e => match e with BQueue i m => if Nat.eqb i (l_id k) then [m] else [] | _ => [] end) (out s)) =
  flat_map (fun e => match e with BSend i _ b => if Nat.eqb i (l_id k) then [b] else [] | _ => [] end) (out s) /\
  forall m, ~ In (BDrop (l_id k) m) (out s).
Proof.
  intros kap g trx vs s k R I TY. apply g_run in R. specialize (R (o_init _ _ _)). pose proof (o_same s R k I) as E.
  assert (W : forall m, wireb k m = (true, framed (l_tei k) m)).
  { intros m. unfold wireb. assert (known_type (l_type k) = true) as ->; [|reflexivity]. unfold known_type. cbn in TY. destruct TY as [<-|[<-|[<-|[]]]]; reflexivity. }
  rewrite (map_ext _ _ W) in E. fold (queued (l_id k) (out s)). set (q := queued (l_id k) (out s)) in *. clearbody q. clear - E. revert q E.
  assert (A : forall es q, map (fun m => (true, framed (l_tei k) m)) q = moved (l_id k) es -> map (framed (l_tei k)) q = flat_map (fun e => match e with BSend i _ b => if Nat.eqb i (l_id k) then [b] else [] | _ => [] end) es /\ forall m, ~ In (BDrop (l_id k) m) es).
  { induction es as [|e es IH]; intros q E; [destruct q; [easy|discriminate E]|]. unfold moved in E. cbn [flat_map] in E. fold (moved (l_id k) es) in E.
    destruct e as [c t a b|c|c|t|l m|l c b|l b|l d|t|c t|c|n|n|n|n|z]; cbn [flat_map app] in *; try (destruct (IH q E) as [IE N]; rewrite IE; split; [reflexivity|]; intros m0 [J|J]; [discriminate J|exact (N m0 J)]).
    - destruct (Nat.eqb l (l_id k)).
      + cbn [app] in E. destruct q as [|m q]; [discriminate E|]. cbn [map] in E. pose proof (f_equal (hd (true, [])) E) as E1. pose proof (f_equal (@tl _) E) as E2. cbn [hd tl] in E1, E2. destruct (IH q E2) as [IE N].
        apply (f_equal snd) in E1. cbn [snd] in E1. cbn [map app]. rewrite IE, E1. split; [reflexivity|]. intros m0 [J|J]; [discriminate J|exact (N m0 J)].
      + cbn [app] in *. destruct (IH q E) as [IE N]. rewrite IE. split; [reflexivity|]. intros m0 [J|J]; [discriminate J|exact (N m0 J)].
    - destruct (Nat.eqb l (l_id k)) eqn:Q.
      + cbn [app] in E. destruct q as [|m q]; [discriminate E|]. cbn [map] in E. pose proof (f_equal (hd (true, [])) E) as E1. cbn [hd] in E1. apply (f_equal fst) in E1. discriminate E1.
      + cbn [app] in *. destruct (IH q E) as [IE N]. rewrite IE. split; [reflexivity|]. intros m0 [J|J]; [|exact (N m0 J)]. injection J as -> _. now rewrite Nat.eqb_refl in Q. }
  exact (A (out s)).
Qed.
Example C56_order_example : match run (bst_init true true 0) (ex_run ++ [App (USend 5 [7; 7; 7])]) with
  | Ok s => flat_map (fun e => match e with BSend i _ b => if Nat.eqb i 5 then [b] else [] | _ => [] end) (out s) = [[0; 2; 1; 1; 2]; [0; 3; 1; 7; 7; 7]] | Bad _ => False end.
Proof. now vm_compute. Qed.
