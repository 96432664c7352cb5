(** C43, C55, C56: the BTS side of the ip.access driver: timeslots and TRX numbers, the life
    of the streams, messages. *)
From Coq Require Import List Arith Lia Bool ZArith.
From Verif Require Import Base ProxyProofs IpaccessModel IpaccessProofs IpaccessBtsModel IpaccessBtsSpec IpaccessBtsProofs.
Import ListNotations.
Open Scope Z_scope.

(** states reached by an application that opens no streams inside sign_link_down *)
Definition reach (s : bst) : Prop := exists k g trx vs, forallb orderly_ev vs = true /\ run (bst_init k g trx) vs = Ok s.
Lemma reach_inv s : reach s -> Inv true s.
Proof. intros (k & g & trx & vs & A & R). pose proof (run_ok true vs (fun _ => A) _ (init_ok true k g trx)) as G. rewrite R in G. apply G. Qed.
Lemma run_app a : forall s b, run s (a ++ b) = try s <- run s a; run s b.
Proof. induction a as [|v a IH]; intros s b; [easy|]. cbn [app run]. destruct (step s v); [apply IH|easy]. Qed.
Lemma reach_step s v s' : reach s -> orderly_ev v = true -> step s v = Ok s' -> reach s'.
Proof.
  intros (k & g & trx & vs & A & R) O S. exists k, g, trx, (vs ++ [v]). split; [rewrite forallb_app, A; cbn; now rewrite O|].
  rewrite run_app, R. cbn [run]. now rewrite S.
Qed.

(** ** C55: the life of the streams *)
(** no history whatsoever, orderly or not, uses a freed stream or keepalive machine or the
    link list of an unconfigured timeslot *)
Theorem C55_no_dangling : forall k g trx vs r, run (bst_init k g trx) vs = Bad r -> r <> Freed /\ r <> NoList.
Proof.
  intros k g trx vs r R. pose proof (run_ok false vs (fun E => match Bool.diff_false_true E with end) _ (init_ok false k g trx)) as G. rewrite R in G. destruct G as (? & ? & _). easy.
Qed.
Lemma step_u nb s v : (nb = true -> no_big_ev v = true) -> match step s v with Ok _ => True | Bad r => (nb = true -> r <> NullTs) /\ (typed v = true -> r <> EmptyCcm) end.
Proof.
  intros A. assert (U : forall r, ub nb r -> match r with Ok _ => True | Bad r => (nb = true -> r <> NullTs) /\ (typed v = true -> r <> EmptyCcm) end).
  { intros [?|r]; [easy|]. intros [? ?]. auto. }
  destruct v as [c|c|c d|e c m|k d]; cbn [no_big_ev] in A.
  - apply U. apply (exec_u_n (usize c)); auto.
  - apply U. cbn [step]. unfold if_open, connect_cb. repeat uu.
  - apply U. cbn [step]. unfold if_open. do 2 (uu; [|uu]). apply close_u. now apply execs_u.
  - cbn [step]. unfold if_open. destruct (find_cli s c) as [x|]; [|easy]. destruct (c_open x); [|easy].
    assert (A' : nb = true -> forallb no_big (e_up e) = true /\ forallb no_big (e_act e) = true /\ forallb no_big (e_down e) = true).
    { intros P. specialize (A P). apply andb_true_iff in A as [A A3]. apply andb_true_iff in A as [A1 A2]. auto. }
    assert (ER : forall s1, ub nb (close_running (execs (e_down e)) s1 (c_id x))).
    { intros s1. unfold close_running. uu; [|uu]. apply close_u, execs_u. intros P. now apply A'. }
    unfold read_cb. destruct m as [[proto d]|]; [|apply U, ER]. change PROTO_IPACCESS with 0xfe. destruct (Z.eqb_spec proto 0xfe) as [->|N].
    + destruct d as [|mt d]; [cbn [handle_ccm]; easy|]. 
      assert (H : match handle_ccm e s x (mt :: d) with Ok _ => True | Bad r => r = Freed end).
      { unfold handle_ccm. destruct (b_ka (tss s (c_ts x))); [destruct (mt =? MSGT_PONG); [destruct (kas s n)|]|]; try reflexivity; destruct (negb (e_base e)); try exact I;
          destruct (mt =? MSGT_ID_GET); try exact I; destruct (e_id e); exact I. }
      destruct (handle_ccm e s x (mt :: d)) as [[s1 ok]|r]; [|subst r; easy]. apply U. destruct (negb ok); [apply ER|].
      destruct (hd 0 (mt :: d) =? MSGT_ID_GET); [|uu]. apply bind_u; [apply execs_u; intros P; now apply A'|]. intros s2. destruct (e_ret e); [uu|apply ER].
    + apply U. destruct (negb _); [uu|]. destruct (lookup_link _ _ _ _); [|apply ER]. apply execs_u. intros P. now apply A'.
  - apply U. cbn [step]. unfold ka_timeout. do 2 (uu; [|uu]). apply down_u. now apply execs_u.
Qed.
Lemma run_u nb vs : (nb = true -> forallb no_big_ev vs = true) -> forall s, match run s vs with Ok _ => True | Bad r => (nb = true -> r <> NullTs) /\ (forallb typed vs = true -> r <> EmptyCcm) end.
Proof.
  induction vs as [|v vs IH]; intros A s; [exact I|]. cbn [run forallb].
  assert (S : nb = true -> no_big_ev v = true) by (intros P; specialize (A P); cbn [forallb] in A; now apply andb_true_iff in A as [A _]).
  pose proof (step_u nb s v S) as U. destruct (step s v) as [s1|r].
  - assert (S' : nb = true -> forallb no_big_ev vs = true) by (intros P; specialize (A P); cbn [forallb] in A; now apply andb_true_iff in A as [_ A]).
    specialize (IH S' s1). destruct (run s1 vs); [easy|]. destruct IH as [I1 I2]. split; [easy|]. intros T. apply andb_true_iff in T as [_ T]. auto.
  - destruct U as [U1 U2]. split; [easy|]. intros T. apply andb_true_iff in T as [T _]. auto.
Qed.
(** in an orderly history without TRX numbers out of range and empty CCM messages, the only
    thing that can go wrong is the use of a link whose timeslot has no stream *)
Theorem C55_safe : forall k g trx vs r, forallb orderly_ev vs = true -> forallb no_big_ev vs = true -> forallb typed vs = true ->
  run (bst_init k g trx) vs = Bad r -> exists t, r = NoClient t.
Proof.
  intros k g trx vs r A NB TY R. pose proof (run_ok true vs (fun _ => A) _ (init_ok true k g trx)) as G. rewrite R in G. destruct G as (A1 & A2 & A3).
  destruct (A3 eq_refl) as [A4 A5]. pose proof (run_u true vs (fun _ => NB) (bst_init k g trx)) as U. rewrite R in U. destruct U as [U1 U2].
  destruct r; try congruence; eauto; exfalso; [now apply U1|now apply U2].
Qed.
(** which is exactly when it fails *)
Theorem C55_link_without_stream : forall s k m down, reach s -> In k (lks s) -> (forall x, In x (clis s) -> c_ts x <> l_ts k) ->
  step s (App (USend (l_id k) m)) = Bad (NoClient (l_ts k)) /\ step s (App (UDestroy (l_id k) down)) = Bad (NoClient (l_ts k)).
Proof.
  intros s k m down R I N. apply reach_inv in R as [w t]. assert (F : find_lk s (l_id k) = Some k) by (apply (find_id l_id); [apply w|easy]).
  assert (TN : tab s (l_ts k) = None). { destruct (tab s (l_ts k)) as [c|] eqn:E; [|easy]. destruct (w_tab s w _ _ E) as (x & J & _ & Ex). now apply N in J. }
  cbn [step exec]. split; [rewrite (send_is s _ m k w F); now rewrite TN|]. unfold link_destroy. rewrite F. unfold ipaccess_close, stream_cli. bsg.
  rewrite (tab_none_ka s (l_ts k)) by (easy || split; auto). bsg. now rewrite TN.
Qed.
(** in every history each stream is opened once, used only while it exists, closed at most
    once and freed at most once, after it was closed *)
Theorem C55_life : forall k g trx vs s c, run (bst_init k g trx) vs = Ok s -> phase c 0 (out s) <> None.
Proof.
  intros k g trx vs s c R. pose proof (run_ok false vs (fun E => match Bool.diff_false_true E with end) _ (init_ok false k g trx)) as G. rewrite R in G. destruct G as ([w _] & _).
  destruct (in_dec Nat.eq_dec c (map c_id (clis s))) as [I|N].
  - apply in_map_iff in I as (x & <- & I). rewrite (w_in s w x I). discriminate.
  - destruct (w_out s w c N) as [-> | ->]; discriminate.
Qed.
(** the streams of a state are those opened and not yet freed *)
Theorem C55_alive : forall s c, reach s -> (In c (map c_id (clis s)) <-> phase c 0 (out s) = Some 1%nat \/ phase c 0 (out s) = Some 2%nat) /\
  (forall x, In x (clis s) -> (c_open x = true <-> phase (c_id x) 0 (out s) = Some 1%nat) /\ told (c_id x) (c_ts x) (out s)).
Proof.
  intros s c R. apply reach_inv in R as [w _]. split; [split|].
  - intros I. apply in_map_iff in I as (x & <- & I). rewrite (w_in s w x I). destruct (c_open x); auto.
  - intros P. destruct (in_dec Nat.eq_dec c (map c_id (clis s))) as [I|N]; [easy|]. destruct (w_out s w c N) as [E|E]; rewrite E in P; destruct P; congruence.
  - intros x I. split; [|apply (w_nm s w), I]. rewrite (w_in s w x I). now destruct (c_open x).
Qed.
(** a timeslot never has two streams *)
Theorem C55_one_stream : forall s x y, reach s -> In x (clis s) -> In y (clis s) -> c_ts x = c_ts y -> x = y.
Proof.
  intros s x y R I J E. apply reach_inv in R as [w t]. specialize (t eq_refl). apply (id_inj c_id (clis s)); [apply w|easy|easy|].
  pose proof (t x I) as A. pose proof (t y J) as B. rewrite E in A. congruence.
Qed.
Lemma no_ts s t : Inv true s -> tab s t = None -> forall x, In x (clis s) -> c_ts x <> t.
Proof. intros [w t0] TN x I E. pose proof (t0 eq_refl x I). congruence. Qed.
Lemma start_is s t addr port ok : Inv true s -> (t < 32)%nat -> b_sign (tss s t) = true -> il s = true -> tab s t = None ->
  exists s' c, cli_start s t addr port ok = Ok s' /\ out s' = out s ++ (if ok then [BConnect c t addr port; BRet 0] else [BRet (-5)]) /\
     (forall x, In x (clis s') -> c_ts x = t <-> ok = true /\ x = mkCli c t true) /\ (ok = true -> In (mkCli c t true) (clis s') /\ (kap s = true -> exists k, kas s' k = Some c)) /\ lks s' = lks s.
Proof.
  intros G L SG IL TN. destruct (start_ok true s t addr port ok G L SG IL TN) as [_ K]. destruct (K eq_refl) as (s' & E & D). exists s', (nxt s). split; [easy|].
  pose proof (no_ts s t G TN) as N. destruct ok.
  - destruct D as (O & C & _ & LK & KA). rewrite C. split; [easy|]. split; [|split; [|easy]].
    + intros x I. apply in_app_iff in I as [I|[<-|[]]]; [|bsg; easy]. split; [intros Q; now apply N in Q|]. intros [_ ->]. now destruct (N _ I).
    + intros _. split; [apply in_app_iff; right; now left|]. intros P. destruct (KA P) as (k & _ & ?). eauto.
  - destruct D as (O & C & _ & LK). rewrite C. split; [easy|]. split; [|easy]. intros x I. split; [intros Q; now apply N in Q|easy].
Qed.
(** connecting a TRX: whatever stream its timeslot had is closed and freed; the new one is the
    only one and is supervised if keepalive is configured; closing leaves none *)
Theorem C55_connect : forall s trx addr port ok down, reach s -> (trx < 31)%nat -> forallb calm down = true ->
  match step s (App (UConnect trx addr port ok down)) with
  | Ok s' => exists es c, out s' = out s ++ es ++ (if ok then [BConnect c (1 + trx) addr port; BRet 0] else [BRet (-5)]) /\
     (forall x, In x (clis s') -> c_ts x = (1 + trx)%nat <-> ok = true /\ x = mkCli c (1 + trx) true) /\
     (ok = true -> In (mkCli c (1 + trx) true) (clis s') /\ (kap s = true -> exists k, kas s' k = Some c))
  | Bad r => exists t, r = NoClient t
  end.
Proof.
  intros s trx addr port ok down R L K. pose proof (reach_inv s R) as G. pose proof (execs_down true down (fun _ => K)) as C.
  pose proof (execs_u down true (fun _ => calms_no_big down K)) as U.
  cbn [step exec]. fold execs. fold (execs down). unfold rsl_connect_n. assert (in_range trx = true) as -> by now apply in_range_spec. unfold rsl_ts.
  destruct (Nat.ltb_spec (1 + trx) NUM_E1_TS) as [L'|L']; [|unfold NUM_E1_TS in L'; lia].
  destruct (rsl_drop_ok true (execs down) s (1 + trx) C G) as [D TN]; [lia|]. pose proof (drop_u true (execs down) s (1 + trx) U) as U1.
  destruct (rsl_drop (execs down) s (1 + trx)) as [s1|r].
  - destruct D as (G1 & F1 & _). destruct (config_ok true s1 (1 + trx) G1) as (G2 & F2 & _ & SG & TB). 
    destruct (start_is (set_il (config_sign s1 (1 + trx))) (1 + trx) addr port ok) as (s' & c & -> & O & A & B & _); [apply inv_il, G2|lia|exact SG|easy| |].
    + change (tab (config_sign s1 (1 + trx)) (1 + trx) = None). rewrite TB. auto.
    + destruct F1 as (_ & KP & _ & _ & (es & OE) & _). exists es, c. split; [rewrite O; change (out (set_il (config_sign s1 (1 + trx)))) with (out s1); rewrite OE; now rewrite <- app_assoc|].
      split; [exact A|]. intros P. destruct (B P) as [B1 B2]. split; [exact B1|]. intros KS. apply B2. change (kap s1 = true). congruence.
  - destruct D as (A1 & A2 & A3). destruct (A3 eq_refl) as [A4 A5]. destruct U1 as [U1 U2]. specialize (U2 eq_refl). destruct r; try congruence; eauto.
Qed.
Theorem C55_update : forall s addr ok down, reach s -> forallb calm down = true ->
  match step s (App (UUpdate addr ok down)) with
  | Ok s' => exists es c, out s' = out s ++ es ++ (if ok then [BConnect c 0 addr 3002; BRet 0] else [BRet (-5)]) /\
     (forall x, In x (clis s') -> c_ts x = 0%nat <-> ok = true /\ x = mkCli c 0 true) /\
     (ok = true -> In (mkCli c 0 true) (clis s') /\ (kap s = true -> exists k, kas s' k = Some c))
  | Bad r => exists t, r = NoClient t
  end.
Proof.
  intros s addr ok down R K. pose proof (reach_inv s R) as G. pose proof (execs_down true down (fun _ => K)) as C.
  pose proof (execs_u down true (fun _ => calms_no_big down K)) as U.
  pose proof (update_ok true (execs down) s addr ok C G) as GU.
  assert (UU : ub true (line_update (execs down) s addr ok)).
  { change (line_update (execs down) s addr ok) with (exec (UUpdate addr ok down) s). apply (exec_u_n (usize (UUpdate addr ok down))); [lia|]. intros _. now apply calms_no_big. }
  cbn [step exec]. fold execs. fold (execs down).
  destruct (line_update (execs down) s addr ok) as [s'|r] eqn:E.
  2:{ destruct GU as (A1 & A2 & A3). destruct (A3 eq_refl) as [A4 A5]. destruct UU as [U1 U2]. specialize (U2 eq_refl). destruct r; try congruence; eauto. }
  clear GU UU. unfold line_update in E. 
  assert (KK : forall s1, Inv true s1 -> Fr s s1 -> tab s1 oml_ts = None -> il s1 = true -> cli_start (config_sign s1 oml_ts) oml_ts addr IPA_TCP_PORT_OML ok = Ok s' ->
    exists es c, out s' = out s ++ es ++ (if ok then [BConnect c 0 addr 3002; BRet 0] else [BRet (-5)]) /\
     (forall x, In x (clis s') -> c_ts x = 0%nat <-> ok = true /\ x = mkCli c 0 true) /\
     (ok = true -> In (mkCli c 0 true) (clis s') /\ (kap s = true -> exists k, kas s' k = Some c))).
  { intros s1 G1 F1 T1 I1 E1. destruct (config_ok true s1 oml_ts G1) as (G2 & F2 & _ & SG & TB).
    destruct (start_is (config_sign s1 oml_ts) oml_ts addr IPA_TCP_PORT_OML ok) as (s2 & c & E2 & O & A & B & _); [exact G2|unfold oml_ts; lia|exact SG|exact I1|congruence|].
    rewrite E1 in E2. injection E2 as <-. destruct F1 as (_ & KP & _ & _ & (es & OE) & _). exists es, c.
    split; [rewrite O; change (out (config_sign s1 oml_ts)) with (out s1); rewrite OE; now rewrite <- app_assoc|]. split; [exact A|].
    intros P. destruct (B P) as [B1 B2]. split; [exact B1|]. intros KS. apply B2. change (kap s1 = true). congruence. }
  pose proof (inv_il true s G) as G0. assert (IL : il (set_il s) = true) by reflexivity. pose proof (fr_il s) as F0. set (s0 := set_il s) in *. clearbody s0.
  destruct (tab s0 oml_ts) as [c|] eqn:T0; [|eapply KK; eauto].
  destruct (w_tab s0 (inv_w true s0 G0) _ _ T0) as (x & I & <- & Ex).
  destruct (close_ok true (execs down) s0 x C G0 I) as [G1 CL]. destruct (cli_close (execs down) s0 (c_id x)) as [s1|r]; [|discriminate]. destruct G1 as (G1 & F1 & S1).
  destruct (cleanup_ok true s1 oml_ts G1) as (s2 & E2 & G2 & F2 & S2 & C2 & T2 & K2 & L2 & _). rewrite E2 in E. set (s3 := set_ts s2 oml_ts _) in *.
  assert (G3 : Inv true s3) by (apply inv_set_ts; auto).
  assert (F3 : Fr s0 s3) by (eapply fr_trans; [exact F1|eapply fr_trans; [exact F2|apply fr_set_ts]]).
  destruct (tab s3 oml_ts) as [c|] eqn:T3; [|discriminate].
  destruct (w_tab s3 (inv_w true s3 G3) _ _ T3) as (y & J & <- & Ey). rewrite <- Ey in T3.
  pose proof (destroy_ok true (execs down) s3 y C G3 J T3) as D. destruct (cli_destroy (execs down) s3 (c_id y)) as [s4|r]; [|discriminate]. rewrite Ey in D. destruct D as (G4 & F4 & _).
  assert (F : Fr s (set_tab s4 oml_ts None)) by (eapply fr_trans; [exact F0|eapply fr_trans; [exact F3|exact F4]]).
  eapply (KK (set_tab s4 oml_ts None)); [exact G4|exact F|bsg; unfold upd; now rewrite Nat.eqb_refl| |exact E].
  apply (proj2 (proj1 (proj2 (proj2 (fr_trans _ _ _ F3 F4))))). exact IL.
Qed.
Theorem C55_close : forall s trx down, reach s -> (trx < 31)%nat -> forallb calm down = true ->
  match step s (App (UClose trx down)) with
  | Ok s' => exists es, out s' = out s ++ es ++ [BRet 0] /\ (forall x, In x (clis s') -> c_ts x <> (1 + trx)%nat)
  | Bad r => exists t, r = NoClient t
  end.
Proof.
  intros s trx down R L K. pose proof (reach_inv s R) as G. pose proof (execs_down true down (fun _ => K)) as C.
  pose proof (execs_u down true (fun _ => calms_no_big down K)) as U.
  cbn [step exec]. fold execs. fold (execs down). unfold rsl_close_n. assert (in_range trx = true) as -> by now apply in_range_spec.
  destruct (rsl_drop_ok true (execs down) s (1 + trx) C G) as [D TN]; [lia|]. pose proof (drop_u true (execs down) s (1 + trx) U) as U1.
  destruct (rsl_drop (execs down) s (1 + trx)) as [s1|r].
  - destruct D as (G1 & (_ & _ & _ & _ & (es & OE) & _) & _). exists es. bsg. rewrite OE, <- app_assoc. split; [easy|]. apply no_ts; auto.
  - destruct D as (A1 & A2 & A3). destruct (A3 eq_refl) as [A4 A5]. destruct U1 as [U1 U2]. specialize (U2 eq_refl). destruct r; try congruence; eauto.
Qed.
(** a stream that fails (connect error, read error, end of file) is closed, its supervision
    ends and the application is told, before anything else happens *)
Theorem C55_lost : forall s x v s', reach s -> In x (clis s) -> c_open x = true -> orderly_ev v = true ->
  (exists d, v = Lost (c_id x) d) \/ (exists e, v = Rx e (c_id x) None) -> step s v = Ok s' ->
  exists ka es, out s' = out s ++ [BClose (c_id x)] ++ ka ++ [BDown (c_ts x)] ++ es /\
    (ka = [] \/ exists k, ka = [BKaTerm k] /\ kas s k = Some (c_id x)) /\
    (forall k, kas s' k <> Some (c_id x)) /\ (forall y, In y (clis s') -> c_id y = c_id x -> c_open y = false).
Proof.
  intros s x v s' R I O OV V S. pose proof (reach_inv s R) as G.
  assert (exists d, forallb calm d = true /\ cli_close (execs d) s (c_id x) = Ok s') as (d & CD & E).
  { destruct V as [(d & ->)|(e & ->)]; cbn [step orderly_ev] in *; unfold if_open in S; rewrite (find_cli_in s x) in S by eauto; rewrite O in S.
    - eauto.
    - apply andb_true_iff in OV as [_ OV]. exists (e_down e). split; [easy|]. cbn [read_cb] in S. unfold close_running in S. rewrite (find_cli_in s x) in S by eauto. exact S. }
  pose proof (execs_down true d (fun _ => CD)) as C. destruct (close_ok true (execs d) s x C G I) as [G1 CL]. rewrite E in G1. specialize (CL s' E). destruct G1 as ([w' _] & _).
  unfold cli_close in E. rewrite (find_cli_in s x) in E by eauto. rewrite O in E. fold (shut s (c_id x)) in E. unfold down_cb in E.
  destruct (shut_ok true s x G I O) as (s1 & E1 & G1 & F1 & S1 & C1 & T1 & L1 & O1). rewrite E1 in E.
  pose proof (C _ (inv_emit true s1 (BDown (c_ts x)) eq_refl G1)) as G2. rewrite E in G2. destruct G2 as (_ & (_ & _ & _ & _ & (es & OE) & _) & _).
  exists (match b_ka (tss s (c_ts x)) with Some k => [BKaTerm k] | None => [] end), es. split; [|split; [|split; [|exact CL]]].
  - rewrite OE. bsg. rewrite O1, <- !app_assoc. reflexivity.
  - destruct (b_ka (tss s (c_ts x))) as [k|] eqn:K; [|now left]. right. exists k. split; [easy|]. destruct G as [w t]. destruct (w_ka s w _ k K) as (y & KY & J & EY).
    assert (y = x) as <-; [|easy]. apply (id_inj c_id (clis s)); [apply w|easy|easy|]. pose proof (t eq_refl y J) as A. pose proof (t eq_refl x I) as B. rewrite EY in A. congruence.
  - intros k KE. destruct (w_kas s' w' k _ KE) as (_ & y & J & EY & OY & _). rewrite (CL y J EY) in OY. discriminate.
Qed.
(** a keepalive timeout tells the application but leaves the stream open, unsupervised *)
Theorem C55_timeout : forall s k c, reach s -> kas s k = Some c -> exists x s', In x (clis s) /\ c_id x = c /\ c_open x = true /\
  step s (KaTimeout k []) = Ok s' /\ out s' = out s ++ [BKaTerm k; BDown (c_ts x)] /\ clis s' = clis s /\ forall k', kas s' k' <> Some c.
Proof.
  intros s k c R K. pose proof (reach_inv s R) as G. destruct G as [w t]. destruct (w_kas s w k c K) as (_ & x & I & <- & O & B). exists x.
  cbn [step]. unfold ka_timeout. rewrite K, (find_cli_in s x w I). unfold down_cb.
  destruct (cleanup_ok true s (c_ts x) (conj w t)) as (s1 & E1 & [w1 t1] & _ & _ & C1 & _ & K1 & _ & _ & _ & O1). rewrite E1. cbn [execs].
  eexists. do 3 (split; [easy|]). split; [reflexivity|]. bsg. rewrite O1, B, <- app_assoc. split; [easy|]. split; [easy|].
  intros k' E. destruct (w_kas s1 w1 k' _ E) as (_ & y & J & EY & _ & BY). rewrite C1 in J. assert (y = x) as -> by (apply (id_inj c_id (clis s)); auto; apply w). congruence.
Qed.

(** ** C43: timeslots and TRX numbers *)
(** OML is timeslot 0 and TRX n timeslot n+1 for every n below 31; type and TRX number derived
    from a timeslot are the inverse; so for the older interface, whose descriptors are numbered
    OML, RSL, RSL+1, ... *)
Theorem C43_timeslots : forall t, (t < 32)%nat ->
  (t = oml_ts \/ exists n, (n < 31)%nat /\ rsl_ts n = Some t) /\
  (forall n, rsl_ts n = Some t -> ts_sign_type (ts_num t) = RSL /\ ts_trx_nr (ts_num t) = Z.of_nat n) /\
  (t = oml_ts -> ts_sign_type (ts_num t) = OML /\ ts_trx_nr (ts_num t) = 0) /\
  (forall n m, rsl_ts n = Some t -> rsl_ts m = Some t -> n = m) /\ rsl_ts 31 = None /\
  line_ts (OML + Z.of_nat t) = Some t /\ old_trx (OML + Z.of_nat t) = trx_of t.
Proof.
  intros t L. unfold rsl_ts, NUM_E1_TS, oml_ts, ts_num. repeat split.
  - destruct t as [|n]; [now left|]. right. exists n. split; [lia|]. destruct (Nat.ltb_spec (1 + n) 32); [easy|lia].
  - destruct (Nat.ltb (1 + n) 32); [|discriminate]. injection H as <-. unfold ts_sign_type. change (1 + n)%nat with (S n). destruct (Z.eqb_spec (Z.of_nat (S n) + 1) 1); [lia|easy].
  - destruct (Nat.ltb (1 + n) 32); [|discriminate]. injection H as <-. unfold ts_trx_nr, ts_sign_type. change (1 + n)%nat with (S n). destruct (Z.eqb_spec (Z.of_nat (S n) + 1) 1); [lia|]. change (RSL =? OML) with false. cbv beta match. lia.
  - now subst t.
  - now subst t.
  - intros n m. destruct (Nat.ltb (1 + n) 32); [|discriminate]. destruct (Nat.ltb (1 + m) 32); [|discriminate]. intros A B. injection A as A. injection B as B. lia.
  - unfold line_ts, OML, RSL, oml_ts, NUM_E1_TS. destruct (Z.eqb_spec (1 + Z.of_nat t) 1) as [E|N]; [f_equal; lia|].
    rewrite (Z.mod_small (1 + Z.of_nat t - 2)) by lia. rewrite Z.mod_small by lia. destruct (Z.ltb_spec (1 + (1 + Z.of_nat t - 2)) (Z.of_nat 32)); [f_equal; lia|lia].
  - unfold old_trx, OML, RSL, trx_of. destruct t as [|n]; [easy|]. destruct (Z.geb_spec (1 + Z.of_nat (S n)) 2); lia.
Qed.
(** in every history: a stream that was opened for timeslot t identifies itself as the TRX of
    that timeslot and as nothing else *)
Lemma connect_once c es : forall p, phase c p es <> None -> forall t a q t' a' q', In (BConnect c t a q) es -> In (BConnect c t' a' q') es -> t = t' /\ p = 0%nat.
Proof.
  assert (MON : forall es p q, phase c (S p) es = q -> forall t a q', In (BConnect c t a q') es -> q = None).
  { clear es. induction es as [|e es IH]; intros p q P t a q' I; [easy|]. cbn [phase] in P. destruct I as [->|I].
    - cbn [advance] in P. rewrite Nat.eqb_refl in P. cbn in P. easy.
    - assert (AD : advance c (S p) e = None \/ exists p', advance c (S p) e = Some (S p')).
      { unfold advance. destruct e; eauto; destruct (Nat.eqb _ c); eauto; cbn; eauto; destruct (Nat.eqb p 0); eauto; destruct (Nat.eqb p 1); cbn; eauto. }
      destruct AD as [AD|(p' & AD)]; rewrite AD in P; [easy|]. now apply (IH p' q P t a q'). }
  induction es as [|e es IH]; intros p P t a q t' a' q' I J; [easy|]. cbn [phase] in P.
  assert (X : forall t a q, e = BConnect c t a q -> p = 0%nat /\ forall t' a' q', ~ In (BConnect c t' a' q') es).
  { intros u b r ->. cbn [advance] in P. rewrite Nat.eqb_refl in P. destruct p; [|easy]. split; [easy|]. cbn [Nat.eqb] in P. intros t1 a1 q1 K. apply P. exact (MON es 0%nat _ eq_refl t1 a1 q1 K). }
  destruct I as [->|I].
  - destruct (X t a q eq_refl) as [-> N]. destruct J as [J|J]; [injection J as <- <- <-; easy|now apply N in J].
  - destruct J as [->|J]; [destruct (X t' a' q' eq_refl) as [_ N]; now apply N in I|].
    destruct (advance c p e) as [p'|] eqn:AD; [|easy]. destruct (IH p' P t a q t' a' q' I J) as [-> ->]. split; [easy|].
    unfold advance in AD. destruct e; try congruence; destruct (Nat.eqb _ c); try congruence; destruct p as [|[|[|p]]]; cbn in AD; try congruence.
Qed.
Theorem C43_identity : forall k g trx vs s c t n, run (bst_init k g trx) vs = Ok s ->
  told c t (out s) -> In (BIdResp c n) (out s) -> (t = 0%nat -> n = 0) /\ (forall m, t = (1 + m)%nat -> n = Z.of_nat m).
Proof.
  intros k g trx vs s c t n R (a & q & I) J. pose proof (C55_life k g trx vs s c R) as P.
  pose proof (run_ok false vs (fun E => match Bool.diff_false_true E with end) _ (init_ok false k g trx)) as G. rewrite R in G. destruct G as ([w _] & _).
  destruct (proj2 (w_nm s w) c n J) as (t' & (a' & q' & I') & ->). destruct (connect_once c _ _ P _ _ _ _ _ _ I I') as [<- _].
  split; [now intros ->|]. intros m ->. reflexivity.
Qed.
(** an identification request is answered with the TRX of the stream, acknowledged, and the
    application told the type; the unit's own TRX number is as before *)
Theorem C43_identify : forall s x e d s', reach s -> In x (clis s) -> c_open x = true -> e_base e = true -> e_id e = true ->
  step s (Rx e (c_id x) (Some (0xfe, 4 :: d))) = Ok s' -> orderly_ev (Rx e (c_id x) (Some (0xfe, 4 :: d))) = true ->
  unit_trx s' = unit_trx s /\ exists n ty es, out s' = out s ++ [BIdResp (c_id x) n; BIdAck (c_id x); BUp ty] ++ es /\
  (c_ts x = 0%nat -> n = 0 /\ ty = OML) /\ (forall m, c_ts x = (1 + m)%nat -> n = Z.of_nat m /\ ty = RSL + Z.of_nat m).
Proof.
  intros s x e d s' R I O B ID S OV. pose proof (reach_inv s R) as G. pose proof (step_ok true s _ (fun _ => OV) G) as GS. rewrite S in GS.
  destruct GS as (_ & (_ & _ & _ & UT & _) & _). split; [exact UT|].
  cbn [step] in S. unfold if_open in S. rewrite (find_cli_in s x) in S by eauto. rewrite O in S. unfold read_cb in S. change (0xfe =? PROTO_IPACCESS) with true in S. cbv beta match in S.
  unfold handle_ccm in S. change (4 =? MSGT_PONG) with false in S. cbv beta match in S.
  assert ((match b_ka (tss s (c_ts x)) with Some _ => Ok s | None => Ok s end) = Ok s) as X by now destruct (b_ka (tss s (c_ts x))). rewrite X in S. clear X.
  rewrite B in S. cbn [negb] in S. change (4 =? MSGT_ID_GET) with true in S. cbv beta match zeta in S. rewrite ID in S. cbv beta match in S.
  assert (E : set_unit (set_unit s (ts_trx_nr (ts_num (c_ts x)))) (unit_trx s) = s) by now destruct s. rewrite E in S. clear E. cbn [negb hd] in S.
  change (4 =? MSGT_ID_GET) with true in S. cbv beta match in S. change (unit_trx (set_unit s (ts_trx_nr (ts_num (c_ts x))))) with (ts_trx_nr (ts_num (c_ts x))) in S.
  exists (ts_trx_nr (ts_num (c_ts x))), (ts_sign_type (ts_num (c_ts x)) + ts_trx_nr (ts_num (c_ts x))).
  set (s1 := emit _ (BUp _)) in S.
  assert (FX : forall s2, (exists es, out s2 = out s1 ++ es) -> exists es, out s2 = out s ++ [BIdResp (c_id x) (ts_trx_nr (ts_num (c_ts x))); BIdAck (c_id x); BUp (ts_sign_type (ts_num (c_ts x)) + ts_trx_nr (ts_num (c_ts x)))] ++ es).
  { intros s2 (es & EO). exists es. rewrite EO. subst s1; bsg. rewrite <- !app_assoc. reflexivity. }
  assert (G1 : Inv true s1).
  { subst s1. apply inv_emit; [easy|]. pose proof (ccm_ok true e s x (4 :: d) G I O) as H. unfold handle_ccm in H. change (4 =? MSGT_PONG) with false in H. cbv beta match in H.
    assert ((match b_ka (tss s (c_ts x)) with Some _ => Ok s | None => Ok s end) = Ok s) as X by now destruct (b_ka (tss s (c_ts x))). rewrite X in H. clear X.
    rewrite B in H. cbn [negb] in H. change (4 =? MSGT_ID_GET) with true in H. cbv beta match zeta in H. rewrite ID in H. cbv beta match in H.
    assert (E : set_unit (set_unit s (ts_trx_nr (ts_num (c_ts x)))) (unit_trx s) = s) by now destruct s. rewrite E in H. exact (proj1 H). }
  cbn [orderly_ev] in OV. apply andb_true_iff in OV as [OV OV3]. apply andb_true_iff in OV as [OV1 OV2].
  pose proof (execs_ok true (e_up e) (fun _ => OV1) s1 G1) as G2. destruct (execs (e_up e) s1) as [s2|r]; [|discriminate]. destruct G2 as (G2 & (_ & _ & _ & _ & (e2 & O2) & _) & _).
  destruct (FX s') as (es & ES).
  { destruct (e_ret e); [injection S as <-; eauto|]. pose proof (close_running_ok true (execs (e_down e)) s2 (c_id x) (execs_down true _ (fun _ => OV3)) G2) as G3. rewrite S in G3.
    destruct G3 as (_ & (_ & _ & _ & _ & (e3 & O3) & _) & _). exists (e2 ++ e3). rewrite O3, O2. now rewrite app_assoc. }
  exists es. split; [exact ES|]. destruct (w_cli s (inv_w true s G) x I) as (LT & _).
  destruct (C43_timeslots (c_ts x) LT) as (_ & A2 & A3 & _). split.
  - intros Z. destruct (A3 Z) as [-> ->]. easy.
  - intros m Z. destruct (A2 m) as [-> ->]; [|easy]. unfold rsl_ts, NUM_E1_TS. destruct (Nat.ltb_spec (1 + m) 32); [congruence|lia].
Qed.
(** a TRX number the line cannot hold: closing refuses it without effect; so does connecting,
    if error messages are not output; else the message reads a null pointer *)
Theorem C43_out_of_range : forall s trx addr port ok down, (31 <= trx)%nat ->
  step s (App (UClose trx down)) = Ok (emit s (BRet (-22))) /\
  (logs s = false -> step s (App (UConnect trx addr port ok down)) = Ok (emit s (BRet (-22)))).
Proof.
  intros s trx addr port ok down L. assert (IR : in_range trx = false). { destruct (in_range trx) eqn:E; [apply in_range_spec in E; lia|easy]. }
  cbn [step exec]. unfold rsl_close_n, rsl_connect_n. rewrite IR. split; [easy|]. intros G. rewrite G. now destruct (rsl_ts trx).
Qed.
Theorem C43_refuted_out_of_range : forall s trx addr port ok down, (31 <= trx)%nat -> logs s = true ->
  step s (App (UConnect trx addr port ok down)) = Bad NullTs.
Proof.
  intros s trx addr port ok down L G. assert (IR : in_range trx = false). { destruct (in_range trx) eqn:E; [apply in_range_spec in E; lia|easy]. }
  cbn [step exec]. unfold rsl_connect_n. rewrite IR, G. unfold rsl_ts, NUM_E1_TS. destruct (Nat.ltb_spec (1 + trx) 32); [lia|easy].
Qed.
(** older interface: a PONG on a descriptor with another number reads a null pointer *)
Theorem C43_refuted_old_number : forall priv, 0 <= priv < 2 ^ 32 -> (1 <= priv <= 32 <-> old_pong priv <> Bad NullTs).
Proof.
  intros priv R. unfold old_pong, line_ts, OML, RSL, NUM_E1_TS. destruct (Z.eqb_spec priv 1) as [->|N]; [split; [discriminate|lia]|].
  destruct (Z.eq_dec priv 0) as [->|N0]; [change (_ <? _) with false; split; [lia|intros H; now elim H]|].
  rewrite (Z.mod_small (priv - 2)) by lia. rewrite (Z.mod_small (1 + (priv - 2))) by lia. destruct (Z.ltb_spec (1 + (priv - 2)) (Z.of_nat 32)); split; try easy; try lia.
Qed.

(** ** C56: messages *)
Theorem C56_send : forall s k x m, reach s -> In k (lks s) -> In x (clis s) -> c_ts x = l_ts k -> In (l_type k) [OML; RSL; OSMO] ->
  exists s', step s (App (USend (l_id k) m)) = Ok s' /\ out s' = out s ++ [BQueue (l_id k) m; BSend (l_id k) (c_id x) (framed (l_tei k) m)] /\
  lks s' = lks s /\ clis s' = clis s.
Proof.
  intros s k x m R I J E TY. apply reach_inv in R as [w t]. assert (F : find_lk s (l_id k) = Some k) by (apply (find_id l_id); [apply w|easy]).
  cbn [step exec]. rewrite (send_is s _ m k w F). pose proof (t eq_refl x J) as TB. rewrite E in TB. rewrite TB. eexists. split; [reflexivity|]. unfold set_out; bsg.
  split; [|easy]. unfold handed. assert (known_type (l_type k) = true) as ->; [|reflexivity]. unfold known_type. cbn in TY. destruct TY as [<-|[<-|[<-|[]]]]; reflexivity.
Qed.
(** links of any other type: the message is dropped *)
Theorem C56_drop : forall s k x m, reach s -> In k (lks s) -> In x (clis s) -> c_ts x = l_ts k -> ~ In (l_type k) [OML; RSL; OSMO] ->
  exists s', step s (App (USend (l_id k) m)) = Ok s' /\ out s' = out s ++ [BQueue (l_id k) m; BDrop (l_id k) m] /\ lks s' = lks s /\ clis s' = clis s.
Proof.
  intros s k x m R I J E TY. apply reach_inv in R as [w t]. assert (F : find_lk s (l_id k) = Some k) by (apply (find_id l_id); [apply w|easy]).
  cbn [step exec]. rewrite (send_is s _ m k w F). pose proof (t eq_refl x J) as TB. rewrite E in TB. rewrite TB. eexists. split; [reflexivity|]. unfold set_out; bsg.
  split; [|easy]. unfold handed. destruct (known_type (l_type k)) eqn:Q; [|reflexivity]. exfalso. apply TY. unfold known_type in Q. rewrite !orb_true_iff, !Z.eqb_eq in Q. cbn. intuition congruence.
Qed.
(** nothing waits: the queues of the links are empty in every reachable state *)
Theorem C56_no_queue : forall s k, reach s -> In k (lks s) -> l_tx k = [].
Proof. intros s k R I. apply reach_inv in R as [w _]. exact (w_q s w k I). Qed.
Definition wants (t : nat) (proto : Z) (k : lk) : Prop := l_ts k = t /\ l_tei k = proto /\ l_sapi k = 0.
Theorem C56_receive : forall s e x proto d s', reach s -> In x (clis s) -> c_open x = true -> proto <> 0xfe ->
  orderly_ev (Rx e (c_id x) (Some (proto, d))) = true -> step s (Rx e (c_id x) (Some (proto, d))) = Ok s' ->
  exists es,
  (exists a k b, lks s = a ++ k :: b /\ wants (c_ts x) proto k /\ (forall y, In y a -> ~ wants (c_ts x) proto y) /\
     out s' = out s ++ [BDeliver (l_id k) d] ++ es /\ (e_act e = [] -> es = [])) \/
  ((forall y, In y (lks s) -> ~ wants (c_ts x) proto y) /\ out s' = out s ++ [BClose (c_id x)] ++ es /\ (forall y, In y (clis s') -> c_id y = c_id x -> c_open y = false)).
Proof.
  intros s e x proto d s' R I O NP OV S. pose proof (reach_inv s R) as G. pose proof G as [w t]. cbn [step] in S. unfold if_open in S. rewrite (find_cli_in s x w I), O in S.
  unfold read_cb in S. replace (proto =? PROTO_IPACCESS) with false in S by (symmetry; now apply Z.eqb_neq). destruct (w_cli s w x I) as (_ & SG & _). rewrite SG in S. cbn [negb] in S.
  cbn [orderly_ev] in OV. apply andb_true_iff in OV as [OV OV3]. apply andb_true_iff in OV as [OV1 OV2].
  assert (WW : forall k, Nat.eqb (l_ts k) (c_ts x) && (l_sapi k =? 0) && (l_tei k =? proto) = true <-> wants (c_ts x) proto k).
  { intros k. unfold wants. rewrite !andb_true_iff, Nat.eqb_eq, !Z.eqb_eq. tauto. }
  unfold lookup_link in S. destruct (find _ (lks s)) as [k|] eqn:FL.
  - pose proof (execs_ok true (e_act e) (fun _ => OV2) _ (inv_emit true s (BDeliver (l_id k) d) eq_refl G)) as G1. rewrite S in G1. destruct G1 as (_ & (_ & _ & _ & _ & (es & OE) & _) & _).
    exists es. left.
    assert (exists a b, lks s = a ++ k :: b /\ forall y, In y a -> (Nat.eqb (l_ts y) (c_ts x) && (l_sapi y =? 0) && (l_tei y =? proto)) = false) as (a & b & AB & NA).
    { clear - FL. revert FL. induction (lks s) as [|y r IH]; [discriminate|]. cbn [find].
      destruct (Nat.eqb (l_ts y) (c_ts x) && (l_sapi y =? 0) && (l_tei y =? proto)) eqn:Y.
      - intros E. injection E as ->. exists [], r. easy.
      - intros E. destruct (IH E) as (a & b & -> & N). exists (y :: a), b. split; [easy|]. intros z [<-|Z]; auto. }
    exists a, k, b. split; [easy|]. split; [apply WW; now apply find_some in FL|]. split; [intros y Y; rewrite <- WW, NA by easy; easy|].
    split; [rewrite OE; bsg; now rewrite <- app_assoc|]. intros EA. rewrite EA in S. cbn [execs] in S. injection S as <-. bs. rewrite <- app_nil_r in OE at 1. now apply app_inv_head in OE.
  - assert (N : forall y, In y (lks s) -> ~ wants (c_ts x) proto y). { intros y Y. rewrite <- WW. rewrite (find_none _ _ FL y Y). easy. }
    assert (S2 : step s (Lost (c_id x) (e_down e)) = Ok s').
    { cbn [step]. unfold if_open. rewrite (find_cli_in s x w I), O. unfold close_running in S. now rewrite (find_cli_in s x w I) in S. }
    destruct (C55_lost s x (Lost (c_id x) (e_down e)) s' R I O OV3 (or_introl (ex_intro _ _ eq_refl)) S2) as (ka & es & OE & _ & _ & CL).
    exists (ka ++ [BDown (c_ts x)] ++ es). right. split; [easy|]. split; [exact OE|exact CL].
Qed.

(** ** A history the theorems apply to: OML and TRX 1 connect, identify themselves, exchange
    messages; the OML stream is lost; everything is taken down *)
Definition ex_e (up act down : list ucmd) : env := mkE true true up true act down.
Definition ex_run : list ev :=
  [App (UUpdate 7 true []); Connected 0; Rx (ex_e [UCreate 0 OML 255 0] [] []) 0 (Some (0xfe, [4]));
   Rx (ex_e [] [UConnect 1 7 3003 true []] []) 0 (Some (255, [11])); Connected 3; Rx (ex_e [UConfig 2; UCreate 2 RSL 1 0] [] []) 3 (Some (0xfe, [4]));
   App (USend 5 [1; 2]); Rx (ex_e [] [] []) 3 (Some (1, [9])); Rx (ex_e [] [] []) 0 (Some (0xfe, [1]))].
Definition ex_down : ev := Rx (ex_e [] [] [UDestroy 2 []; UDestroy 5 []; UClose 1 []]) 0 None.
Lemma ex_ok : forallb orderly_ev (ex_run ++ [ex_down]) && forallb no_big_ev (ex_run ++ [ex_down]) && forallb typed (ex_run ++ [ex_down]) = true /\
  exists s, run (bst_init true true 0) (ex_run ++ [ex_down]) = Ok s /\ out s =
  [BConnect 0 0 7 3002; BRet 0; BKaStart 1; BIdResp 0 0; BIdAck 0; BUp 1; BDeliver 2 [11]; BConnect 3 2 7 3003; BRet 0; BKaStart 4;
   BIdResp 3 1; BIdAck 3; BUp 3; BQueue 5 [1; 2]; BSend 5 3 [0; 2; 1; 1; 2]; BDeliver 5 [9]; BKaPong 1;
   BClose 0; BKaTerm 1; BDown 0; BKaStop 4; BClose 3; BKaTerm 4; BDown 2; BFree 3; BRet 0].
Proof. split; [reflexivity|]. eexists. split; [vm_compute; reflexivity|reflexivity]. Qed.
Lemma ex_reach s : run (bst_init true true 0) ex_run = Ok s -> reach s.
Proof. intros E. exists true, true, 0, ex_run. split; [reflexivity|exact E]. Qed.

(** ** Each rule is needed *)
(** an empty CCM message of the peer aborts the program in every state *)
Theorem C55_refuted_empty_ccm : forall s x e, reach s -> In x (clis s) -> c_open x = true -> step s (Rx e (c_id x) (Some (0xfe, []))) = Bad EmptyCcm.
Proof.
  intros s x e R I O. apply reach_inv in R as [w _]. cbn [step]. unfold if_open. rewrite (find_cli_in s x w I), O. reflexivity.
Qed.
(** reconnecting a TRX, whose stream is open, from within sign_link_down aborts *)
Theorem C55_refuted_connect_in_down : exists s, run (bst_init true true 0) ex_run = Ok s /\
  step s (App (UConnect 1 7 3003 true [UConnect 1 7 3003 true []])) = Bad (Supervised 2).
Proof. eexists. split; [vm_compute; reflexivity|vm_compute; reflexivity]. Qed.
(** without keepalive it leaves a stream the library has lost track of: two on one timeslot *)
Theorem C55_refuted_lost_stream : exists s x y, run (bst_init false true 0) [App (UConnect 1 7 3003 true []); App (UConnect 1 7 3003 true [UConnect 1 7 3003 true []])] = Ok s /\
  In x (clis s) /\ In y (clis s) /\ c_ts x = c_ts y /\ c_id x <> c_id y /\ c_open x = true /\ c_open y = true.
Proof.
  eexists _, _, _. split; [vm_compute; reflexivity|]. cbn [clis]. split; [now left|]. split; [right; now left|]. cbn. repeat split; lia.
Qed.
(** closing a TRX before its links are destroyed aborts as soon as one of them is used *)
Theorem C55_refuted_close_first : exists s, run (bst_init true true 0) (ex_run ++ [App (UClose 1 [])]) = Ok s /\
  step s (App (USend 5 [1])) = Bad (NoClient 2) /\ step s (App (UDestroy 5 [])) = Bad (NoClient 2).
Proof. eexists. split; [vm_compute; reflexivity|]. split; reflexivity. Qed.
(** updating the line from within sign_link_down while it is being updated *)
Theorem C55_refuted_update_in_down : exists s, run (bst_init true true 0) ex_run = Ok s /\
  step s (App (UUpdate 7 true [UUpdate 7 false []])) = Bad NullCli.
Proof. eexists. split; [vm_compute; reflexivity|vm_compute; reflexivity]. Qed.
