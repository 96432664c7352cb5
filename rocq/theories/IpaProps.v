(** C41 (IPA transmit queue) and C42 (IPA connection life cycle). *)
From Coq Require Import List Arith Lia Bool ZArith.
From Verif Require Import Base IpaModel IpaSpec IpaProofs.
Import ListNotations.
Open Scope Z_scope.

Lemma CI0 : CI client0. Proof. split; cbn; discriminate. Qed.

(** ** C41, client *)
(** whatever the socket and the callbacks do: messages leave the queue in the order
    they were accepted, each exactly once *)
Theorem C41_fifo : forall ops c o, run client0 ops = Some (c, o) -> accepted o = removed o ++ c_q c.
Proof. intros ops c o R. apply run_q in R. exact R. Qed.
(** ... and if the socket takes whole messages, what it gets is their concatenation *)
Theorem C41_stream : forall ops c o, run client0 ops = Some (c, o) -> all_taken o -> stream o = concat (tried o).
Proof.
  intros ops c o _ A. induction A as [|x l H A IH]; [reflexivity|]. unfold stream, tried in *. cbn. rewrite IH.
  destruct x; try reflexivity. subst. cbn. reflexivity.
Qed.
Lemma phase_view ops c o p : Forall op_ok ops -> run client0 ops = Some (c, o) -> follow Idle o = Some p -> CI c /\ view c = p.
Proof. intros F R P. destruct (run_good _ _ _ _ CI0 F R) as [I V]. split; [exact I|]. unfold prel, view in V. cbn in V. unfold view. congruence. Qed.
Lemma drain_client : forall q c k, c_alive c = true -> c_fd c = true -> c_conn c = true -> c_wr c = true -> c_q c = q -> (length q <= k)%nat ->
  exists c' o', run c (repeat writable k) = Some (c', o') /\ c_q c' = [] /\ all_taken o' /\ tried o' = q.
Proof.
  intros q c k. revert q c. induction k as [|k IH]; intros q c A F C W Q L.
  - destruct q; [|cbn in L; lia]. exists c, []. repeat split; auto. constructor.
  - assert (IDLE : forall k c, c_wr c = false -> c_q c = [] -> c_fd c = true -> run c (repeat writable k) = Some (c, [])).
    { clear. induction k as [|k IH]; intros c W Q F; [reflexivity|]. cbn [repeat run step writable]. unfold ipa_client_fd_cb. rewrite F, W. cbn [negb andb orb].
      cbn [fst snd]. rewrite IH by auto. reflexivity. }
    cbn [repeat run]. unfold writable at 1. cbn [step]. unfold ipa_client_fd_cb. rewrite F, W, A, C. cbn [negb andb orb].
    unfold ipa_client_write. rewrite A, Q. cbn [negb]. change (0 =? EBADF) with false. cbn [negb andb]. destruct q as [|m q].
    + cbn [fst snd]. rewrite IDLE by (cbn; auto). do 2 eexists. split; [reflexivity|]. cbn. repeat split; auto. constructor.
    + cbn [c_fd]. rewrite F. cbn [fst snd]. destruct (IH q (mkC true true (c_conn c) (c_wr c) (c_timer c) q)) as (c' & o' & R & Q' & T & TR); cbn; auto.
      { cbn in L; lia. }
      rewrite ?W in *. rewrite R. do 2 eexists. split; [reflexivity|]. cbn [fst snd app]. repeat split; auto.
      * constructor; auto.
      * change (m :: tried o' = m :: q). now rewrite TR.
Qed.
(** on an established connection, accepting a message gets it and everything before
    it transmitted once the socket is writable often enough *)
Theorem C41_sent : forall ops c o m, Forall op_ok ops -> run client0 ops = Some (c, o) -> follow Idle o = Some Connected ->
  exists K, forall k, (K <= k)%nat -> exists c' o', run c (Call [ASend m] :: repeat writable k) = Some (c', o') /\
    all_taken o' /\ accepted (o ++ o') = removed (o ++ o').
Proof.
  intros ops c o m F R P. destruct (phase_view _ _ _ _ F R P) as [[T A] V]. unfold view in V.
  destruct (c_fd c) eqn:FD; [|discriminate]. destruct (c_conn c) eqn:CN; [|discriminate].
  assert (AL : c_alive c = true) by (destruct (c_alive c); [reflexivity|exfalso; assert (true = false) by auto; discriminate]).
  exists (S (length (c_q c))). intros k K. cbn [run step client_acts]. unfold client_act. rewrite AL. cbn [negb fst snd].
  unfold ipa_client_conn_send. cbn [fst snd].
  destruct (drain_client (c_q c ++ [m]) (mkC true true true true (c_timer c) (c_q c ++ [m])) k) as (c' & o' & R' & Q' & AT & TR); cbn; auto.
  { rewrite app_length. cbn. lia. }
  rewrite FD, CN, AL. rewrite R'. do 2 eexists. split; [reflexivity|]. cbn [fst snd app]. split; [constructor; auto|].
  apply run_q in R. apply run_q in R'. unfold qrel in *. cbn in R, R'. rewrite Q', app_nil_r in R'.
  rewrite accepted_app, removed_app, R, <- app_assoc. f_equal. change (c_q c ++ m :: accepted o' = removed o'). rewrite <- R', <- app_assoc. reflexivity.
Qed.
(** clearing frees everything not yet handed to the socket and says how many *)
Theorem C41_clear : forall ops c o, run client0 ops = Some (c, o) -> c_alive c = true ->
  exists c' ms, step c (Call [AClear]) = Some (c', [Cleared ms; Ret (Z.of_nat (length ms))]) /\ accepted o = removed o ++ ms /\ c_q c' = [] /\
    c_wr c' = false /\ c_fd c' = c_fd c /\ c_conn c' = c_conn c /\ c_timer c' = c_timer c /\ c_alive c' = true.
Proof.
  intros ops c o R A. cbn. unfold client_act. rewrite A. cbn. do 2 eexists. split; [reflexivity|]. split; [apply run_q in R; exact R|]. cbn. auto 9.
Qed.
(** not done by the code: a message the socket takes only part of, or not now, is lost *)
Theorem C41_short_write_refuted : forall a b n,
  match run client0 [Call [AOpen true 3 true]; FdEvent false true false RAgain [] 0 SAll [ASend (a ++ b)];
                     FdEvent false true false RAgain [] 0 (SSome (length a)) []; Call [ASend n]; writable; writable] with
  | Some (c, o) => c_q c = [] /\ stream o = a ++ n
  | None => False end.
Proof.
  intros a b n. lazymatch goal with |- context [run client0 ?l] => change (run client0 l) with
    (Some (mkC true true true false false [], [Opened; Ret 0; Up; Acc (a ++ b); Tried (a ++ b) (SSome (length a)); Acc n; Tried n SAll])) end.
  split; [reflexivity|]. cbn [stream flat_map app]. rewrite firstn_app, firstn_all, Nat.sub_diag, app_nil_r. cbn. now rewrite app_nil_r.
Qed.
Theorem C41_eagain_refuted : forall m,
  match run client0 [Call [AOpen true 3 true]; FdEvent false true false RAgain [] 0 SAll [ASend m];
                     FdEvent false true false RAgain [] 0 SErr []] with
  | Some (c, o) => c_q c = [] /\ stream o = [] /\ follow Idle o = Some Connected
  | None => False end.
Proof.
  intros m. lazymatch goal with |- context [run client0 ?l] => change (run client0 l) with
    (Some (mkC true true true true false [], [Opened; Ret 0; Up; Acc m; Tried m SErr])) end. cbn. auto.
Qed.
(** ... and a message accepted while connecting is not sent when the connection comes
    up: the write flag is cleared with the queue not empty *)
Theorem C41_early_send_stalls_refuted : forall m k,
  match run client0 ([Call [AOpen true 3 true]; Call [ASend m]; FdEvent false true false RAgain [] 0 SAll []] ++ repeat writable k) with
  | Some (c, o) => follow Idle o = Some Connected /\ accepted o = [m] /\ tried o = []
  | None => False end.
Proof.
  intros m k. rewrite run_app.
  lazymatch goal with |- context [run client0 ?l] => change (run client0 l) with (Some (mkC true true true false false [m], [Opened; Ret 0; Acc m; Up])) end. cbn [fst snd].
  assert (E : run (mkC true true true false false [m]) (repeat writable k) = Some (mkC true true true false false [m], [])).
  { induction k as [|k IH]; [reflexivity|]. cbn. now rewrite IH. }
  rewrite E. cbn. auto.
Qed.
Example C41_witness : forall a b,
  match run client0 [Call [AOpen true 3 true]; FdEvent false true false RAgain [] 0 SAll [ASend a]; Call [ASend b]] with
  | Some (c, o) => follow Idle o = Some Connected /\ Forall op_ok [Call [AOpen true 3 true]; FdEvent false true false RAgain [] 0 SAll [ASend a]; Call [ASend b]] /\ c_q c = [a; b]
  | None => False end.
Proof.
  intros a b. lazymatch goal with |- context [run client0 ?l] => change (run client0 l) with
    (Some (mkC true true true true false [a; b], [Opened; Ret 0; Up; Acc a; Acc b])) end. split; [reflexivity|]. split; [|reflexivity].
  repeat constructor; unfold no_destroy; cbn; intuition discriminate.
Qed.

(** ** C41, server side *)
Lemma closed_cb_q l : forall c c' o, closed_cb_acts c l = (c', o) -> qrel (s_q c) o (s_q c') /\ s_fd c' = s_fd c /\ s_alive c' = s_alive c /\ count_closed o = 0%nat.
Proof.
  induction l as [|[m|] l IH]; cbn; intros c c' o E.
  - inversion E; subst. repeat split; auto. apply qrel_refl.
  - destruct (closed_cb_acts (mkS (s_alive c) (s_fd c) true (s_q c ++ [m])) l) as [c1 o1] eqn:A. inversion E; subst.
    destruct (IH _ _ _ A) as (Q & F & L & C). cbn in *. repeat split; auto. apply (qrel_trans _ [Acc m] (s_q c ++ [m])); [reflexivity|exact Q].
  - apply IH. exact E.
Qed.
Lemma sdestroy_q c cl c' o : ipa_server_conn_destroy c cl = Some (c', o) -> qrel (s_q c) o (s_q c') /\
  ((s_fd c = false /\ c' = c /\ o = []) \/ (s_fd c = true /\ s_fd c' = false /\ s_alive c' = false /\ count_closed o = 1%nat)).
Proof.
  unfold ipa_server_conn_destroy. destruct (negb (s_alive c)); [discriminate|]. destruct (s_fd c) eqn:F; cbn [negb].
  - destruct (closed_cb_acts _ cl) as [c1 o1] eqn:A. intros E; inversion E; subst. apply closed_cb_q in A. cbn in *. destruct A as (Q & F1 & L & C).
    split; [apply (qrel_pre _ [Closed; ClosedCb]); auto|]. right. repeat split; auto.
  - intros E; inversion E; subst. split; [apply qrel_refl|auto].
Qed.
Lemma sact_q c a cl c' o : server_act c a cl = Some (c', o) -> qrel (s_q c) o (s_q c').
Proof.
  destruct a; cbn; [destruct (negb (s_alive c)); [discriminate|]; intros E; inversion E; subst; reflexivity|]. intros E. now apply sdestroy_q in E.
Qed.
Lemma sacts_q l : forall c cl c' o, server_acts c l cl = Some (c', o) -> qrel (s_q c) o (s_q c').
Proof.
  induction l as [|a l IH]; cbn; intros c cl c' o E; [inversion E; subst; apply qrel_refl|].
  destruct (server_act c a cl) as [[c1 o1]|] eqn:A; [|discriminate]. cbn in E. destruct (server_acts c1 l cl) as [[c2 o2]|] eqn:B; [|discriminate].
  inversion E; subst. eapply qrel_trans; [eapply sact_q|eapply IH]; eauto.
Qed.
Lemma sstep_q c op c' o : sstep c op = Some (c', o) -> qrel (s_q c) o (s_q c').
Proof.
  destruct op as [a cl|rd wr r ra rret s cl]; cbn [sstep]; [apply sact_q|]. unfold ipa_server_conn_cb.
  destruct (negb (s_fd c)); [intros E; inversion E; subst; apply qrel_refl|].
  destruct (negb (rd || wr && s_wr c)); [intros E; inversion E; subst; apply qrel_refl|]. destruct (negb (s_alive c)); [discriminate|].
  assert (RD : forall c1 o1 ret, (if rd then ipa_server_conn_read c r ra rret cl else Some (c, [], 0)) = Some (c1, o1, ret) -> qrel (s_q c) o1 (s_q c1)).
  { intros c1 o1 ret. destruct rd; [|intros E; inversion E; subst; apply qrel_refl]. destruct r; cbn [ipa_server_conn_read].
    - destruct (server_acts c ra cl) as [[c2 o2]|] eqn:A; [|discriminate]. intros E; inversion E; subst. apply (qrel_pre _ [Rx m]); auto. now apply sacts_q in A.
    - intros E; inversion E; subst; apply qrel_refl.
    - destruct (ipa_server_conn_destroy c cl) as [[c2 o2]|] eqn:A; [|discriminate]. intros E; inversion E; subst. now apply sdestroy_q in A. }
  destruct (if rd then _ else _) as [[[c1 o1] ret]|]; [|discriminate]. specialize (RD _ _ _ eq_refl).
  destruct (negb (ret =? EBADF) && (wr && s_wr c)); [|intros E; inversion E; subst; exact RD].
  unfold ipa_server_conn_write. destruct (negb (s_alive c1)); [discriminate|]. destruct (s_q c1) as [|m q] eqn:Q.
  - intros E; inversion E; subst. cbn. rewrite app_nil_r. exact RD.
  - intros E; inversion E; subst. eapply qrel_trans; [exact RD|]. unfold qrel. cbn. now rewrite app_nil_r.
Qed.
Lemma srun_q ops : forall c c' o, srun c ops = Some (c', o) -> qrel (s_q c) o (s_q c').
Proof.
  induction ops as [|op ops IH]; cbn; intros c c' o E; [inversion E; subst; apply qrel_refl|].
  destruct (sstep c op) as [[c1 o1]|] eqn:A; [|discriminate]. cbn in E. destruct (srun c1 ops) as [[c2 o2]|] eqn:B; [|discriminate].
  inversion E; subst. eapply qrel_trans; [eapply sstep_q|eapply IH]; eauto.
Qed.
Theorem C41_server_fifo : forall ops c o, srun server0 ops = Some (c, o) -> accepted o = removed o ++ s_q c.
Proof. intros ops c o R. apply srun_q in R. exact R. Qed.
Lemma drain_server : forall k c, s_alive c = true -> s_fd c = true -> (s_q c <> [] -> s_wr c = true) -> (length (s_q c) <= k)%nat ->
  exists c' o', srun c (repeat swritable k) = Some (c', o') /\ s_q c' = [] /\ all_taken o'.
Proof.
  induction k as [|k IH]; intros c A F W L.
  - destruct (s_q c) eqn:Q; [|cbn in L; lia]. exists c, []. repeat split; auto. constructor.
  - cbn [repeat srun]. unfold swritable at 1. cbn [sstep]. unfold ipa_server_conn_cb. rewrite F, A. cbn [negb andb orb].
    destruct (s_wr c) eqn:WR; cbn [negb andb].
    + change (0 =? EBADF) with false. cbn [negb andb]. unfold ipa_server_conn_write. rewrite A. cbn [negb]. destruct (s_q c) as [|m q] eqn:Q.
      * cbn [fst snd]. destruct (IH (mkS true (s_fd c) false [])) as (c' & o' & R & Q' & T); cbn; [reflexivity|exact F|congruence|lia|].
        rewrite R. do 2 eexists. split; [reflexivity|]. auto.
      * cbn [fst snd]. destruct (IH (mkS true (s_fd c) true q)) as (c' & o' & R & Q' & T); cbn; auto; [cbn in L; lia|].
        rewrite WR, R. do 2 eexists. split; [reflexivity|]. cbn. split; auto. constructor; auto.
    + cbn [fst snd]. destruct (s_q c) eqn:Q; [|exfalso; assert (X : false = true) by (apply W; discriminate); discriminate].
      destruct (IH c A F) as (c' & o' & R & Q' & T); [rewrite Q; congruence|rewrite Q; cbn; lia|]. rewrite R. do 2 eexists. split; [reflexivity|]. auto.
Qed.
(** the server side has no early-send gap: in every state with the connection open,
    writability alone empties the queue *)
Definition SI (c : server) : Prop := (s_alive c = true -> s_q c <> [] -> s_wr c = true) /\ (s_alive c = false -> s_fd c = false) /\ (s_fd c = false -> s_alive c = false).
Lemma SI0 : SI server0. Proof. repeat split; cbn; congruence. Qed.
Lemma sact_SI c a cl : SI c -> s_alive c = true -> exists c' o, server_act c a cl = Some (c', o) /\ SI c' /\
  match a with SSend _ => s_alive c' = true /\ count_closed o = 0%nat | SDestroy => s_alive c' = false /\ count_closed o = 1%nat end.
Proof.
  intros (I1 & I2 & I3) A. assert (F : s_fd c = true) by (destruct (s_fd c); [reflexivity|rewrite I3 in A by auto; discriminate]).
  destruct a; cbn [server_act].
  - rewrite A. cbn. do 2 eexists. split; [reflexivity|]. cbn. repeat split; auto; congruence.
  - unfold ipa_server_conn_destroy. rewrite A, F. cbn [negb]. destruct (closed_cb_acts _ cl) as [c1 o1] eqn:CB.
    apply closed_cb_q in CB. cbn in CB. destruct CB as (_ & F1 & _ & C).
    do 2 eexists. split; [reflexivity|]. unfold SI. cbn. rewrite F1. unfold count_closed in *. cbn. rewrite C. repeat split; auto; discriminate.
Qed.
Lemma count_app a b : count_closed (a ++ b) = (count_closed a + count_closed b)%nat.
Proof. unfold count_closed. now rewrite filter_app, app_length. Qed.
Definition alive_n (c : server) : nat := if s_alive c then 0%nat else 1%nat.
Lemma sacts_SI l cl : forall c, SI c -> s_alive c = true -> sacts_ok l -> exists c' o, server_acts c l cl = Some (c', o) /\ SI c' /\
  count_closed o = alive_n c' /\ (~ In SDestroy l -> s_alive c' = true).
Proof.
  assert (ND : forall l c, SI c -> s_alive c = true -> ~ In SDestroy l -> exists c' o, server_acts c l cl = Some (c', o) /\ SI c' /\ count_closed o = 0%nat /\ s_alive c' = true).
  { clear l. induction l as [|a l IH]; intros c I A N; cbn; [exists c, []; auto|].
    destruct (sact_SI c a cl I A) as (c1 & o1 & E & I1 & G). rewrite E. cbn. destruct a; [|exfalso; apply N; now left]. destruct G as [A1 C1].
    destruct (IH c1 I1 A1) as (c2 & o2 & E2 & I2 & C2 & A2); [intros H; apply N; now right|]. rewrite E2. exists c2, (o1 ++ o2).
    rewrite count_app, C1, C2. auto. }
  intros c I A [N|(l' & -> & N)].
  - destruct (ND l c I A N) as (c' & o & E & I' & C & A'). exists c', o. unfold alive_n. rewrite A'. auto.
  - destruct (ND l' c I A N) as (c1 & o1 & E1 & I1 & C1 & A1).
    assert (AP : forall x y c, server_acts c (x ++ y) cl = do a <- server_acts c x cl; do b <- server_acts (fst a) y cl; Some (fst b, snd a ++ snd b)).
    { clear. induction x as [|a x IH]; intros y c; cbn; [destruct (server_acts c y cl) as [[? ?]|]; reflexivity|].
      destruct (server_act c a cl) as [[c1 o1]|]; [|reflexivity]. cbn. rewrite IH. destruct (server_acts c1 x cl) as [[c2 o2]|]; [|reflexivity].
      cbn. destruct (server_acts c2 y cl) as [[c3 o3]|]; [|reflexivity]. cbn. now rewrite app_assoc. }
    rewrite AP, E1. cbn [fst snd server_acts]. destruct (sact_SI c1 SDestroy cl I1 A1) as (c2 & o2 & E2 & I2 & A2 & C2).
    rewrite E2. cbn [fst snd]. do 2 eexists. split; [reflexivity|]. split; [exact I2|]. rewrite !count_app, C1, C2. unfold alive_n. rewrite A2.
    split; [reflexivity|]. intros H. exfalso. apply H. apply in_or_app. right. now left.
Qed.
Lemma sstep_SI c op : SI c -> s_alive c = true -> sop_ok op -> exists c' o, sstep c op = Some (c', o) /\ SI c' /\ count_closed o = alive_n c'.
Proof.
  intros I A OK. destruct op as [a cl|rd wr r ra rret s cl]; cbn [sstep sop_ok] in *.
  - destruct (sact_SI c a cl I A) as (c' & o & E & I' & G). exists c', o. unfold alive_n. destruct a; destruct G as [-> ->]; auto.
  - destruct OK as [RA RC]. unfold ipa_server_conn_cb. pose proof I as (I1 & I2 & I3).
    assert (N0 : exists c' o, Some (c, @nil out) = Some (c', o) /\ SI c' /\ count_closed o = alive_n c').
    { exists c, []. unfold alive_n. rewrite A. auto. }
    destruct (negb (s_fd c)); [exact N0|]. destruct (negb (rd || wr && s_wr c)); [exact N0|]. rewrite A. cbn [negb].
    assert (RD : exists c1 o1 ret, (if rd then ipa_server_conn_read c r ra rret cl else Some (c, [], 0)) = Some (c1, o1, ret) /\ SI c1 /\
       count_closed o1 = alive_n c1 /\ (ret <> EBADF -> s_alive c1 = true)).
    { destruct rd; [|exists c, [], 0; unfold alive_n; rewrite A; auto]. destruct r; cbn [ipa_server_conn_read].
      - destruct (sacts_SI ra cl c I A RA) as (c1 & o1 & E & J & C & N). rewrite E. cbn [fst snd]. exists c1, (Rx m :: o1), rret.
        split; [reflexivity|]. split; [exact J|]. split; [exact C|]. intros NE. apply N. intros H. apply NE. auto.
      - exists c, [], 0. unfold alive_n. rewrite A. auto.
      - destruct (sact_SI c SDestroy cl I A) as (c1 & o1 & E & J & A1 & C). cbn [server_act] in E. rewrite E. cbn [fst snd].
        exists c1, o1, EBADF. unfold alive_n. rewrite A1. repeat split; auto; try apply J; congruence. }
    destruct RD as (c1 & o1 & ret & E & J & C & NE). rewrite E. destruct (Z.eqb_spec ret EBADF) as [X|X]; cbn [negb andb]; [exists c1, o1; auto|].
    destruct (wr && s_wr c); [|exists c1, o1; auto]. specialize (NE X). unfold ipa_server_conn_write. rewrite NE. cbn [negb]. pose proof J as (J1 & J2 & J3).
    destruct (s_q c1) as [|m q] eqn:Q; cbn [fst snd]; do 2 eexists; (split; [reflexivity|]); unfold SI, alive_n; cbn; rewrite count_app, C; unfold alive_n; rewrite NE; cbn;
      repeat split; auto; try congruence; intros; first [discriminate|(exfalso; assert (s_alive c1 = false) by auto; congruence)|(apply J1; auto; discriminate)].
Qed.
Lemma sdead c o : SI c -> s_alive c = false -> is_sevent o -> sstep c o = Some (c, []).
Proof. intros (_ & I2 & _) D E. destruct o; [contradiction|]. cbn. unfold ipa_server_conn_cb. now rewrite I2. Qed.
Lemma srun_SI ops : forall c c' o, SI c -> Forall sop_ok ops -> srun c ops = Some (c', o) -> SI c' /\ (count_closed o + alive_n c)%nat = alive_n c'.
Proof.
  induction ops as [|op ops IH]; cbn; intros c c' o I F E; [inversion E; subst; auto|].
  inversion F; subst. destruct (sstep c op) as [[c1 o1]|] eqn:S; [|discriminate]. cbn in E. destruct (srun c1 ops) as [[c2 o2]|] eqn:R; [|discriminate].
  inversion E; subst. cbn [fst snd]. assert (G : SI c1 /\ (count_closed o1 + alive_n c)%nat = alive_n c1).
  { destruct (s_alive c) eqn:A.
    - destruct (sstep_SI c op I A) as (c1' & o1' & E1 & I1 & C1); auto. rewrite S in E1. inversion E1; subst. split; auto. unfold alive_n at 1. rewrite A. lia.
    - destruct op as [a cl|].
      + cbn in S. destruct a; cbn in S; rewrite ?A in S; try discriminate. unfold ipa_server_conn_destroy in S. rewrite A in S. discriminate.
      + rewrite sdead in S by (auto; exact Logic.I). inversion S; subst. auto. }
  destruct G as [I1 G]. destruct (IH _ _ _ I1 H2 R) as [I2 G2]. split; auto. rewrite count_app. lia.
Qed.
Theorem C41_server_sent : forall ops c o, Forall sop_ok ops -> srun server0 ops = Some (c, o) -> s_alive c = true ->
  exists K, forall k, (K <= k)%nat -> exists c' o', srun c (repeat swritable k) = Some (c', o') /\ all_taken o' /\ accepted (o ++ o') = removed (o ++ o').
Proof.
  intros ops c o F R A. destruct (srun_SI _ _ _ _ SI0 F R) as [(I1 & I2 & I3) _].
  assert (FD : s_fd c = true) by (destruct (s_fd c); [reflexivity|rewrite I3 in A by auto; discriminate]).
  exists (length (s_q c)). intros k K. destruct (drain_server k c A FD) as (c' & o' & R' & Q & T); auto.
  exists c', o'. repeat split; auto. apply srun_q in R, R'. unfold qrel in *. cbn in R. rewrite Q, app_nil_r in R'.
  rewrite accepted_app, removed_app, R, <- app_assoc, R'. reflexivity.
Qed.
Theorem C41_server_error_loses_refuted : forall m,
  match srun server0 [SCall (SSend m) []; SEvent false true RAgain [] 0 SErr []] with
  | Some (c, o) => s_q c = [] /\ stream o = [] /\ s_alive c = true
  | None => False end.
Proof. intros m. cbn. auto. Qed.
Print Assumptions C41_fifo.
Print Assumptions C41_stream.
Print Assumptions C41_sent.
Print Assumptions C41_clear.
Print Assumptions C41_short_write_refuted.
Print Assumptions C41_eagain_refuted.
Print Assumptions C41_early_send_stalls_refuted.
Print Assumptions C41_server_fifo.
Print Assumptions C41_server_sent.
Print Assumptions C41_server_error_loses_refuted.

(** ** what the socket is polled for *)
Definition krel (c : client) (o : list out) (c' : client) : Prop :=
  (c_conn c' = true -> c_conn c = true \/ In Up o) /\
  (c_conn c' = true -> c_wr c' = true -> (c_conn c = true /\ c_wr c = true) \/ accepted o <> []).
Lemma krel_same c c' o : (c_conn c' = true -> c_conn c = true) -> (c_conn c' = true -> c_wr c' = true -> c_wr c = true) -> krel c o c'.
Proof. intros A B. split; intros; [left; auto|left; split; auto]. Qed.
Lemma krel_trans c o1 c1 o2 c2 : krel c o1 c1 -> krel c1 o2 c2 -> krel c (o1 ++ o2) c2.
Proof.
  intros [A1 A2] [B1 B2]. split.
  - intros H. destruct (B1 H) as [X|X]; [destruct (A1 X) as [Y|Y]; [now left|]|]; right; apply in_or_app; auto.
  - intros H W. rewrite accepted_app. destruct (B2 H W) as [[X Y]|X].
    + destruct (A2 X Y) as [Z|Z]; [now left|]. right. intros K. apply app_eq_nil in K as [K _]. auto.
    + right. intros K. apply app_eq_nil in K as [_ K]. auto.
Qed.
Lemma act_k c a c' o : client_act c a = Some (c', o) -> krel c o c'.
Proof.
  unfold client_act. destruct (negb (c_alive c)); [discriminate|]. destruct a; cbn [client_act ipa_client_conn_close ipa_client_conn_send ipa_client_conn_clear_queue ipa_client_conn_destroy ipa_client_conn_open2].
  - intros E; injection E as <- <-. apply krel_same; auto.
  - unfold ipa_client_conn_open2. destruct (c_fd c); [intros E; injection E as <- <-; apply krel_same; auto|]. destruct (sock_rc <? 0); [|destruct (negb reg)]; intros E; injection E as <- <-; apply krel_same; cbn; auto; discriminate.
  - intros E; injection E as <- <-. split; cbn; [auto|]. intros _ _. right. discriminate.
  - intros E; injection E as <- <-. apply krel_same; cbn; auto. discriminate.
  - intros E; injection E as <- <-. apply krel_same; auto.
Qed.
Lemma acts_k l : forall c c' o, client_acts c l = Some (c', o) -> krel c o c'.
Proof.
  induction l as [|a l IH]; cbn; intros c c' o E; [injection E as <- <-; apply krel_same; auto|].
  destruct (client_act c a) as [[c1 o1]|] eqn:A; [|discriminate]. cbn in E. destruct (client_acts c1 l) as [[c2 o2]|] eqn:B; [|discriminate].
  injection E as <- <-. eapply krel_trans; [eapply act_k|eapply IH]; eauto.
Qed.
Lemma down_k c u c' o : go_down c u = Some (c', o) -> krel c o c'.
Proof.
  unfold go_down, ipa_client_conn_close. destruct (client_acts _ u) as [[c1 o1]|] eqn:A; [|discriminate]. intros E; injection E as <- <-. apply acts_k in A.
  apply (krel_trans _ (if c_fd c then [Closed] else []) c); [apply krel_same; auto|]. apply (krel_trans _ [Down] (mkC (c_alive c) false (c_conn c) (c_wr c) false (c_q c))); [apply krel_same; auto|exact A].
Qed.
Lemma write_k c s u c' o : ipa_client_write c s u = Some (c', o) -> krel c o c'.
Proof.
  unfold ipa_client_write. destruct (negb (c_alive c)); [discriminate|]. destruct (c_q c) as [|m q].
  - intros E; injection E as <- <-. apply krel_same; cbn; auto. discriminate.
  - cbn [c_fd]. destruct (if c_fd c then s else SErr); [| |destruct (go_down _ u) as [[c1 o1]|] eqn:G; [|discriminate]|].
    1,2,4: intros E; injection E as <- <-; apply krel_same; auto.
    cbn. destruct (negb (c_alive c1)); [discriminate|]. intros E; injection E as <- <-. apply down_k in G. apply (krel_trans _ [Tried m SPipe] (mkC (c_alive c) (c_fd c) (c_conn c) (c_wr c) (c_timer c) q)); [apply krel_same; auto|exact G].
Qed.
Lemma step_k c op c' o : step c op = Some (c', o) -> krel c o c'.
Proof.
  destruct op as [l|rd wr e r ra rret s u|u]; cbn [step].
  - apply acts_k.
  - unfold ipa_client_fd_cb. assert (N : forall c1 o1, Some (c, @nil out) = Some (c1, o1) -> krel c o1 c1) by (intros c1 o1 E; injection E as <- <-; apply krel_same; auto).
    destruct (negb (c_fd c)); [apply N|]. destruct (negb (rd || wr && c_wr c)); [apply N|].
    destruct (negb (c_alive c)); [discriminate|]. destruct (negb (c_conn c)).
    + destruct e; [apply down_k|]. destruct (client_acts _ u) as [[c1 o1]|] eqn:A; [|discriminate].
      intros E; injection E as <- <-. apply acts_k in A. cbn in *. apply (krel_trans _ [Up] (mkC (c_alive c) (c_fd c) true false false (c_q c))); [|exact A]. split; cbn; [auto|discriminate].
    + assert (RD : forall c1 o1 ret, (if rd then ipa_client_read c r ra rret u else Some (c, [], 0)) = Some (c1, o1, ret) -> krel c o1 c1).
      { intros c1 o1 ret. destruct rd; [|intros E; injection E as <- <- _; apply krel_same; auto]. destruct r; cbn [ipa_client_read].
        - destruct (client_acts c ra) as [[c2 o2]|] eqn:A; [|discriminate]. intros E; injection E as <- <- _. cbn [fst snd].
          apply (krel_trans _ [Rx m] c); [apply krel_same; auto|now apply acts_k in A].
        - intros E; injection E as <- <- _. apply krel_same; auto.
        - destruct (go_down c u) as [[c2 o2]|] eqn:G; [|discriminate]. intros E; injection E as <- <- _. now apply down_k in G. }
      destruct (if rd then _ else _) as [[[c1 o1] ret]|]; [|discriminate]. specialize (RD _ _ _ eq_refl).
      destruct (negb (ret =? EBADF) && (wr && c_wr c)); [|intros E; injection E as <- <-; exact RD].
      destruct (ipa_client_write c1 s u) as [[c2 o2]|] eqn:W; [|discriminate]. intros E; injection E as <- <-.
      eapply krel_trans; eauto. eapply write_k; eauto.
  - unfold ipa_connect_timeout_cb. destruct (negb (c_timer c)); [intros E; injection E as <- <-; apply krel_same; auto|].
    destruct (negb (c_alive c)); [discriminate|]. intros E. apply down_k in E. exact E.
Qed.
Lemma run_k ops : forall c c' o, run c ops = Some (c', o) -> krel c o c'.
Proof.
  induction ops as [|op ops IH]; cbn; intros c c' o E; [injection E as <- <-; apply krel_same; auto|].
  destruct (step c op) as [[c1 o1]|] eqn:A; [|discriminate]. cbn in E. destruct (run c1 ops) as [[c2 o2]|] eqn:B; [|discriminate].
  injection E as <- <-. eapply krel_trans; [eapply step_k|eapply IH]; eauto.
Qed.
(** in any history, also one that breaks the rules of use: a connection shown as connected was
    reported up, and one for which no message was accepted does not poll for writability *)
Theorem C41_polling : forall ops c o, run client0 ops = Some (c, o) ->
  (c_conn c = true -> In Up o) /\ (c_conn c = true -> accepted o = [] -> c_wr c = false).
Proof.
  intros ops c o R. destruct (run_k _ _ _ _ R) as [A B]. split.
  - intros H. destruct (A H) as [X|X]; [discriminate X|exact X].
  - intros H Q. destruct (c_wr c); [|reflexivity]. destruct (B H eq_refl) as [[X _]|X]; [discriminate X|contradiction].
Qed.
Definition wrel (c : server) (o : list out) (c' : server) : Prop := s_wr c' = true -> s_wr c = true \/ accepted o <> [].
Lemma wrel_same c c' o : (s_wr c' = true -> s_wr c = true) -> wrel c o c'.
Proof. intros A H. auto. Qed.
Lemma wrel_trans c o1 c1 o2 c2 : wrel c o1 c1 -> wrel c1 o2 c2 -> wrel c (o1 ++ o2) c2.
Proof.
  intros A B H. rewrite accepted_app. destruct (B H) as [X|X]; [destruct (A X) as [Y|Y]; [now left|]|]; right; intros K; apply app_eq_nil in K as [K1 K2]; auto.
Qed.
Lemma closed_cb_w l : forall c c' o, closed_cb_acts c l = (c', o) -> wrel c o c'.
Proof.
  induction l as [|[m|] l IH]; cbn; intros c c' o E; [injection E as <- <-; apply wrel_same; auto| |now apply IH].
  destruct (closed_cb_acts _ l) as [c1 o1] eqn:A. injection E as <- <-. intros _. right. discriminate.
Qed.
Lemma sdestroy_w c cl c' o : ipa_server_conn_destroy c cl = Some (c', o) -> wrel c o c'.
Proof.
  unfold ipa_server_conn_destroy. destruct (negb (s_alive c)); [discriminate|]. destruct (negb (s_fd c)); [intros E; injection E as <- <-; apply wrel_same; auto|].
  destruct (closed_cb_acts _ cl) as [c1 o1] eqn:A. intros E; injection E as <- <-. apply closed_cb_w in A. cbn in A. intros H. cbn in H. destruct (A H) as [X|X]; [now left|right; exact X].
Qed.
Lemma sacts_w l : forall c cl c' o, server_acts c l cl = Some (c', o) -> wrel c o c'.
Proof.
  induction l as [|a l IH]; cbn; intros c cl c' o E; [injection E as <- <-; apply wrel_same; auto|].
  destruct (server_act c a cl) as [[c1 o1]|] eqn:A; [|discriminate]. cbn in E. destruct (server_acts c1 l cl) as [[c2 o2]|] eqn:B; [|discriminate].
  injection E as <- <-. eapply wrel_trans; [|eapply IH; eauto]. destruct a; cbn in A; [destruct (negb (s_alive c)); [discriminate|]; injection A as <- <-; intros _; right; discriminate|]. now apply sdestroy_w in A.
Qed.
Lemma sstep_w c op c' o : sstep c op = Some (c', o) -> wrel c o c'.
Proof.
  destruct op as [a cl|rd wr r ra rret s cl]; cbn [sstep].
  { intros E. apply (sacts_w [a] c cl). cbn. rewrite E. cbn. now rewrite app_nil_r. }
  unfold ipa_server_conn_cb. assert (N : forall c1 o1, Some (c, @nil out) = Some (c1, o1) -> wrel c o1 c1) by (intros c1 o1 E; injection E as <- <-; apply wrel_same; auto).
  destruct (negb (s_fd c)); [apply N|]. destruct (negb (rd || wr && s_wr c)); [apply N|]. destruct (negb (s_alive c)); [discriminate|].
  assert (RD : forall c1 o1 ret, (if rd then ipa_server_conn_read c r ra rret cl else Some (c, [], 0)) = Some (c1, o1, ret) -> wrel c o1 c1).
  { intros c1 o1 ret. destruct rd; [|intros E; injection E as <- <- _; apply wrel_same; auto]. destruct r; cbn [ipa_server_conn_read].
    - destruct (server_acts c ra cl) as [[c2 o2]|] eqn:A; [|discriminate]. intros E; injection E as <- <- _. apply (wrel_trans _ [Rx m] c); [apply wrel_same; auto|]. now apply sacts_w in A.
    - intros E; injection E as <- <- _. apply wrel_same; auto.
    - destruct (ipa_server_conn_destroy c cl) as [[c2 o2]|] eqn:A; [|discriminate]. intros E; injection E as <- <- _. now apply sdestroy_w in A. }
  destruct (if rd then _ else _) as [[[c1 o1] ret]|]; [|discriminate]. specialize (RD _ _ _ eq_refl).
  destruct (negb (ret =? EBADF) && (wr && s_wr c)); [|intros E; injection E as <- <-; exact RD].
  unfold ipa_server_conn_write. destruct (negb (s_alive c1)); [discriminate|]. destruct (s_q c1) as [|m q]; intros E; injection E as <- <-; (eapply wrel_trans; [exact RD|]); apply wrel_same; cbn; auto; discriminate.
Qed.
Theorem C41_server_polling : forall ops c o, srun server0 ops = Some (c, o) -> accepted o = [] -> s_wr c = false.
Proof.
  assert (G : forall ops c c' o, srun c ops = Some (c', o) -> wrel c o c').
  { induction ops as [|op ops IH]; cbn; intros c c' o E; [injection E as <- <-; apply wrel_same; auto|].
    destruct (sstep c op) as [[c1 o1]|] eqn:A; [|discriminate]. cbn in E. destruct (srun c1 ops) as [[c2 o2]|] eqn:B; [|discriminate]. injection E as <- <-. eapply wrel_trans; [eapply sstep_w|eapply IH]; eauto. }
  intros ops c o R Q. destruct (s_wr c) eqn:W; [|reflexivity]. destruct (G _ _ _ _ R W) as [X|X]; [discriminate X|contradiction].
Qed.
Example C41_polling_witness : match run client0 [Call [AOpen true 3 true]; writable; Call [AClear]] with
  | Some (c, o) => c_conn c = true /\ accepted o = [] /\ follow Idle o = Some Connected | None => False end.
Proof. vm_compute. auto. Qed.

(** ** C42 *)
(** every client connection lives through the phases of [next]: up is reported once
    per established connection, every socket closed by the library is reported down
    at once and exactly once, nothing is received or sent outside Connected *)
Theorem C42_life : forall ops c o, Forall op_ok ops -> run client0 ops = Some (c, o) ->
  exists p, follow Idle o = Some p /\ p <> JustClosed /\ (p = Idle <-> c_fd c = false) /\
    (c_timer c = true -> p = Connecting).
Proof.
  intros ops c o F R. destruct (run_good _ _ _ _ CI0 F R) as [[T A] V]. exists (view c). split; [exact V|]. unfold view.
  destruct (c_fd c) eqn:FD; [destruct (c_conn c) eqn:CN|]; repeat split; try congruence; intros H; destruct (T H); congruence.
Qed.
(** open is refused exactly while there is a socket *)
Theorem C42_open : forall ops c o t rc reg, Forall op_ok ops -> run client0 ops = Some (c, o) -> c_alive c = true ->
  exists c' o', step c (Call [AOpen t rc reg]) = Some (c', o') /\
    (follow Idle o = Some Idle -> o' = if rc <? 0 then [Ret rc] else if reg then [Opened; Ret 0] else [Ret (-5)]) /\
    (follow Idle o <> Some Idle -> o' = [Ret (-22)] /\ c' = c).
Proof.
  intros ops c o t rc reg F R A. destruct (run_good _ _ _ _ CI0 F R) as [_ V]. unfold prel in V. change (view client0) with Idle in V. rewrite V.
  cbn. unfold client_act. rewrite A. cbn. unfold ipa_client_conn_open2, view. destruct (c_fd c).
  - cbn. do 2 eexists. split; [reflexivity|]. split; [destruct (c_conn c); discriminate|auto].
  - destruct (rc <? 0); [|destruct reg]; cbn; do 2 eexists; (split; [reflexivity|]); split; auto; congruence.
Qed.
(** used as documented, the library never touches a freed connection, whatever the
    socket, the peer and the timer do, and a freed one gets no event *)
Theorem C42_safe : forall ops c o, Forall op_ok ops -> run client0 ops = Some (c, o) ->
  (c_alive c = true -> forall op, op_ok op -> step c op <> None) /\
  (c_alive c = false -> forall op, is_event op -> step c op = Some (c, [])).
Proof.
  intros ops c o F R. destruct (run_good _ _ _ _ CI0 F R) as [I _]. split.
  - intros A op OK. destruct (step_good c op I A OK) as (c' & o' & E & _). congruence.
  - intros D op E. now apply dead_event.
Qed.
(** each rule of [op_ok] is needed: freeing without closing, freeing from the callback
    that reports a failed send, closing in the read callback without -EBADF *)
Theorem C42_destroy_open_refuted : run client0 [Call [AOpen true 3 true]; Call [ADestroy]; TimerEvent []] = None.
Proof. reflexivity. Qed.
Theorem C42_destroy_in_send_failure_refuted : forall m,
  run client0 [Call [AOpen true 3 true]; FdEvent false true false RAgain [] 0 SAll [ASend m];
               FdEvent false true false RAgain [] 0 SPipe [AClose; ADestroy]] = None.
Proof. reflexivity. Qed.
Theorem C42_close_in_read_refuted : forall m n,
  match run client0 [Call [AOpen true 3 true]; FdEvent false true false RAgain [] 0 SAll [ASend m];
                     FdEvent true true false (RMsg n) [AClose] 0 SAll []] with
  | Some (c, o) => follow Idle o = None /\ c_q c = [] /\ stream o = []
  | None => False end.
Proof. intros m n. vm_compute. auto. Qed.
(** server connection: closed_cb runs exactly once, when the connection goes; used as
    documented nothing touches it afterwards *)
Theorem C42_server_closed_once : forall ops c o, Forall sop_ok ops -> srun server0 ops = Some (c, o) ->
  count_closed o = (if s_alive c then 0 else 1)%nat /\
  (s_alive c = true -> forall op, sop_ok op -> sstep c op <> None) /\
  (s_alive c = false -> forall op, is_sevent op -> sstep c op = Some (c, [])).
Proof.
  intros ops c o F R. destruct (srun_SI _ _ _ _ SI0 F R) as [I C]. cbn in C. split; [rewrite Nat.add_0_r in C; exact C|]. split.
  - intros A op OK. destruct (sstep_SI c op I A OK) as (c' & o' & E & _). congruence.
  - intros D op E. now apply sdead.
Qed.
(** the CCM handler keeps the connection exactly when the message was a ping, a pong or an
    acknowledgement handled below (1), is no identity response, or is one that parses, names a
    unit and is not refused by the user; otherwise the connection is destroyed and -1 returned *)
Theorem C42_ccm : forall base idresp parse_ok rc,
  let keep := base = 1 \/ base = 0 /\ (idresp = false \/ parse_ok = true /\ 0 <= rc) in
  (keep -> ipa_server_conn_ccm base idresp parse_ok rc = ([], 0)) /\ (~ keep -> ipa_server_conn_ccm base idresp parse_ok rc = ([SDestroy], -1)).
Proof.
  intros base idresp parse_ok rc. cbv zeta. unfold ipa_server_conn_ccm. destruct (Z.eqb_spec base 1) as [->|B1]; [split; [reflexivity|intros H; destruct H; now left]|].
  destruct (Z.eqb_spec base 0) as [->|B0]; cbn [negb]; [|split; [intros [H|[H _]]; congruence|reflexivity]].
  destruct idresp; cbn [negb]; [|split; [reflexivity|intros H; destruct H; right; split; [reflexivity|now left]]].
  destruct parse_ok; cbn [negb]; [|split; [intros [H|[_ [H|[H _]]]]; discriminate|reflexivity]].
  destruct (Z.ltb_spec rc 0); (split; [intros [H1|[_ [H1|[_ H1]]]]; first [discriminate H1|lia|reflexivity]|intros N; first [reflexivity|exfalso; apply N; right; split; [reflexivity|right; split; [reflexivity|lia]]]]).
Qed.
(** ... but the library's own CCM handler frees the connection and returns -1, not
    -EBADF: a callback that passes this on makes the library use the freed connection *)
Theorem C42_ccm_error_refuted : forall m n,
  let '(acts, rc) := ipa_server_conn_ccm 0 true false 0 in
  srun server0 [SCall (SSend m) []; SEvent true true (RMsg n) acts rc SAll []] = None.
Proof. reflexivity. Qed.
(** ... and messages not yet sent are not freed with the connection (leak) *)
Theorem C42_server_queue_leak_refuted : forall m,
  match srun server0 [SCall (SSend m) []; SCall SDestroy []] with
  | Some (c, o) => s_alive c = false /\ accepted o = [m] /\ removed o = []
  | None => False end.
Proof. intros m. cbn. auto. Qed.
Example C42_witness : forall m n,
  let ops := [Call [AOpen true 3 true]; TimerEvent [AOpen true 3 true]; FdEvent false true false RAgain [] 0 SAll [ASend m];
              FdEvent true true false (RMsg n) [ASend n] 0 SAll []; FdEvent true true false (RMsg m) [AClose; ADestroy] EBADF SAll []] in
  Forall op_ok ops /\
  match run client0 ops with
  | Some (c, o) => c_alive c = false /\ o = [Opened; Ret 0; Closed; Down; Opened; Ret 0; Up; Acc m; Rx n; Acc n; Tried m SAll; Rx m; Closed; CloseCalled]
  | None => False end.
Proof.
  intros m n. split; [|vm_compute; auto]. unfold op_ok, acts_ok, no_destroy.
  repeat match goal with |- Forall _ _ => constructor end; cbn; repeat split; try (left; intuition discriminate); try discriminate; auto;
    try (intuition discriminate). right. exists []. cbn. intuition.
Qed.
Print Assumptions C42_life.
Print Assumptions C42_open.
Print Assumptions C42_safe.
Print Assumptions C42_destroy_open_refuted.
Print Assumptions C42_destroy_in_send_failure_refuted.
Print Assumptions C42_close_in_read_refuted.
Print Assumptions C42_server_closed_once.
Print Assumptions C42_ccm_error_refuted.
Print Assumptions C42_server_queue_leak_refuted.
