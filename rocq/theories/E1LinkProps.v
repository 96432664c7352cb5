(** C38 (signalling links), C39 (transmit order), C40 (timeslot types) and C50 (no
    stalled message) of the E1 input layer. *)
From Coq Require Import List Arith Lia Bool ZArith String.
From Verif Require Import Base E1Model E1Spec E1Proofs E1LinkProofs E1TsProofs E1WakeProofs.
Import ListNotations.
Open Scope Z_scope.

Definition match_link (tei sapi : Z) (x : link_info) : bool := (li_sapi x =? sapi) && (li_tei x =? tei).

Lemma get_ts_tsv w lid n l t : get_ts w lid n = Some (l, t) -> tsv w lid n = Some t /\ find_line w lid = Some l /\ get (ln_ts l) n = Some t.
Proof.
  unfold get_ts, tsv. destruct (find_line w lid) as [l0|]; [|discriminate]. destruct (get (ln_ts l0) n) as [t0|] eqn:G; [|discriminate].
  intros H; inversion H; subst. auto.
Qed.
Lemma find_info tei sapi ls : option_map info (find (fun l => (lk_sapi l =? sapi) && (lk_tei l =? tei)) ls) = find (match_link tei sapi) (map info ls).
Proof. induction ls as [|k ls IH]; cbn; [reflexivity|]. unfold match_link at 1. cbn. destruct ((lk_sapi k =? sapi) && (lk_tei k =? tei)); [reflexivity|exact IH]. Qed.
Lemma lookup_links w h lid n t tei sapi : KAll w h -> careful h -> tsv w lid n = Some t ->
  option_map info (e1inp_lookup_sign_link t tei sapi) = find (match_link tei sapi) (links_of h lid n).
Proof. intros A C T. unfold e1inp_lookup_sign_link. rewrite find_info, (kh_links _ _ (ka_h _ _ A) _ _ _ C T). reflexivity. Qed.

(** ** C38 *)
(** a lookup returns the oldest link with that address made and not destroyed *)
Theorem C38_lookup : forall ops w h, run world0 ops = Some (w, h) -> careful h ->
  forall lid n l t tei sapi, get_ts w lid n = Some (l, t) ->
  option_map (fun k => mkInfo (lk_id k) (lk_type k) (lk_tei k) (lk_sapi k)) (e1inp_lookup_sign_link t tei sapi) =
  find (match_link tei sapi) (links_of h lid n).
Proof. intros ops w h R C lid n l t tei sapi G. apply get_ts_tsv in G. eapply lookup_links; eauto; [eapply KAll_run; eauto|apply G]. Qed.

(** a received message goes to exactly that link, or is freed with an error; and
    each type of timeslot delivers only to its own consumer *)
Definition rx_expected (h : history) (lid n : nat) (cb : bool) (m : msg) (tei sapi : Z) : list out :=
  match type_of h lid n with
  | TS_SIGN => match find (match_link tei sapi) (links_of h lid n) with
               | Some x => if cb then [Received (li_id x) m; Ret 0] else [MsgsFreed [m]; Ret (-2)]
               | None => [MsgsFreed [m]; Ret (-22)]
               end
  | TS_RAW | TS_HDLC => [ReceivedTs m; Ret 0]
  | TS_TRAU | TS_I460 => [ReceivedTs m; MsgsFreed [m]; Ret 0]
  | TS_NONE => [MsgsFreed [m]; Ret (-22)]
  end.
Theorem C38_rx : forall ops w h, run world0 ops = Some (w, h) -> careful h ->
  forall lid n cb m tei sapi, find_line w lid <> None -> (n < 32)%nat ->
  step w (Rx lid n cb m tei sapi) = Some (w, rx_expected h lid n cb m tei sapi).
Proof.
  intros ops w h R C lid n cb m tei sapi F N. pose proof (KAll_run _ _ _ R) as A. unfold step, get_ts.
  destruct (find_line w lid) as [l|] eqn:FL; [|congruence].
  assert (LEN : List.length (ln_ts l) = 32%nat) by (apply (wf_len w (li_wf _ _ (ka_l _ _ A))); apply (find_id_in _ _ _ FL)).
  destruct (get (ln_ts l) n) as [t|] eqn:G; [|unfold get in G; apply nth_error_None in G; lia].
  assert (T : tsv w lid n = Some t) by (unfold tsv; now rewrite FL).
  pose proof (lookup_links w h lid n t tei sapi A C T) as L. pose proof (kh_type _ _ (ka_h _ _ A) _ _ _ T) as TY.
  unfold rx_expected, e1inp_rx_ts. rewrite <- TY. destruct (t_type t); try reflexivity. rewrite <- L.
  destruct (e1inp_lookup_sign_link t tei sapi) as [k|]; cbn; [|reflexivity]. destruct cb; reflexivity.
Qed.

(** links are made on signalling timeslots only, each is new, and the library
    checks nothing else *)
Theorem C38_create : forall ops w h lid n ty tei sapi w' outs, run world0 ops = Some (w, h) ->
  step w (LinkCreate lid n ty tei sapi) = Some (w', outs) ->
  (type_of h lid n = TS_SIGN /\ exists id, outs = [LinkMade id] /\ ~ made h id) \/
  (type_of h lid n <> TS_SIGN /\ outs = [Refused] /\ w' = w).
Proof.
  intros ops w h lid n ty tei sapi w' outs R S. pose proof (KAll_run _ _ _ R) as A.
  pose proof (step_shape _ _ _ _ (li_wf _ _ (ka_l _ _ A)) S) as SH. cbn in SH.
  destruct SH as (l & t & F & G & SH). assert (T : tsv w lid n = Some t) by (unfold tsv; now rewrite F).
  rewrite <- (kh_type _ _ (ka_h _ _ A) _ _ _ T). destruct SH as [(X & -> & ->)|(t' & X & -> & ->)].
  - right. repeat split; auto.
  - left. apply link_create_spec in X. split; [apply X|]. eexists. split; [reflexivity|].
    apply (kq_new _ _ (ka_q _ _ A)). lia.
Qed.

Lemma live_of w h lid n t x : KAll w h -> careful h -> tsv w lid n = Some t -> In x (links_of h lid n) ->
  exists k, In k (t_links t) /\ info k = x /\ live w k.
Proof.
  intros A C T I. rewrite <- (kh_links _ _ (ka_h _ _ A) _ _ _ C T) in I. apply in_map_iff in I.
  destruct I as (k & K1 & K2). exists k. repeat split; auto. exists lid, n, t. auto.
Qed.
Lemma find_line_tsv w h lid n x : KAll w h -> find_line w lid <> None -> In x (links_of h lid n) -> careful h ->
  (n < 32)%nat -> exists l t, find_line w lid = Some l /\ get (ln_ts l) n = Some t /\ tsv w lid n = Some t.
Proof.
  intros A F I C N. destruct (find_line w lid) as [l|] eqn:FL; [|congruence].
  assert (LEN : List.length (ln_ts l) = 32%nat) by (apply (wf_len w (li_wf _ _ (ka_l _ _ A))); apply (find_id_in _ _ _ FL)).
  destruct (get (ln_ts l) n) as [t|] eqn:G; [|unfold get in G; apply nth_error_None in G; lia].
  exists l, t. repeat split; auto. unfold tsv. now rewrite FL.
Qed.

(** destroying a link frees exactly the messages it has not transmitted ... *)
Theorem C38_destroy : forall ops w h id w' outs, run world0 ops = Some (w, h) -> careful h ->
  step w (LinkDestroy id) = Some (w', outs) ->
  exists lid n freed rest, outs = LinkGone id lid freed :: rest /\ In id (map li_id (links_of h lid n)) /\
    submitted h id = transmitted h id ++ freed /\ ~ destroyed h id /\
    links_of (h ++ [(LinkDestroy id, outs)]) lid n = filter (fun x => negb (Nat.eqb (li_id x) id)) (links_of h lid n).
Proof.
  intros ops w h id w' outs R C S. pose proof (KAll_run _ _ _ R) as A.
  apply step_effect in S; [|apply A].
  inversion S as [? ? ? _ _ _ _ OO|? ? ? _ _ _ _ OO|? ? ? lid n t t' _ _ _ _ TO|lid n ty tei sapi ? t t' T M N L LC|? ? lid n t t' freed outs' T M N L HH LD OE]; subst; try contradiction.
  apply link_destroy_spec in LD. destruct LD as (_ & _ & _ & k & K1 & K2 & ->).
  exists lid, n, (lk_q k), outs'. split; [reflexivity|].
  destruct (kq_q _ _ (ka_q _ _ A) k) as (Q1 & Q2 & Q3 & Q4); [exists lid, n, t; auto|].
  rewrite <- (kh_links _ _ (ka_h _ _ A) _ _ _ C T). subst id. repeat split; auto.
  - rewrite map_map. apply in_map_iff. exists k. auto.
  - rewrite links_of_snoc, <- (kh_links _ _ (ka_h _ _ A) _ _ _ C T). reflexivity.
Qed.
Lemma received_only_rx w o w' outs id m : WF w -> step w o = Some (w', outs) -> In (Received id m) outs ->
  exists lid n l t cb tei sapi k, o = Rx lid n cb m tei sapi /\ get_ts w lid n = Some (l, t) /\
    e1inp_lookup_sign_link t tei sapi = Some k /\ lk_id k = id.
Proof.
  intros W S I. pose proof (step_shape _ _ _ _ W S) as SH.
  assert (FR : forall l, ~ In (Received id m) (frees w l)) by (intros l H; unfold frees in H; destruct (last_of w l); cbn in H; intuition discriminate).
  assert (UR : forall l w1 outs1, use_res w l w1 outs1 -> ~ In (Received id m) outs1).
  { intros l w1 outs1 [(_ & _ & ->)|(_ & _ & ->)]; [auto|apply FR]. }
  destruct o; cbn [shape] in SH.
  - destruct SH as [(_ & -> & _)|(_ & _ & _ & ->)]; cbn in I; intuition discriminate.
  - destruct SH as (l & _ & _ & -> & _). cbn in I; intuition discriminate.
  - destruct SH as (l & _ & _ & ->). contradiction.
  - destruct SH as (l & _ & U). exfalso. eapply UR; eauto.
  - destruct SH as (lid' & n' & l & t & t' & _ & _ & (_ & _ & _ & ->) & _). cbn in I. intuition discriminate.
  - destruct SH as (l & t & _ & _ & [(_ & _ & ->)|(t' & _ & _ & ->)]); cbn in I; intuition discriminate.
  - destruct SH as (lid & n & l & t & t' & fr & outs' & _ & _ & _ & _ & U & ->). destruct I as [I|I]; [discriminate|]. exfalso. eapply UR; eauto.
  - destruct SH as (lid' & n' & l & t & t' & _ & _ & (_ & _ & ->) & _). cbn in I. intuition discriminate.
  - destruct SH as (_ & ->). cbn in I. intuition discriminate.
  - destruct SH as (lid' & n' & l & t & t' & _ & _ & (_ & _ & _ & ->) & _). cbn in I. intuition discriminate.
  - destruct SH as (lid' & n' & l & t & t' & _ & _ & (_ & _ & res & _ & ->) & _). destruct res; cbn in I; intuition discriminate.
  - destruct SH as (lid' & n' & l & t & t' & _ & _ & (_ & _ & _ & ->) & _). contradiction.
  - destruct SH as (_ & l & t & F & G & ->). exists lid, n, l, t, has_cb, tei, sapi.
    unfold e1inp_rx_ts in I. destruct (t_type t); cbn in I; try (intuition discriminate).
    destruct (e1inp_lookup_sign_link t tei sapi) as [k|] eqn:L; [|cbn in I; intuition discriminate].
    destruct has_cb; cbn in I; [|intuition discriminate]. destruct I as [I|[I|[]]]; [|discriminate]. inversion I; subst.
    exists k. repeat split; auto. unfold get_ts. now rewrite F, G.
Qed.
Lemma sent_only_wr w o w' outs id m : WF w -> step w o = Some (w', outs) -> In (Sent id m) outs ->
  exists lid n t t' k, o = WriteReady lid n /\ outs = [Sent id m] /\ tsv w lid n = Some t /\ ts_write_ready t = Some (WrSign k m, t') /\ lk_id k = id.
Proof.
  intros W S I. apply step_effect in S; auto.
  assert (QN : forall l, quiet l -> ~ In (Sent id m) l).
  { intros l Q H. unfold quiet in Q. rewrite Forall_forall in Q. exact (Q _ H). }
  inversion S as [? ? ? _ _ _ QU OO|? ? ? _ _ _ OE OO|? ? ? lid n t t' T _ _ _ TO|? ? ? ? ? ? t t' T M N L LC|? ? ? ? t t' freed outs' T M N L HH LD OE]; subst.
  - exfalso. eapply QN; eauto.
  - cbn in I; intuition discriminate.
  - destruct o; cbn in TO; try contradiction.
    + destruct TO as (_ & _ & _ & ->). cbn in I. intuition discriminate.
    + destruct TO as (_ & _ & ->). cbn in I. intuition discriminate.
    + destruct TO as (_ & _ & _ & ->). cbn in I. intuition discriminate.
    + destruct TO as (-> & -> & res & WR & ->). destruct res; cbn in I; [contradiction| |intuition discriminate].
      destruct I as [I|[]]. inversion I; subst. exists lid, n, t, t', l. auto.
    + destruct TO as (_ & _ & _ & ->). contradiction.
  - cbn in I; intuition discriminate.
  - destruct I as [I|I]; [discriminate|]. destruct OE as [->|[l ->]]; [contradiction|].
    unfold frees in I. destruct (last_of w l); cbn in I; intuition discriminate.
Qed.
(** ... and from then on the link is never found, never receives, never transmits *)
Theorem C38_destroyed_is_final : forall ops w h id, run world0 ops = Some (w, h) -> destroyed h id ->
  (forall lid n l t tei sapi k, get_ts w lid n = Some (l, t) -> e1inp_lookup_sign_link t tei sapi = Some k -> lk_id k <> id) /\
  (forall o w' outs m, step w o = Some (w', outs) -> ~ In (Received id m) outs /\ ~ In (Sent id m) outs) /\
  (forall m, step w (Send id m) = None) /\ step w (LinkDestroy id) = None.
Proof.
  intros ops w h id R D. pose proof (KAll_run _ _ _ R) as A.
  assert (ND : forall a b t k, tsv w a b = Some t -> In k (t_links t) -> lk_id k <> id).
  { intros a b t k T I E. destruct (kq_q _ _ (ka_q _ _ A) k) as (_ & _ & X & _); [exists a, b, t; auto|]. subst. contradiction. }
  assert (LU : forall a b t tei sapi k, tsv w a b = Some t -> e1inp_lookup_sign_link t tei sapi = Some k -> lk_id k <> id).
  { intros a b t tei sapi k T L. unfold e1inp_lookup_sign_link in L. apply find_some in L. eapply ND; eauto. apply L. }
  assert (LO : locate w id = None).
  { destruct (locate w id) as [[lid n]|] eqn:L; [|reflexivity]. apply locate_some in L; [|apply A].
    destruct L as (l & t & F & G & H). unfold ts_has in H. apply existsb_exists in H. destruct H as (k & K1 & K2).
    apply Nat.eqb_eq in K2. exfalso. apply (ND lid n t k); auto. unfold tsv. now rewrite F. }
  split; [|split; [|split]].
  - intros lid n l t tei sapi k G. apply get_ts_tsv in G. apply (LU lid n). apply G.
  - intros o w' outs m S. split; intros I.
    + destruct (received_only_rx _ _ _ _ _ _ (li_wf _ _ (ka_l _ _ A)) S I) as (lid & n & l & t & cb & tei & sapi & k & _ & G & L & E).
      apply get_ts_tsv in G. exact (LU lid n t tei sapi k (proj1 G) L E).
    + destruct (sent_only_wr _ _ _ _ _ _ (li_wf _ _ (ka_l _ _ A)) S I) as (lid & n & t & t' & k & _ & _ & T & WR & E).
      apply write_ready_spec in WR. destruct WR as (_ & _ & _ & _ & _ & _ & _ & a & b & q & E1 & _).
      apply (ND lid n t k T); auto. rewrite E1. apply in_or_app. right. now left.
  - intros m. unfold step. now rewrite LO.
  - unfold step. now rewrite LO.
Qed.
(** not checked by the library: a second link with the same address on a timeslot is
    accepted and never receives anything while the first exists *)
Theorem C38_duplicate_address_refuted : forall m,
  match run world0 [Create 0 true; Config 0 1 TS_SIGN; LinkCreate 0 1 SIGN_OML 25 62; LinkCreate 0 1 SIGN_RSL 25 62; Rx 0 1 true m 25 62] with
  | Some (_, h) => map snd h = [[Created 0]; [MsgsFreed []; Ret 0]; [LinkMade 0]; [LinkMade 1]; [Received 0 m; Ret 0]]%nat
  | None => False end.
Proof. intros m. vm_compute. reflexivity. Qed.
Example C38_witness :
  match run world0 [Create 0 true; Config 0 1 TS_SIGN; LinkCreate 0 1 SIGN_OML 25 62; LinkCreate 0 1 SIGN_RSL 1 0; LinkDestroy 0;
                    LinkCreate 0 1 SIGN_OML 25 62] with
  | Some (w, h) => careful h /\ find_line w 0 <> None /\ destroyed h 0 /\
      links_of h 0 1 = [mkInfo 1 SIGN_RSL 1 0; mkInfo 2 SIGN_OML 25 62] /\
      rx_expected h 0 1 true [7] 25 62 = [Received 2 [7]; Ret 0]
  | None => False end.
Proof.
  vm_compute. repeat split; auto; try discriminate. exists (LinkDestroy 0), 0%nat, [], []. auto 10.
Qed.
Print Assumptions C38_lookup.
Print Assumptions C38_rx.
Print Assumptions C38_create.
Print Assumptions C38_destroy.
Print Assumptions C38_destroyed_is_final.
Print Assumptions C38_duplicate_address_refuted.

(** ** C39 *)
(** messages of a link leave in the order they were given, none twice, none invented *)
Theorem C39_fifo : forall ops w h id, run world0 ops = Some (w, h) -> exists rest, submitted h id = transmitted h id ++ rest.
Proof. intros ops w h id R. apply (kq_pre _ _ (ka_q _ _ (KAll_run _ _ _ R))). Qed.
(** once the link is destroyed, every message was transmitted or freed, in order *)
Theorem C39_all_accounted : forall ops w h id, run world0 ops = Some (w, h) -> destroyed h id ->
  submitted h id = transmitted h id ++ discarded h id.
Proof. intros ops w h id R. apply (kq_dest _ _ (ka_q _ _ (KAll_run _ _ _ R))). Qed.
(** only a write opportunity of the timeslot transmits; it takes one message, of the
    oldest link that has any waiting, and that link's oldest *)
Theorem C39_priority : forall ops w h o w' outs id m, run world0 ops = Some (w, h) -> careful h ->
  step w o = Some (w', outs) -> In (Sent id m) outs ->
  outs = [Sent id m] /\ exists lid n older x younger rest, o = WriteReady lid n /\ links_of h lid n = older ++ x :: younger /\ li_id x = id /\
    (forall y, In y older -> ~ waiting h (li_id y)) /\ submitted h id = transmitted h id ++ m :: rest.
Proof.
  intros ops w h o w' outs id m R C S I. pose proof (KAll_run _ _ _ R) as A.
  destruct (sent_only_wr _ _ _ _ _ _ (li_wf _ _ (ka_l _ _ A)) S I) as (lid & n & t & t' & k & -> & -> & T & WR & E).
  apply write_ready_spec in WR. destruct WR as (_ & _ & _ & _ & _ & _ & _ & a & b & q & E1 & E2 & E3 & _).
  split; [reflexivity|]. exists lid, n, (map info a), (info k), (map info b), q. split; [reflexivity|].
  rewrite <- (kh_links _ _ (ka_h _ _ A) _ _ _ C T), E1, map_app. repeat split; auto.
  - intros y Y. apply in_map_iff in Y. destruct Y as (j & <- & J). cbn. unfold waiting. intros X. apply X.
    destruct (kq_q _ _ (ka_q _ _ A) j) as (Q1 & _); [exists lid, n, t; split; auto; rewrite E1; apply in_or_app; auto|].
    rewrite Forall_forall in E2. rewrite (E2 j J), app_nil_r in Q1. exact Q1.
  - destruct (kq_q _ _ (ka_q _ _ A) k) as (Q1 & _); [exists lid, n, t; split; auto; rewrite E1; apply in_or_app; right; left; reflexivity|].
    rewrite E3, E in Q1. exact Q1.
Qed.
(** raw and HDLC timeslots: one queue, same order, what a reconfiguration frees included *)
Theorem C39_raw_fifo : forall ops w h lid n, run world0 ops = Some (w, h) -> find_line w lid <> None -> (n < 32)%nat ->
  exists rest, q_submitted h lid n = q_removed h lid n ++ rest.
Proof.
  intros ops w h lid n R F N. pose proof (KAll_run _ _ _ R) as A. destruct (find_line w lid) as [l|] eqn:FL; [|congruence].
  assert (LEN : List.length (ln_ts l) = 32%nat) by (apply (wf_len w (li_wf _ _ (ka_l _ _ A))); apply (find_id_in _ _ _ FL)).
  destruct (get (ln_ts l) n) as [t|] eqn:G; [|unfold get in G; apply nth_error_None in G; lia].
  exists (t_q t). apply (kh_q _ _ (ka_h _ _ A)). unfold tsv. now rewrite FL.
Qed.
(** not fair: while an older link keeps sending, a younger one never transmits *)
Fixpoint busy (k : nat) (m : msg) : list op :=
  match k with O => [] | S k => [Send 0 m; WriteReady 0 1; Timeout 0 1] ++ busy k m end.
Definition start (m : msg) : list op :=
  [Create 0 true; Config 0 1 TS_SIGN; LinkCreate 0 1 SIGN_OML 25 62; LinkCreate 0 1 SIGN_RSL 1 0; Send 1 m].
Theorem C39_starvation_refuted : forall m m' k,
  match run world0 (start m' ++ busy k m) with
  | Some (_, h) => submitted h 1 = [m'] /\ transmitted h 1 = [] /\ transmitted h 0 = repeat m k
  | None => False end.
Proof.
  intros m m' k. rewrite run_app.
  set (ts1 := mkTs TS_SIGN [mkLink 0 SIGN_OML 25 62 []; mkLink 1 SIGN_RSL 1 0 [m']] [] 0 TIdle true).
  set (u := [("ctor", 1); ("e1inp_sign_link", 2)]%string).
  set (w1 := mkWorld [mkLine 0 0 u (ts_zero :: ts1 :: repeat ts_zero 30) 0] [] [0%nat] 1 2).
  assert (E : exists h0, run world0 (start m') = Some (w1, h0) /\ submitted h0 1 = [m'] /\ transmitted h0 1 = [] /\ transmitted h0 0 = []).
  { destruct (run world0 (start m')) as [[w0 h0]|] eqn:R0; [|exfalso; vm_compute in R0; discriminate]. exists h0. vm_compute in R0. inversion R0; subst. vm_compute. auto. }
  destruct E as (h0 & E & S1 & S2 & S3). rewrite E. cbn [fst snd].
  assert (B : forall k, exists h1, run w1 (busy k m) = Some (w1, h1) /\ submitted h1 1 = [] /\ transmitted h1 1 = [] /\ transmitted h1 0 = repeat m k).
  { clear. induction k as [|k (h1 & R & B1 & B2 & B3)]; [exists []; auto|].
    exists ((Send 0 m, [Ret 0]) :: (WriteReady 0 1, [Sent 0 m]) :: (Timeout 0 1, []) :: h1).
    split; [|unfold submitted, transmitted in *; cbn; rewrite B3; auto].
    cbn [busy]. rewrite run_app.
    assert (C : run w1 [Send 0 m; WriteReady 0 1; Timeout 0 1] = Some (w1, [(Send 0 m, [Ret 0]); (WriteReady 0 1, [Sent 0 m]); (Timeout 0 1, [])])%nat) by (vm_compute; reflexivity).
    rewrite C. cbn [fst snd]. rewrite R. reflexivity. }
  destruct (B k) as (h1 & -> & B1 & B2 & B3). cbn [fst snd].
  unfold submitted, transmitted in *. rewrite !flat_map_app, S1, S2, S3, B1, B2, B3. auto.
Qed.
Example C39_witness : forall a b c,
  match run world0 (start c ++ [Send 0 a; Send 0 b; WriteReady 0 1; WriteReady 0 1; Timeout 0 1; WriteReady 0 1; Timeout 0 1]) with
  | Some (w, h) => careful h /\ transmitted h 0 = [a; b] /\ transmitted h 1 = [] /\
      match step w (WriteReady 0 1) with Some (_, outs) => outs = [Sent 1 c] | None => False end
  | None => False end.
Proof. intros. vm_compute. repeat split; auto. Qed.
Print Assumptions C39_fifo.
Print Assumptions C39_all_accounted.
Print Assumptions C39_priority.
Print Assumptions C39_raw_fifo.
Print Assumptions C39_starvation_refuted.

(** ** C40 *)
Lemma alive_ts w h lid n : KAll w h -> find_line w lid <> None -> (n < 32)%nat ->
  exists l t, find_line w lid = Some l /\ get (ln_ts l) n = Some t /\ tsv w lid n = Some t.
Proof.
  intros A F N. destruct (find_line w lid) as [l|] eqn:FL; [|congruence].
  assert (LEN : List.length (ln_ts l) = 32%nat) by (apply (wf_len w (li_wf _ _ (ka_l _ _ A))); apply (find_id_in _ _ _ FL)).
  destruct (get (ln_ts l) n) as [t|] eqn:G; [|unfold get in G; apply nth_error_None in G; lia].
  exists l, t. repeat split; auto. unfold tsv. now rewrite FL.
Qed.
(** a timeslot has the type last asked for, or none *)
Theorem C40_type_as_requested : forall ops w h lid n l t, run world0 ops = Some (w, h) ->
  get_ts w lid n = Some (l, t) -> t_type t = type_of h lid n.
Proof. intros ops w h lid n l t R G. apply get_ts_tsv in G. apply (kh_type _ _ (ka_h _ _ (KAll_run _ _ _ R))). apply G. Qed.
(** configuring always succeeds; asking for the present type changes nothing;
    another type leaves an empty timeslot, having freed exactly the messages a raw
    or HDLC queue still held; all other timeslots stay as they were *)
Theorem C40_config : forall ops w h lid n ty, run world0 ops = Some (w, h) -> find_line w lid <> None -> (n < 32)%nat ->
  exists w' freed l t l' t', step w (Config lid n ty) = Some (w', [MsgsFreed freed; Ret 0]) /\
    get_ts w lid n = Some (l, t) /\ get_ts w' lid n = Some (l', t') /\
    (type_of h lid n = ty -> t' = t /\ freed = []) /\
    (type_of h lid n <> ty -> t_type t' = ty /\ t_links t' = [] /\ t_q t' = [] /\ t_i460 t' = O /\
       q_submitted h lid n = q_removed h lid n ++ freed) /\
    (forall a b, (a <> lid \/ b <> n) -> option_map snd (get_ts w' a b) = option_map snd (get_ts w a b)).
Proof.
  intros ops w h lid n ty R F N. pose proof (KAll_run _ _ _ R) as A. destruct (alive_ts w h lid n A F N) as (l & t & FL & G & T).
  assert (GT : get_ts w lid n = Some (l, t)) by (unfold get_ts; now rewrite FL, G).
  pose proof (find_self _ _ _ FL) as SELF. pose proof (kh_type _ _ (ka_h _ _ A) _ _ _ T) as TY.
  pose proof (kh_q _ _ (ka_h _ _ A) _ _ _ T) as QQ. pose proof (ks_ok _ (ka_s _ _ A) _ _ _ T) as (_ & _ & QT).
  pose proof (config_rc t ty) as RC.
  unfold step. rewrite GT. destruct (e1inp_ts_config t ty) as [[rc t'] freed] eqn:CF. cbn in RC. subst rc.
  rewrite (set_ts_eq _ _ _ _ _ G). set (w' := set_line w (put_ts l n t')).
  assert (TV : forall a b, tsv w' a b = if Nat.eqb a lid then get (ln_ts (put_ts l n t')) b else tsv w a b).
  { intros a b. unfold w'. rewrite (tsv_set w l) by (cbn; congruence). cbn [ln_id put_ts with_ts]. now rewrite SELF. }
  assert (SN : forall v a b, option_map snd (get_ts v a b) = tsv v a b).
  { intros v a b. unfold get_ts, tsv. destruct (find_line v a) as [l0|]; [|reflexivity]. destruct (get (ln_ts l0) b); reflexivity. }
  assert (T' : tsv w' lid n = Some t') by (rewrite TV, Nat.eqb_refl, (get_put_ts l n t) by auto; now rewrite Nat.eqb_refl).
  destruct (get_ts w' lid n) as [[l' t'']|] eqn:G'; [|apply (f_equal (option_map snd)) in G'; rewrite SN, T' in G'; discriminate].
  assert (t'' = t') by (apply (f_equal (option_map snd)) in G'; rewrite SN, T' in G'; cbn in G'; congruence). subst t''.
  exists w', freed, l, t, l', t'. split; [reflexivity|]. split; [reflexivity|]. split; [exact G'|].
  rewrite <- TY. unfold e1inp_ts_config in CF. destruct (type_eqb (t_type t) ty) eqn:TE.
  - apply type_eqb_eq in TE. inversion CF; subst t' freed. split; [auto|]. split; [congruence|].
    intros a b NE. rewrite !SN, TV. destruct (Nat.eqb_spec a lid) as [->|]; [|reflexivity].
    rewrite (get_put_ts l n t) by auto. destruct (Nat.eqb_spec b n) as [->|]; [tauto|]. unfold tsv. now rewrite FL.
  - assert (TN : t_type t <> ty) by (intros X; apply type_eqb_eq in X; congruence). split; [contradiction|]. split.
    + intros _. destruct (cleanup_e1inp_ts t) as [[rc0 t0] fr0] eqn:CL. inversion CF; subst. cbn. repeat split; auto.
      rewrite QQ. f_equal. unfold cleanup_e1inp_ts in CL. destruct (t_type t); inversion CL; subst; auto;
        (destruct (t_q t0); [reflexivity|destruct QT; [discriminate|discriminate|discriminate]]).
    + intros a b NE. rewrite !SN, TV. destruct (Nat.eqb_spec a lid) as [->|]; [|reflexivity].
      rewrite (get_put_ts l n t) by auto. destruct (Nat.eqb_spec b n) as [->|]; [tauto|]. unfold tsv. now rewrite FL.
Qed.
(** not done by the code: refusing to reconfigure a signalling timeslot with links
    (cleanup_e1inp_ts returns -EINVAL, its callers drop it).  The call returns 0, the
    link keeps its waiting message and its reference on the line, and is unreachable *)
Theorem C40_busy_not_refused_refuted : forall m,
  match run world0 [Create 0 true; Config 0 1 TS_SIGN; LinkCreate 0 1 SIGN_OML 25 62; Send 0 m; Config 0 1 TS_RAW] with
  | Some (w, h) => last (map snd h) [] = [MsgsFreed []; Ret 0] /\ ~ destroyed h 0 /\ waiting h 0 /\ refs h 0 = 2 /\
      (forall m', step w (Send 0 m') = None) /\ step w (LinkDestroy 0) = None
  | None => False end.
Proof.
  intros m. vm_compute. repeat split; auto; try discriminate.
  intros (o & lid & ms & r & H). repeat (destruct H as [H|H]; [discriminate|]). contradiction.
Qed.
(** ... and a timeslot that once carried TRAU frames does not work as a signalling
    timeslot: its transmit timer reads as pending, so a message never wakes the
    driver, and destroying the link deletes a timer that is in no tree *)
Theorem C40_trau_then_sign_refuted : forall m k,
  match run world0 ([Create 0 true; Config 0 1 TS_TRAU; Config 0 1 TS_SIGN; LinkCreate 0 1 SIGN_OML 25 62; Send 0 m] ++ cycles 0 1 k) with
  | Some (w, h) => careful h /\ calm h /\ submitted h 0 = [m] /\ transmitted h 0 = [] /\ step w (LinkDestroy 0) = None
  | None => False end.
Proof.
  intros m k. rewrite run_app.
  set (pre := [Create 0 true; Config 0 1 TS_TRAU; Config 0 1 TS_SIGN; LinkCreate 0 1 SIGN_OML 25 62; Send 0 m]).
  set (ts1 := mkTs TS_SIGN [mkLink 0 SIGN_OML 25 62 [m]] [] 0 TGarbage false).
  set (w1 := mkWorld [mkLine 0 0 [("ctor", 1); ("e1inp_sign_link", 1)]%string (ts_zero :: ts1 :: repeat ts_zero 30) 0] [] [0%nat] 1 1).
  assert (E : exists h0, run world0 pre = Some (w1, h0) /\ careful h0 /\ calm h0 /\ submitted h0 0 = [m] /\ transmitted h0 0 = []).
  { destruct (run world0 pre) as [[w0 h0]|] eqn:R0; [|exfalso; vm_compute in R0; discriminate]. exists h0. vm_compute in R0.
    inversion R0; subst. vm_compute. repeat split; auto. }
  destruct E as (h0 & E & C1 & C2 & S1 & S2). rewrite E. cbn [fst snd].
  assert (B : forall k, exists h1, run w1 (cycles 0 1 k) = Some (w1, h1) /\ no_io h1 /\ transmitted h1 0 = []).
  { clear. induction k as [|k (h1 & R & B1 & B2)]; [exists []; repeat split; constructor|].
    exists ((WriteReady 0 1, []) :: (Timeout 0 1, []) :: h1). split; [|split; [repeat constructor; exact B1|exact B2]].
    cbn [cycles]. rewrite run_app.
    assert (C : run w1 (cycle 0 1) = Some (w1, [(WriteReady 0 1, []); (Timeout 0 1, [])])%nat) by (vm_compute; reflexivity).
    rewrite C. cbn [fst snd]. rewrite R. reflexivity. }
  destruct (B k) as (h1 & -> & B1 & B2). cbn [fst snd].
  split; [now apply no_io_careful|]. split.
  { clear -C2 B1. induction h1 as [|e h1 IH] using rev_ind; [now rewrite app_nil_r|].
    apply Forall_app in B1. destruct B1 as [N1 N2]. inversion N2; subst. rewrite app_assoc. apply calm_snoc. split; [auto|].
    destruct e as [[] ?]; cbn in *; auto; contradiction. }
  pose proof (no_io_submitted h1 0 B1) as B3. unfold submitted, transmitted in *. rewrite !flat_map_app, S1, S2, B2, B3.
  split; [reflexivity|]. split; [reflexivity|]. vm_compute. reflexivity.
Qed.
Example C40_witness : forall m,
  match run world0 [Create 0 true; Config 0 1 TS_RAW; SendQueue 0 1 false m] with
  | Some (w, h) => find_line w 0 <> None /\ type_of h 0 1 = TS_RAW /\
      match step w (Config 0 1 TS_SIGN) with Some (_, outs) => outs = [MsgsFreed [m]; Ret 0] | None => False end
  | None => False end.
Proof. intros m. vm_compute. repeat split; auto; discriminate. Qed.
Print Assumptions C40_type_as_requested.
Print Assumptions C40_config.
Print Assumptions C40_busy_not_refused_refuted.
Print Assumptions C40_trau_then_sign_refuted.

(** ** C50 *)
(** every message accepted for a link goes out: if the driver's file descriptor is
    serviced and the delay timer runs often enough, all links of the timeslot end
    with everything transmitted.  [cycles]: the fd is writable, then the timer
    expires, k times *)
Theorem C50_no_stall : forall ops w h lid n, run world0 ops = Some (w, h) ->
  careful h -> calm h -> was_trau h lid n = false -> type_of h lid n = TS_SIGN -> find_line w lid <> None -> (n < 32)%nat ->
  exists K, forall k, (K <= k)%nat -> exists w' h', run w (cycles lid n k) = Some (w', h') /\
    forall x, In x (links_of h lid n) -> transmitted (h ++ h') (li_id x) = submitted h (li_id x).
Proof.
  intros ops w h lid n R C CM WT TY F N. pose proof (KAll_run _ _ _ R) as A.
  destruct (alive_ts w h lid n A F N) as (l & t & FL & G & T).
  rewrite <- (kh_type _ _ (ka_h _ _ A) _ _ _ T) in TY.
  pose proof (kh_garb _ _ (ka_h _ _ A) _ _ _ T WT) as NG.
  assert (AW : pend t = O \/ awake t).
  { destruct (Nat.eq_dec (pend t) O) as [E|E]; [auto|]. right. apply (KW_run _ _ _ R C CM lid n t T WT TY). now apply pend_pos. }
  exists (rank t). intros k K. destruct (drain lid n k w t T TY NG AW (or_intror K)) as (w' & h' & t' & R' & NI & T' & P & IN).
  exists w', h'. split; [exact R'|].
  assert (RR : run world0 (ops ++ cycles lid n k) = Some (w', h ++ h')) by (rewrite run_app, R; cbn [fst snd]; rewrite R'; reflexivity).
  pose proof (KAll_run _ _ _ RR) as A'.
  intros x X. rewrite <- (kh_links _ _ (ka_h _ _ A) _ _ _ C T), <- IN in X. apply in_map_iff in X. destruct X as (j & <- & J).
  destruct (kq_q _ _ (ka_q _ _ A') j) as (Q & _); [exists lid, n, t'; auto|].
  rewrite (pend_zero t' P j J), app_nil_r in Q. cbn. rewrite <- Q. unfold submitted at 1. rewrite flat_map_app.
  fold (submitted h (lk_id j)). fold (submitted h' (lk_id j)). rewrite (no_io_submitted h' _ NI). now rewrite app_nil_r.
Qed.
(** not a theorem without [calm]: destroying a link deletes the delay timer of the
    whole timeslot, and another link's message then waits for ever *)
Theorem C50_destroy_stalls_refuted : forall m m' k,
  match run world0 ([Create 0 true; Config 0 1 TS_SIGN; LinkCreate 0 1 SIGN_OML 25 62; LinkCreate 0 1 SIGN_RSL 1 0;
                     Send 0 m; WriteReady 0 1; Send 1 m'; LinkDestroy 0] ++ cycles 0 1 k) with
  | Some (w, h) => careful h /\ was_trau h 0 1 = false /\ links_of h 0 1 = [mkInfo 1 SIGN_RSL 1 0] /\
      submitted h 1 = [m'] /\ transmitted h 1 = []
  | None => False end.
Proof.
  intros m m' k. rewrite run_app.
  set (pre := [Create 0 true; Config 0 1 TS_SIGN; LinkCreate 0 1 SIGN_OML 25 62; LinkCreate 0 1 SIGN_RSL 1 0;
                     Send 0 m; WriteReady 0 1; Send 1 m'; LinkDestroy 0]).
  set (ts1 := mkTs TS_SIGN [mkLink 1 SIGN_RSL 1 0 [m']] [] 0 TIdle false).
  set (w1 := mkWorld [mkLine 0 0 [("ctor", 1); ("e1inp_sign_link", 1)]%string (ts_zero :: ts1 :: repeat ts_zero 30) 0] [] [0%nat] 1 2).
  assert (E : exists h0, run world0 pre = Some (w1, h0) /\ careful h0 /\ was_trau h0 0%nat 1%nat = false /\ links_of h0 0 1 = [mkInfo 1 SIGN_RSL 1 0] /\ submitted h0 1 = [m'] /\ transmitted h0 1 = []).
  { destruct (run world0 pre) as [[w0 h0]|] eqn:R0; [|exfalso; vm_compute in R0; discriminate]. exists h0. vm_compute in R0.
    inversion R0; subst. vm_compute. repeat split; auto. }
  destruct E as (h0 & E & C1 & W1 & L1 & S1 & S2). rewrite E. cbn [fst snd].
  assert (B : forall k, exists h1, run w1 (cycles 0 1 k) = Some (w1, h1) /\ no_io h1 /\ Forall (fun e => snd e = []) h1).
  { clear. induction k as [|k (h1 & R & B1 & B2)]; [exists []; repeat split; constructor|].
    exists ((WriteReady 0 1, []) :: (Timeout 0 1, []) :: h1). split; [|split; [repeat constructor; exact B1|repeat constructor; exact B2]].
    cbn [cycles]. rewrite run_app.
    assert (C : run w1 (cycle 0 1) = Some (w1, [(WriteReady 0 1, []); (Timeout 0 1, [])])%nat) by (vm_compute; reflexivity).
    rewrite C. cbn [fst snd]. rewrite R. reflexivity. }
  destruct (B k) as (h1 & -> & B1 & B2). cbn [fst snd].
  split; [now apply no_io_careful|]. pose proof (no_io_submitted h1 1 B1) as B3.
  assert (TR : transmitted h1 1 = []).
  { clear -B2. unfold transmitted. induction B2 as [|e h1 X _ IH]; [reflexivity|]. cbn. now rewrite X, IH. }
  assert (LK : was_trau (h0 ++ h1) 0%nat 1%nat = false /\ links_of (h0 ++ h1) 0 1 = [mkInfo 1 SIGN_RSL 1 0]).
  { clear -B1 B2 W1 L1. induction h1 as [|e h1 IH] using rev_ind; [rewrite app_nil_r; auto|].
    apply Forall_app in B1, B2. destruct B1 as [N1 N2], B2 as [M1 M2]. inversion N2; inversion M2; subst.
    destruct (IH N1 M1) as [I1 I2]. rewrite app_assoc, was_trau_snoc, links_of_snoc, I2. destruct e as [o outs]. cbn in *. subst outs.
    destruct o; try contradiction; cbn; auto. }
  destruct LK as [L2 L3]. unfold submitted, transmitted in *. rewrite !flat_map_app, S1, S2, TR, B3. auto.
Qed.
Example C50_witness : forall m m',
  match run world0 [Create 0 true; Config 0 1 TS_SIGN; LinkCreate 0 1 SIGN_OML 25 62; LinkCreate 0 1 SIGN_RSL 1 0;
                    Send 0 m; LinkDestroy 0; Send 1 m'; WriteReady 0 1; Send 1 m] with
  | Some (w, h) => careful h /\ calm h /\ was_trau h 0 1 = false /\ type_of h 0 1 = TS_SIGN /\ find_line w 0 <> None /\
      waiting h 1
  | None => False end.
Proof.
  intros m m'. vm_compute. repeat split; auto; try discriminate.
  intros [|lid] [|[|n]] H1 x H2; cbn in *; try contradiction; intros; intuition (subst; cbn in *; try congruence).
Qed.
Print Assumptions C50_no_stall.
Print Assumptions C50_destroy_stalls_refuted.
