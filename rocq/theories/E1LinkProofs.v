From Coq Require Import List Arith Lia Bool ZArith String.
From Verif Require Import Base E1Model E1Spec E1Proofs.
Import ListNotations.
Open Scope Z_scope.

(** ** timeslots of live lines *)
Definition tsv (w : world) (lid n : nat) : option ts := do l <- find_line w lid; get (ln_ts l) n.

Definition at_ts (a b lid n : nat) : bool := Nat.eqb a lid && Nat.eqb b n.
Lemma at_ts_spec a b lid n : BoolSpec (a = lid /\ b = n) (a <> lid \/ b <> n) (at_ts a b lid n).
Proof. unfold at_ts. destruct (Nat.eqb_spec a lid), (Nat.eqb_spec b n); cbn; constructor; tauto. Qed.

(** every timeslot after the step is a timeslot before it, or the one changed to [t'], or new *)
Definition tsub (w w' : world) : Prop := forall a b x, tsv w' a b = Some x -> tsv w a b = Some x.
Definition tmod (w w' : world) lid n t' : Prop := forall a b x, tsv w' a b = Some x ->
  (a = lid /\ b = n /\ x = t') \/ ((a <> lid \/ b <> n) /\ tsv w a b = Some x).
Definition tnew (w w' : world) (src : option nat) : Prop := forall a b x, tsv w' a b = Some x ->
  tsv w a b = Some x \/ (a = w_next w /\ t_type x = TS_NONE /\ match src with None => x = ts_zero | Some lid => tsv w lid b = Some x end).
Definition src_of (o : op) : option nat := match o with Clone lid _ => Some lid | _ => None end.

Definition quiet (outs : list out) : Prop := Forall (fun o =>
  match o with Sent _ _ | LinkMade _ | LinkGone _ _ _ | SentRaw _ => False | _ => True end) outs.
Inductive effect (w : world) : op -> world -> list out -> Prop :=
| ef_none o w' outs : tsub w w' -> w_next w' = w_next w -> w_next_link w' = w_next_link w ->
    quiet outs -> match o with Create _ _ | Get _ _ | Put _ _ | LinkCreate _ _ _ _ _ | SendNull _ | Rx _ _ _ _ _ _ => True | _ => False end ->
    effect w o w' outs
| ef_new o w' outs : tnew w w' (src_of o) -> w_next w' = S (w_next w) -> w_next_link w' = w_next_link w -> outs = [Created (w_next w)] ->
    match o with Create _ _ | Clone _ _ => True | _ => False end -> effect w o w' outs
| ef_ts o w' outs lid n t t' : tsv w lid n = Some t -> tmod w w' lid n t' -> w_next w' = w_next w -> w_next_link w' = w_next_link w ->
    ts_op o lid n t t' outs -> effect w o w' outs
| ef_lc lid n ty tei sapi w' t t' : tsv w lid n = Some t -> tmod w w' lid n t' -> w_next w' = w_next w -> w_next_link w' = S (w_next_link w) ->
    ts_link_create t (w_next_link w) ty tei sapi = Some t' ->
    effect w (LinkCreate lid n ty tei sapi) w' [LinkMade (w_next_link w)]
| ef_ld id w' lid n t t' freed outs' : tsv w lid n = Some t -> tmod w w' lid n t' -> w_next w' = w_next w -> w_next_link w' = w_next_link w ->
    ts_has id t = true -> ts_link_destroy t id = Some (t', freed) -> (outs' = [] \/ exists l, outs' = frees w l) ->
    effect w (LinkDestroy id) w' (LinkGone id lid freed :: outs').

Lemma tsv_set w l l' : find_line w (ln_id l') = Some l -> forall a b,
  tsv (set_line w l') a b = if Nat.eqb a (ln_id l') then get (ln_ts l') b else tsv w a b.
Proof. intros F a b. unfold tsv. rewrite (find_set_line _ _ _ F). unfold updf. now destruct (Nat.eqb a (ln_id l')). Qed.
Lemma tsv_use_res w l l' w' outs : find_line w (ln_id l') = Some l -> use_res w l' w' outs -> forall a b x,
  tsv w' a b = Some x -> if Nat.eqb a (ln_id l') then get (ln_ts l') b = Some x else tsv w a b = Some x.
Proof.
  intros F U a b x. unfold tsv. rewrite (find_use_res _ _ _ _ _ F U). unfold updf, lres.
  destruct (Nat.eqb a (ln_id l')); [|auto]. destruct (0 <? use_total (ln_uses l')); [auto|discriminate].
Qed.
Lemma tmod_put_ts w l n t t' u : find_line w (ln_id l) = Some l -> get (ln_ts l) n = Some t -> 
  forall w' outs, use_res w (mkLine (ln_id l) (ln_num l) u (ln_ts (put_ts l n t')) (ln_ctr l)) w' outs -> tmod w w' (ln_id l) n t'.
Proof.
  intros F G w' outs U a b x H.
  apply (tsv_use_res w l _ _ _) with (3 := H) in U; [|exact F]. cbn [ln_id] in U.
  destruct (Nat.eqb_spec a (ln_id l)) as [->|Q]; [|right; split; auto].
  change (ln_ts (mkLine (ln_id l) (ln_num l) u (ln_ts (put_ts l n t')) (ln_ctr l))) with (ln_ts (put_ts l n t')) in U.
  rewrite get_put_ts with (t := t) in U by auto.
  destruct (Nat.eqb_spec b n) as [->|Q2]; [left; inversion U; auto|right; split; auto].
  unfold tsv. now rewrite F.
Qed.

Lemma step_effect w o w' outs : WF w -> step w o = Some (w', outs) -> effect w o w' outs.
Proof.
  intros W ST. pose proof (step_shape _ _ _ _ W ST) as SH. clear ST.
  assert (TSO : forall lid n l t t', find_line w lid = Some l -> get (ln_ts l) n = Some t -> ts_op o lid n t t' outs -> w' = set_line w (put_ts l n t') -> effect w o w' outs).
  { intros lid n l t t' F G T ->. pose proof (find_self _ _ _ F) as S. subst lid.
    apply ef_ts with (lid := ln_id l) (n := n) (t := t) (t' := t'); auto; [unfold tsv; now rewrite F|].
    refine (tmod_put_ts w l n t t' (ln_uses l) F G _ [] _). left. split; [|auto].
    exact (wf_pos w W l (proj1 (find_id_in _ _ _ F))). }
  destruct o; unfold shape in SH.
  - destruct SH as [(-> & -> & _)|(-> & F & -> & ->)].
    + apply ef_none; auto; [intros a b x; auto|repeat constructor].
    + apply ef_new; auto. intros a b x. unfold tsv. rewrite find_add_line by auto. unfold updf.
      destruct (Nat.eqb_spec a (w_next w)) as [->|Q]; [|auto]. intros H. right. 
      assert (E : x = ts_zero). { apply repeat_spec with (n := NUM_E1_TS). eapply nth_error_In. exact H. }
      subst. repeat split; auto.
  - destruct SH as (l & F & -> & -> & FA). apply ef_new; auto. intros a b x. unfold tsv. rewrite find_add_clone by auto. unfold updf.
    destruct (Nat.eqb_spec a (w_next w)) as [->|Q]; [|auto]. cbn. intros H. right. split; auto. split.
    + rewrite Forall_forall in FA. apply FA. eapply nth_error_In. exact H.
    + cbn. now rewrite F.
  - destruct SH as (l & F & -> & ->). pose proof (find_self _ _ _ F) as S. apply ef_none; auto; [|constructor].
    intros a b x. rewrite (tsv_set w l) by (cbn; congruence). cbn. destruct (Nat.eqb_spec a (ln_id l)); [|auto].
    subst. unfold tsv. now rewrite F.
  - destruct SH as (l & F & U). pose proof (find_self _ _ _ F) as S. apply ef_none.
    + intros a b x H. pose proof (tsv_use_res w l (with_uses l (use_add (ln_uses l) name (-1))) w' outs (eq_trans (f_equal (find_line w) S) F) U a b x H) as Q.
      cbn in Q. destruct (Nat.eqb_spec a (ln_id l)); [|auto]. subst. unfold tsv. now rewrite F.
    + destruct U as [[_ [-> _]]|[_ [-> _]]]; reflexivity.
    + destruct U as [[_ [-> _]]|[_ [-> _]]]; reflexivity.
    + destruct U as [[_ [_ ->]]|[_ [_ ->]]]; unfold frees; [constructor|].
      destruct (last_of _ _); repeat constructor.
    + exact I.
  - destruct SH as (lid' & n' & l & t & t' & F & G & T & E). eapply TSO; eauto.
  - destruct SH as (l & t & F & G & [(_ & -> & ->)|(t' & T & -> & ->)]).
    + apply ef_none; auto; [intros a b x; auto|repeat constructor].
    + pose proof (find_self _ _ _ F) as S. subst lid. apply ef_lc with (t := t) (t' := t'); auto; [unfold tsv; now rewrite F|].
      intros a b x H.
      refine (tmod_put_ts w l n t t' (use_add (ln_uses l) SIGN_LINK 1) F G (set_line w (with_uses (put_ts l n t') (use_add (ln_uses l) SIGN_LINK 1))) [] _ a b x H).
      left. repeat split. cbn. rewrite use_total_add. pose proof (wf_pos w W l (proj1 (find_id_in _ _ _ F))). lia.
  - destruct SH as (lid & n & l & t & t' & fr & outs' & F & G & HH & D & U & ->). pose proof (find_self _ _ _ F) as S. subst lid.
    apply ef_ld with (n := n) (t := t) (t' := t'); auto; [unfold tsv; now rewrite F| | | |].
    + exact (tmod_put_ts w l n t t' _ F G w' outs' U).
    + destruct U as [[_ [-> _]]|[_ [-> _]]]; reflexivity.
    + destruct U as [[_ [-> _]]|[_ [-> _]]]; reflexivity.
    + destruct U as [[_ [_ ->]]|[_ [_ ->]]]; eauto.
  - destruct SH as (lid' & n' & l & t & t' & F & G & T & E). eapply TSO; eauto.
  - destruct SH as [-> ->]. apply ef_none; auto; [intros a b x; auto|repeat constructor].
  - destruct SH as (lid' & n' & l & t & t' & F & G & T & E). eapply TSO; eauto.
  - destruct SH as (lid' & n' & l & t & t' & F & G & T & E). eapply TSO; eauto.
  - destruct SH as (lid' & n' & l & t & t' & F & G & T & E). eapply TSO; eauto.
  - destruct SH as [-> (l & t & F & G & ->)]. apply ef_none; auto; [intros a b x; auto|].
    destruct (e1inp_rx_ts t has_cb m tei sapi) as [rc []]; repeat constructor.
Qed.

(** ** structure of the links of a timeslot *)
Lemma type_eqb_eq a b : type_eqb a b = true <-> a = b.
Proof. destruct a, b; cbn; split; congruence. Qed.
Definition ts_ok (t : ts) : Prop :=
  (t_links t <> [] -> t_type t = TS_SIGN) /\ NoDup (map lk_id (t_links t)) /\
  (t_q t <> [] -> t_type t = TS_RAW \/ t_type t = TS_HDLC).
Definition info (l : link) : link_info := mkInfo (lk_id l) (lk_type l) (lk_tei l) (lk_sapi l).

Lemma config_spec t ty : let '(rc, t', freed) := e1inp_ts_config t ty in
  (t_type t = ty /\ t' = t /\ freed = []) \/
  (t_type t <> ty /\ t_type t' = ty /\ t_links t' = [] /\ t_q t' = [] /\ t_wr t' = t_wr t /\
   t_timer t' = match ty with TS_TRAU | TS_I460 => TGarbage | _ => t_timer t end /\
   freed = match t_type t with TS_RAW | TS_HDLC => t_q t | _ => [] end).
Proof.
  unfold e1inp_ts_config. destruct (type_eqb (t_type t) ty) eqn:E.
  - apply type_eqb_eq in E. left. auto.
  - assert (N : t_type t <> ty) by (intros Q; apply type_eqb_eq in Q; congruence).
    unfold cleanup_e1inp_ts. destruct (t_type t); right; repeat split; auto.
Qed.
Lemma dequeue_spec ls : match dequeue ls with
  | None => Forall (fun l => lk_q l = []) ls
  | Some (l, m, ls') => exists a b q, ls = a ++ l :: b /\ Forall (fun l => lk_q l = []) a /\ lk_q l = m :: q /\
      ls' = a ++ mkLink (lk_id l) (lk_type l) (lk_tei l) (lk_sapi l) q :: b
  end.
Proof.
  induction ls as [|a ls IH]; cbn; [constructor|]. destruct (lk_q a) as [|m q] eqn:Q.
  - destruct (dequeue ls) as [[[l m] ls']|].
    + destruct IH as (x & y & q & E1 & E2 & E3 & E4). exists (a :: x), y, q. subst. repeat split; auto.
    + constructor; auto.
  - exists [], ls, q. repeat split; auto.
Qed.
Lemma write_ready_spec t res t' : ts_write_ready t = Some (res, t') ->
  t_type t' = t_type t /\ map info (t_links t') = map info (t_links t) /\
  match res with
  | WrNone => t_links t' = t_links t /\ t_q t' = t_q t /\ t_timer t' = t_timer t /\
      (t_wr t' = t_wr t \/ (t_wr t' = false /\ (t_type t = TS_SIGN -> Forall (fun l => lk_q l = []) (t_links t)))) /\
      (t_wr t = true -> t_type t = TS_SIGN -> Forall (fun l => lk_q l = []) (t_links t))
  | WrQueued m => t_links t' = t_links t /\ t_q t = m :: t_q t' /\ t_timer t' = t_timer t /\ t_wr t' = true /\
      (t_type t = TS_RAW \/ t_type t = TS_HDLC)
  | WrSign l m => t_type t = TS_SIGN /\ t_q t' = t_q t /\ t_wr t = true /\ t_timer t' = TPending /\ t_timer t <> TGarbage /\
      exists a b q, t_links t = a ++ l :: b /\ Forall (fun l => lk_q l = []) a /\ lk_q l = m :: q /\
        t_links t' = a ++ mkLink (lk_id l) (lk_type l) (lk_tei l) (lk_sapi l) q :: b
  end.
Proof.
  unfold ts_write_ready. destruct (t_wr t) eqn:WR; cbn [negb].
  2:{ intros E; inversion E; subst. repeat split; auto; discriminate. }
  destruct (t_type t) eqn:TY.
  - intros E; inversion E; subst. repeat split; auto; congruence.
  - unfold e1inp_tx_ts. cbn [t_type t_links t_q t_i460 t_timer t_wr]. try rewrite TY.
    pose proof (dequeue_spec (t_links t)) as D. destruct (dequeue (t_links t)) as [[[l m] ls']|].
    + cbn [t_type t_links t_q t_i460 t_timer t_wr]. unfold osmo_timer_schedule. destruct (osmo_timer_del (t_timer t)) as [tm|] eqn:TD; [|discriminate].
      intros E; inversion E; subst. cbn. repeat split; auto.
      * destruct D as (a & b & q & E1 & E2 & E3 & E4). subst. rewrite E1, !map_app. reflexivity.
      * destruct (t_timer t); cbn in TD; congruence.
    + intros E; inversion E; subst. cbn. repeat split; auto.
  - intros E; inversion E; subst. repeat split; auto; congruence.
  - unfold e1inp_tx_ts. rewrite TY. destruct (t_q t) as [|m q] eqn:Q.
    + intros E; inversion E; subst. cbn. repeat split; auto; try congruence. right. split; [auto|congruence].
    + intros E; inversion E; subst. cbn. repeat split; auto.
  - unfold e1inp_tx_ts. rewrite TY. destruct (t_q t) as [|m q] eqn:Q.
    + intros E; inversion E; subst. cbn. repeat split; auto; try congruence. right. split; [auto|congruence].
    + intros E; inversion E; subst. cbn. repeat split; auto.
  - intros E; inversion E; subst. repeat split; auto; congruence.
Qed.
Lemma timeout_spec t : t_type (ts_timeout t) = t_type t /\ t_links (ts_timeout t) = t_links t /\ t_q (ts_timeout t) = t_q t.
Proof. unfold ts_timeout. destruct (t_timer t); auto. Qed.
Definition enq (id : nat) (m : msg) (l : link) : link :=
  if Nat.eqb (lk_id l) id then mkLink (lk_id l) (lk_type l) (lk_tei l) (lk_sapi l) (lk_q l ++ [m]) else l.
Lemma enq_info id m l : info (enq id m l) = info l.
Proof. unfold enq. now destruct (Nat.eqb (lk_id l) id). Qed.
Lemma ts_send_spec t id m : t_type (ts_send t id m) = t_type t /\ t_links (ts_send t id m) = map (enq id m) (t_links t) /\ t_q (ts_send t id m) = t_q t.
Proof. repeat split. Qed.
Lemma ids_info ls : map lk_id ls = map li_id (map info ls).
Proof. now rewrite map_map. Qed.
Lemma send_queue_spec t hdlc m t' : ts_send_queue t hdlc m = Some t' ->
  t_type t = (if hdlc then TS_HDLC else TS_RAW) /\ t_type t' = t_type t /\ t_links t' = t_links t /\ t_q t' = t_q t ++ [m].
Proof.
  unfold ts_send_queue. destruct (type_eqb (t_type t) _) eqn:E; [|discriminate]. apply type_eqb_eq in E.
  intros H; inversion H; subst; auto.
Qed.
Lemma link_create_spec t id ty tei sapi t' : ts_link_create t id ty tei sapi = Some t' ->
  t_type t = TS_SIGN /\ t_type t' = TS_SIGN /\ t_links t' = t_links t ++ [mkLink id ty tei sapi []] /\ t_q t' = t_q t.
Proof. unfold ts_link_create. destruct (t_type t); try discriminate. intros H; inversion H; subst. auto. Qed.
Lemma link_destroy_spec t id t' freed : ts_link_destroy t id = Some (t', freed) ->
  t_type t' = t_type t /\ t_q t' = t_q t /\ t_links t' = filter (fun l => negb (Nat.eqb (lk_id l) id)) (t_links t) /\
  exists l, In l (t_links t) /\ lk_id l = id /\ freed = lk_q l.
Proof.
  unfold ts_link_destroy. destruct (find _ (t_links t)) as [l|] eqn:F; [|discriminate].
  destruct (match t_type t with TS_SIGN => osmo_timer_del (t_timer t) | _ => Some (t_timer t) end) as [tm|]; [|discriminate].
  intros H; inversion H; subst. apply find_some in F. destruct F as [F1 F2]. apply Nat.eqb_eq in F2.
  repeat split; auto. exists l. auto.
Qed.

Lemma type_none_empty t : ts_ok t -> t_type t = TS_NONE -> t_links t = [] /\ t_q t = [].
Proof.
  intros (A & _ & C) N. split.
  - destruct (t_links t); [reflexivity|]. rewrite A in N; [discriminate|discriminate].
  - destruct (t_q t); [reflexivity|]. destruct C as [C|C]; [discriminate| |]; congruence.
Qed.
Lemma ts_zero_ok : ts_ok ts_zero.
Proof. repeat split; cbn; try congruence. constructor. Qed.

(** links after a timeslot operation come from links before it *)
Lemma ts_op_links o lid n t t' outs : ts_ok t -> ts_op o lid n t t' outs ->
  ts_ok t' /\ (forall k', In k' (t_links t') -> exists k, In k (t_links t) /\ info k' = info k) /\
  (match o with Config _ _ _ => t_links t' = [] \/ t' = t | _ => map info (t_links t') = map info (t_links t) end).
Proof.
  intros OK. assert (SAMEINFO : forall ls ls' : list link, map info ls' = map info ls -> forall k', In k' ls' -> exists k, In k ls /\ info k' = info k).
  { intros ls ls' E k' H. assert (X : In (info k') (map info ls)) by (rewrite <- E; now apply in_map).
    apply in_map_iff in X. destruct X as [k [X1 X2]]. exists k. auto. }
  assert (OKS : forall t2, t_type t2 = t_type t -> map info (t_links t2) = map info (t_links t) ->
     (t_q t2 <> [] -> t_type t = TS_RAW \/ t_type t = TS_HDLC) -> ts_ok t2).
  { intros t2 E1 E2 E3. destruct OK as (A & B & C). repeat split.
    - rewrite E1. intros H. apply A. destruct (t_links t); [|discriminate]. destruct (t_links t2); [congruence|discriminate].
    - rewrite ids_info, E2, <- ids_info. exact B.
    - rewrite E1. exact E3. }
  destruct o; cbn; try contradiction.
  - intros (_ & _ & -> & _). pose proof (config_spec t ty) as C. destruct (e1inp_ts_config t ty) as [[rc t'] freed]. cbn.
    destruct C as [(C1 & -> & _)|(C1 & C2 & C3 & C4 & _)].
    + repeat split; try apply OK; eauto.
    + repeat split; rewrite ?C3, ?C4; cbn; try congruence; try constructor; try contradiction. reflexivity.
  - intros (_ & -> & _). destruct (ts_send_spec t id m) as (S1 & S2 & S3).
    assert (E : map info (t_links (ts_send t id m)) = map info (t_links t)).
    { rewrite S2, map_map. apply map_ext. apply enq_info. }
    repeat split; [| | |exact (SAMEINFO _ _ E)|exact E].
    all: apply OKS; auto; rewrite S3; apply OK.
  - intros (_ & _ & S & _). apply send_queue_spec in S. destruct S as (S1 & S2 & S3 & S4).
    assert (E : map info (t_links t') = map info (t_links t)) by now rewrite S3.
    split; [|split; [exact (SAMEINFO _ _ E)|exact E]]. apply OKS; auto. intros _. rewrite S1. destruct hdlc; auto.
  - intros (_ & _ & res & S & _). apply write_ready_spec in S. destruct S as (S1 & S2 & S3).
    split; [|split; [exact (SAMEINFO _ _ S2)|exact S2]]. apply OKS; auto. destruct OK as (A & B & C).
    destruct res.
    + destruct S3 as (_ & -> & _). exact C.
    + destruct S3 as (_ & -> & _). exact C.
    + destruct S3 as (_ & _ & _ & _ & S3). auto.
  - intros (_ & _ & -> & _). destruct (timeout_spec t) as (S1 & S2 & S3).
    assert (E : map info (t_links (ts_timeout t)) = map info (t_links t)) by now rewrite S2.
    split; [|split; [exact (SAMEINFO _ _ E)|exact E]]. apply OKS; auto. rewrite S3. apply OK.
Qed.

Record KS (w : world) : Prop := {
  ks_ok : forall a b t, tsv w a b = Some t -> ts_ok t;
  ks_lt : forall a b t k, tsv w a b = Some t -> In k (t_links t) -> (lk_id k < w_next_link w)%nat;
  ks_uni : forall a b t k a' b' t' k', tsv w a b = Some t -> In k (t_links t) ->
    tsv w a' b' = Some t' -> In k' (t_links t') -> lk_id k = lk_id k' -> a = a' /\ b = b' }.

Lemma KS_sub w w' : KS w -> tsub w w' -> (w_next_link w <= w_next_link w')%nat -> KS w'.
Proof.
  intros [A B C] S L. constructor.
  - intros a b t H. eapply A. eauto.
  - intros a b t k H1 H2. pose proof (B a b t k (S _ _ _ H1) H2). lia.
  - intros a b t k a' b' t' k' H1 H2 H3 H4 H5. exact (C a b t k a' b' t' k' (S _ _ _ H1) H2 (S _ _ _ H3) H4 H5).
Qed.
Lemma KS_new w w' src : KS w -> tnew w w' src -> w_next_link w' = w_next_link w -> KS w'.
Proof.
  intros K S L. destruct K as [A B C] eqn:KE. 
  assert (NEW : forall a b x, tsv w' a b = Some x -> ts_ok x /\ (tsv w a b = Some x \/ (t_links x = []))).
  { intros a b x H. destruct (S _ _ _ H) as [H1|(H1 & H2 & H3)]; [|destruct src as [lid|]].
    - split; [eauto|auto].
    - split; [eauto|]. right. apply type_none_empty; eauto.
    - subst x. split; [apply ts_zero_ok|auto]. }
  constructor.
  - intros a b t H. now apply (NEW a b).
  - intros a b t k H1 H2. rewrite L. destruct (NEW _ _ _ H1) as [_ [X|X]]; [eauto|]. rewrite X in H2. contradiction.
  - intros a b t k a' b' t' k' H1 H2 H3 H4 H5.
    destruct (NEW _ _ _ H1) as [_ [X|X]]; [|rewrite X in H2; contradiction].
    destruct (NEW _ _ _ H3) as [_ [Y|Y]]; [|rewrite Y in H4; contradiction]. eauto.
Qed.
Lemma KS_mod w w' lid n t t' : KS w -> tsv w lid n = Some t -> tmod w w' lid n t' -> ts_ok t' ->
  (w_next_link w <= w_next_link w')%nat ->
  (forall k', In k' (t_links t') -> (exists k, In k (t_links t) /\ lk_id k' = lk_id k) \/ (w_next_link w = lk_id k' /\ w_next_link w < w_next_link w')%nat) -> KS w'.
Proof.
  intros [A B C] T S OK L IN. constructor.
  - intros a b x H. destruct (S _ _ _ H) as [(_ & _ & ->)|[_ H1]]; eauto.
  - intros a b x k H1 H2. destruct (S _ _ _ H1) as [(_ & _ & ->)|[_ H3]].
    + destruct (IN k H2) as [(k0 & K1 & K2)|[K1 K2]]; [|lia]. rewrite K2. pose proof (B _ _ _ _ T K1). lia.
    + pose proof (B _ _ _ _ H3 H2). lia.
  - intros a b x k a' b' x' k' H1 H2 H3 H4 H5.
    destruct (S _ _ _ H1) as [(-> & -> & ->)|[N1 X1]]; destruct (S _ _ _ H3) as [(-> & -> & ->)|[N2 X2]].
    + auto.
    + destruct (IN k H2) as [(k0 & K1 & K2)|[K1 K2]].
      * apply (C _ _ _ _ _ _ _ _ T K1 X2 H4). congruence.
      * pose proof (B _ _ _ _ X2 H4). lia.
    + destruct (IN k' H4) as [(k0 & K1 & K2)|[K1 K2]].
      * apply (C _ _ _ _ _ _ _ _ X1 H2 T K1). congruence.
      * pose proof (B _ _ _ _ X1 H2). lia.
    + eauto.
Qed.
Lemma filter_incl_ids (t : ts) id : NoDup (map lk_id (t_links t)) -> NoDup (map lk_id (filter (fun l => negb (Nat.eqb (lk_id l) id)) (t_links t))).
Proof. apply NoDup_map_filter. Qed.
Lemma lc_ok w lid n t t' ty tei sapi : KS w -> tsv w lid n = Some t -> ts_link_create t (w_next_link w) ty tei sapi = Some t' -> ts_ok t'.
Proof.
  intros K T S. apply link_create_spec in S. destruct S as (S1 & S2 & S3 & S4). pose proof (ks_ok w K _ _ _ T) as (A & B & C).
  repeat split.
  - auto.
  - rewrite S3, map_app. cbn. apply NoDup_snoc; auto. intros H. apply in_map_iff in H. destruct H as [k [K1 K2]].
    pose proof (ks_lt w K _ _ _ _ T K2). lia.
  - rewrite S4. intros H. specialize (C H). rewrite S1 in C. destruct C; discriminate.
Qed.
Lemma ld_ok t id t' freed : ts_ok t -> ts_link_destroy t id = Some (t', freed) -> ts_ok t'.
Proof.
  intros (A & B & C) S. apply link_destroy_spec in S. destruct S as (S1 & S2 & S3 & _). repeat split.
  - rewrite S1, S3. intros H. apply A. intros E. rewrite E in H. now apply H.
  - rewrite S3. now apply NoDup_map_filter.
  - rewrite S1, S2. exact C.
Qed.
Lemma KS_step w o w' outs : WF w -> KS w -> step w o = Some (w', outs) -> KS w'.
Proof.
  intros W K ST. apply step_effect in ST; auto. inversion ST as [? ? ? S N L _ _|? ? ? S N L _ _|? ? ? lid n t t' T M N L TO|lid n ty tei sapi ? t t' T M N L LC|id ? lid n t t' freed outs' T M N L HH LD _]; subst.
  - eapply KS_sub; eauto. lia.
  - eapply KS_new; eauto.
  - destruct (ts_op_links _ _ _ _ _ _ (ks_ok w K _ _ _ T) TO) as (X1 & X2 & _).
    eapply KS_mod; eauto; [lia|]. intros k' H. left. destruct (X2 k' H) as [k [H1 H2]]. exists k. split; auto. now inversion H2.
  - eapply KS_mod; eauto; [|lia|].
    + eapply lc_ok; eauto.
    + apply link_create_spec in LC. destruct LC as (_ & _ & LC & _). rewrite LC. intros k' H. apply in_app_or in H.
      destruct H as [H|[<-|[]]]; [left; eauto|right; cbn; lia].
  - eapply KS_mod; eauto; [|lia|].
    + eapply ld_ok; eauto. eapply ks_ok; eauto.
    + apply link_destroy_spec in LD. destruct LD as (_ & _ & LD & _). rewrite LD. intros k' H. apply filter_In in H. left. exists k'. tauto.
Qed.
Lemma KS0 : KS world0.
Proof. constructor; cbn; intros; discriminate. Qed.

(** ** message history of the links *)
Definition sub1 (e : op * list out) (id : nat) : list msg := match e with (Send i m, _) => if Nat.eqb i id then [m] else [] | _ => [] end.
Definition tr1 (e : op * list out) (id : nat) : list msg :=
  flat_map (fun o => match o with Sent i m => if Nat.eqb i id then [m] else [] | _ => [] end) (snd e).
Definition di1 (e : op * list out) (id : nat) : list msg :=
  flat_map (fun o => match o with LinkGone i _ ms => if Nat.eqb i id then ms else [] | _ => [] end) (snd e).
Definition gone1 (e : op * list out) (id : nat) : Prop := exists lid ms r, snd e = LinkGone id lid ms :: r.
Definition made1 (e : op * list out) (id : nat) : Prop := exists r, snd e = LinkMade id :: r.
Lemma submitted_snoc h e id : submitted (h ++ [e]) id = submitted h id ++ sub1 e id.
Proof. unfold submitted. rewrite flat_map_app. cbn. rewrite app_nil_r. destruct e as [o outs]. reflexivity. Qed.
Lemma transmitted_snoc h e id : transmitted (h ++ [e]) id = transmitted h id ++ tr1 e id.
Proof. unfold transmitted. rewrite flat_map_app. cbn. now rewrite app_nil_r. Qed.
Lemma discarded_snoc h e id : discarded (h ++ [e]) id = discarded h id ++ di1 e id.
Proof. unfold discarded. rewrite flat_map_app. cbn. now rewrite app_nil_r. Qed.
Lemma destroyed_snoc h e id : destroyed (h ++ [e]) id <-> destroyed h id \/ gone1 e id.
Proof.
  unfold destroyed, gone1. split.
  - intros (o & lid & ms & r & H). apply in_app_or in H. destruct H as [H|[->|[]]]; [left; eauto 8|right; cbn; eauto].
  - intros [(o & lid & ms & r & H)|(lid & ms & r & H)].
    + exists o, lid, ms, r. apply in_or_app; auto.
    + destruct e as [o outs]. cbn in H. subst. exists o, lid, ms, r. apply in_or_app. right. now left.
Qed.
Lemma made_snoc h e id : made (h ++ [e]) id <-> made h id \/ made1 e id.
Proof.
  unfold made, made1. split.
  - intros (o & r & H). apply in_app_or in H. destruct H as [H|[->|[]]]; [left; eauto|right; cbn; eauto].
  - intros [(o & r & H)|(r & H)].
    + exists o, r. apply in_or_app; auto.
    + destruct e as [o outs]. cbn in H. subst. exists o, r. apply in_or_app. right. now left.
Qed.

Definition live (w : world) (k : link) : Prop := exists a b t, tsv w a b = Some t /\ In k (t_links t).
Record KQ (w : world) (h : history) : Prop := {
  kq_q : forall k, live w k -> submitted h (lk_id k) = transmitted h (lk_id k) ++ lk_q k /\
    made h (lk_id k) /\ ~ destroyed h (lk_id k) /\ discarded h (lk_id k) = [];
  kq_new : forall id, (w_next_link w <= id)%nat ->
    submitted h id = [] /\ transmitted h id = [] /\ discarded h id = [] /\ ~ made h id /\ ~ destroyed h id;
  kq_pre : forall id, exists rest, submitted h id = transmitted h id ++ rest;
  kq_dest : forall id, destroyed h id -> submitted h id = transmitted h id ++ discarded h id }.

Lemma KQ_gen w h w' e : KQ w h -> (w_next_link w <= w_next_link w')%nat ->
  (forall k', live w' k' ->
     (exists k, live w k /\ lk_id k = lk_id k' /\ lk_q k ++ sub1 e (lk_id k') = tr1 e (lk_id k') ++ lk_q k' /\ ~ gone1 e (lk_id k') /\ di1 e (lk_id k') = []) \/
     (lk_id k' = w_next_link w /\ lk_q k' = [] /\ sub1 e (lk_id k') = [] /\ tr1 e (lk_id k') = [] /\ di1 e (lk_id k') = [] /\ made1 e (lk_id k') /\ ~ gone1 e (lk_id k'))) ->
  (forall id, sub1 e id <> [] \/ tr1 e id <> [] \/ di1 e id <> [] \/ gone1 e id ->
     exists k rest, live w k /\ lk_id k = id /\ lk_q k ++ sub1 e id = tr1 e id ++ rest /\ (gone1 e id -> rest = di1 e id)) ->
  (forall id, made1 e id -> id = w_next_link w /\ (w_next_link w < w_next_link w')%nat) ->
  (forall k, live w k -> (lk_id k < w_next_link w)%nat) ->
  KQ w' (h ++ [e]).
Proof.
  intros [Q N P D] L LV EV MD LT.
  assert (NIL : forall id, (sub1 e id = [] /\ tr1 e id = [] /\ di1 e id = [] /\ ~ gone1 e id) \/
     exists k rest, live w k /\ lk_id k = id /\ lk_q k ++ sub1 e id = tr1 e id ++ rest /\ (gone1 e id -> rest = di1 e id)).
  { intros id. destruct (sub1 e id) as [|x y] eqn:E1; [|right; destruct (EV id) as (k & rest & X); [left; congruence|rewrite E1 in X; eauto]].
    destruct (tr1 e id) as [|x y] eqn:E2; [|right; destruct (EV id) as (k & rest & X); [right; left; congruence|rewrite E1, E2 in X; eauto]].
    destruct (di1 e id) as [|x y] eqn:E3; [|right; destruct (EV id) as (k & rest & X); [right; right; left; congruence|rewrite E1, E2, E3 in X; eauto]].
    assert (G : gone1 e id \/ ~ gone1 e id).
    { unfold gone1. destruct (snd e) as [|[] r]; try (right; intros (? & ? & ? & ?); discriminate).
      destruct (Nat.eq_dec id0 id) as [->|Z]; [left; eauto|right; intros (? & ? & ? & ?); congruence]. }
    destruct G as [G|G]; [right|left; auto]. destruct (EV id) as (k & rest & X); [auto|]. rewrite E1, E2, E3 in X. eauto. }
  constructor.
  - intros k' H. rewrite submitted_snoc, transmitted_snoc, discarded_snoc, destroyed_snoc, made_snoc.
    destruct (LV k' H) as [(k & K1 & K2 & K3 & K4 & K5)|(K1 & K2 & K3 & K4 & K5 & K6 & K7)].
    + destruct (Q k K1) as (Q1 & Q2 & Q3 & Q4). rewrite K2 in *. rewrite Q1, Q4, K5, <- !app_assoc, K3. repeat split; tauto.
    + destruct (N (lk_id k')) as (N1 & N2 & N3 & N4 & N5); [lia|]. rewrite N1, N2, N3, K2, K3, K4, K5. repeat split; tauto.
  - intros id H. rewrite submitted_snoc, transmitted_snoc, discarded_snoc, destroyed_snoc, made_snoc.
    destruct (N id) as (N1 & N2 & N3 & N4 & N5); [lia|]. rewrite N1, N2, N3.
    destruct (NIL id) as [(X1 & X2 & X3 & X4)|(k & rest & X1 & X2 & _)].
    + rewrite X1, X2, X3. repeat split; try tauto. intros [Z|Z]; [tauto|]. apply MD in Z. lia.
    + pose proof (LT k X1). lia.
  - intros id. rewrite submitted_snoc, transmitted_snoc. destruct (NIL id) as [(X1 & X2 & X3 & X4)|(k & rest & X1 & X2 & X3 & X4)].
    + rewrite X1, X2, !app_nil_r. apply P.
    + exists rest. subst id. destruct (Q k X1) as (Q1 & _). rewrite Q1, <- !app_assoc. now rewrite X3.
  - intros id. rewrite submitted_snoc, transmitted_snoc, discarded_snoc, destroyed_snoc. intros DD.
    destruct (NIL id) as [(X1 & X2 & X3 & X4)|(k & rest & X1 & X2 & X3 & X4)].
    + rewrite X1, X2, X3, !app_nil_r. apply D. tauto.
    + subst id. destruct (Q k X1) as (Q1 & Q2 & Q3 & Q4). rewrite Q1, Q4, <- !app_assoc, X3. cbn. rewrite X4; tauto.
Qed.

Lemma quiet_nil outs o id : quiet outs -> tr1 (o, outs) id = [] /\ di1 (o, outs) id = [] /\ ~ gone1 (o, outs) id /\ ~ made1 (o, outs) id.
Proof.
  intros Q. repeat split.
  - unfold tr1. cbn. induction Q as [|x l H Q IH]; [reflexivity|]. cbn. rewrite IH. destruct x; try reflexivity; contradiction.
  - unfold di1. cbn. induction Q as [|x l H Q IH]; [reflexivity|]. cbn. rewrite IH. destruct x; try reflexivity; contradiction.
  - intros (a & b & r & E). cbn in E. subst. inversion Q; contradiction.
  - intros (r & E). cbn in E. subst. inversion Q; contradiction.
Qed.
Lemma live_lt w k : KS w -> live w k -> (lk_id k < w_next_link w)%nat.
Proof. intros K (a & b & t & T & I). eapply ks_lt; eauto. Qed.
Lemma live_same w k k' : KS w -> live w k -> live w k' -> lk_id k = lk_id k' -> k = k'.
Proof.
  intros K (a & b & t & T & I) (a' & b' & t' & T' & I') E.
  destruct (ks_uni w K _ _ _ _ _ _ _ _ T I T' I' E) as [-> ->]. assert (t' = t) by congruence. subst.
  destruct (ks_ok w K _ _ _ T) as (_ & ND & _). clear -ND I I' E.
  induction (t_links t) as [|x l IH]; [contradiction|]. cbn in *. inversion ND; subst.
  destruct I as [->|I], I' as [->|I']; auto.
  - exfalso. apply H1. rewrite E. now apply in_map.
  - exfalso. apply H1. rewrite <- E. now apply in_map.
Qed.
(** an event that neither sends, transmits, makes nor destroys *)
Lemma KQ_neutral w h w' o outs : KS w -> KQ w h -> w_next_link w' = w_next_link w ->
  (forall k, live w' k -> live w k) -> quiet outs -> match o with Send _ _ => False | _ => True end -> KQ w' (h ++ [(o, outs)]).
Proof.
  intros K Q L LV QU NS. assert (SN : forall id, sub1 (o, outs) id = []) by (intros id; destruct o; try reflexivity; contradiction).
  apply KQ_gen with (w := w); auto; [lia| | | |].
  - intros k H. left. exists k. destruct (quiet_nil outs o (lk_id k) QU) as (T1 & T2 & T3 & T4). rewrite SN, T1, T2, app_nil_r. auto 6.
  - intros id H. exfalso. destruct (quiet_nil outs o id QU) as (T1 & T2 & T3 & T4). rewrite SN, T1, T2 in H. tauto.
  - intros id H. exfalso. now apply (quiet_nil outs o id QU) in H.
  - intros k H. eapply live_lt; eauto.
Qed.
Lemma KQ_step w h o w' outs : WF w -> KS w -> KQ w h -> step w o = Some (w', outs) -> KQ w' (h ++ [(o, outs)]).
Proof.
  intros W K Q ST. apply step_effect in ST; auto.
  inversion ST as [? ? ? S N L QU OO|? ? ? S N L OE OO|? ? ? lid n t t' T M N L TO|lid n ty tei sapi ? t t' T M N L LC|id ? lid n t t' freed outs' T M N L HH LD OE]; subst.
  - apply KQ_neutral with (w := w); auto.
    + intros k (a & b & t & T & I). exists a, b, t. auto.
    + destruct o; auto.
  - apply KQ_neutral with (w := w); auto.
    + intros k (a & b & t & T & I). destruct (S _ _ _ T) as [T1|(_ & TY & T1)]; [|destruct (src_of o) as [lid|]].
      * exists a, b, t; auto.
      * destruct (type_none_empty t (ks_ok w K _ _ _ T1) TY) as [E _]. rewrite E in I. contradiction.
      * subst t. contradiction.
    + repeat constructor.
    + destruct o; auto.
  - (* timeslot operations *)
    assert (SAME : t_links t' = t_links t \/ t_links t' = [] -> forall k, live w' k -> live w k).
    { intros E k (a & b & x & X & I). destruct (M _ _ _ X) as [(-> & -> & ->)|[_ X1]]; [|exists a, b, x; auto].
      destruct E as [E|E]; rewrite E in I; [|contradiction]. exists lid, n, t; auto. }
    destruct o; cbn in TO; try contradiction.
    + destruct TO as (_ & _ & -> & ->). pose proof (config_spec t ty) as C. destruct (e1inp_ts_config t ty) as [[rc t'] fr]. cbn in *.
      apply KQ_neutral with (w := w); auto; [|repeat constructor]. apply SAME.
      destruct C as [(_ & -> & _)|(_ & _ & C & _)]; auto.
    + (* Send *) destruct TO as (HS & -> & ->). apply existsb_exists in HS. destruct HS as (k0 & K1 & K2). apply Nat.eqb_eq in K2.
      assert (LK0 : live w k0) by (exists lid, n, t; auto).
      apply KQ_gen with (w := w); auto; [lia| | | |].
      * intros k' (a & b & x & X & I). left. destruct (M _ _ _ X) as [(-> & -> & ->)|[NE X1]].
        -- rewrite (proj1 (proj2 (ts_send_spec t id m))) in I. apply in_map_iff in I. destruct I as (k & <- & I).
           exists k. split; [exists lid, n, t; auto|]. unfold enq. cbn [sub1]. destruct (Nat.eqb_spec (lk_id k) id) as [E|E]; cbn.
           ++ rewrite (Nat.eqb_sym id), E, Nat.eqb_refl. repeat split; auto. intros (? & ? & ? & G); discriminate.
           ++ destruct (Nat.eqb_spec id (lk_id k)); [congruence|]. rewrite app_nil_r. repeat split; auto. intros (? & ? & ? & G); discriminate.
        -- exists k'. split; [exists a, b, x; auto|]. cbn. destruct (Nat.eqb_spec id (lk_id k')) as [E|E].
           ++ exfalso. destruct (ks_uni w K _ _ _ _ _ _ _ _ T K1 X1 I) as [Z1 Z2]; [congruence|]. subst. tauto.
           ++ rewrite app_nil_r. repeat split; auto. intros (? & ? & ? & G); discriminate.
      * intros i H. cbn in H. destruct (Nat.eqb_spec id i) as [->|E].
        -- exists k0, (lk_q k0 ++ [m]). cbn. rewrite Nat.eqb_refl. repeat split; auto. intros (? & ? & ? & G); discriminate.
        -- destruct H as [H|[H|[H|H]]]; try congruence. destruct H as (? & ? & ? & G); discriminate.
      * intros i (r & G). discriminate.
      * intros k H. eapply live_lt; eauto.
    + destruct TO as (_ & _ & S & ->). apply send_queue_spec in S. destruct S as (_ & _ & S & _).
      apply KQ_neutral with (w := w); auto. repeat constructor.
    + (* WriteReady *) destruct TO as (_ & _ & res & S & ->). apply write_ready_spec in S. destruct S as (S1 & S2 & S3). destruct res.
      * apply KQ_neutral with (w := w); auto; [apply SAME; tauto|constructor].
      * destruct S3 as (TY & _ & _ & _ & _ & A & B & q & E1 & E2 & E3 & E4).
        assert (LK0 : live w l) by (exists lid, n, t; split; [exact T|]; rewrite E1; apply in_or_app; right; now left).
        destruct (ks_ok w K _ _ _ T) as (_ & ND & _).
        assert (OTH : forall k, In k A \/ In k B -> lk_id k <> lk_id l).
        { intros k H E. rewrite E1, map_app in ND. cbn in ND. apply NoDup_remove_2 in ND. apply ND. rewrite <- E. apply in_or_app.
          destruct H as [H|H]; [left|right]; now apply in_map. }
        apply KQ_gen with (w := w); auto; [lia| | | |].
        -- intros k' (a & b & x & X & I). left.
           assert (NSAME : forall k, live w k -> lk_id k <> lk_id l -> exists k2, live w k2 /\ lk_id k2 = lk_id k /\
             lk_q k2 ++ sub1 (WriteReady lid0 n0, [Sent (lk_id l) m]) (lk_id k) = tr1 (WriteReady lid0 n0, [Sent (lk_id l) m]) (lk_id k) ++ lk_q k /\
             ~ gone1 (WriteReady lid0 n0, [Sent (lk_id l) m]) (lk_id k) /\ di1 (WriteReady lid0 n0, [Sent (lk_id l) m]) (lk_id k) = []).
           { intros k H1 H2. exists k. split; [exact H1|]. cbn. destruct (Nat.eqb_spec (lk_id l) (lk_id k)); [congruence|].
             rewrite app_nil_r. repeat split; auto. intros (? & ? & ? & G); discriminate. }
           destruct (M _ _ _ X) as [(-> & -> & ->)|[NE X1]].
           ++ rewrite E4 in I. apply in_app_or in I. destruct I as [I|[<-|I]].
              ** apply NSAME; [|apply OTH; auto]. exists lid, n, t. split; [exact T|]. rewrite E1. apply in_or_app; auto.
              ** exists l. split; [exact LK0|]. cbn. rewrite Nat.eqb_refl. rewrite app_nil_r, E3. repeat split; auto. intros (? & ? & ? & G); discriminate.
              ** apply NSAME; [|apply OTH; auto]. exists lid, n, t. split; [exact T|]. rewrite E1. apply in_or_app; right; now right.
           ++ apply NSAME; [exists a, b, x; auto|]. intros E.
              assert (IL : In l (t_links t)) by (rewrite E1; apply in_or_app; right; now left).
              destruct (ks_uni w K _ _ _ _ _ _ _ _ X1 I T IL E). subst. tauto.
        -- intros i H. cbn in H. destruct (Nat.eq_dec (lk_id l) i) as [E|E].
           ++ subst i. exists l, q. cbn. rewrite Nat.eqb_refl, app_nil_r, E3. repeat split; auto. intros (? & ? & ? & G); discriminate.
           ++ apply Nat.eqb_neq in E. cbn in H. rewrite E in H. destruct H as [H|[H|[H|H]]]; cbn in H; try congruence. destruct H as (? & ? & ? & G); discriminate.
        -- intros i (r & G). discriminate.
        -- intros k H. eapply live_lt; eauto.
      * assert (LV : forall k, live w' k -> live w k) by (apply SAME; tauto).
        assert (QQ : KQ w' (h ++ [(WriteReady lid0 n0, [SentRaw m])])); [|exact QQ].
        apply KQ_gen with (w := w); auto; [lia| | | |].
        -- intros k H. left. exists k. split; [auto|]. cbn. rewrite app_nil_r. repeat split; auto. intros (? & ? & ? & G); discriminate.
        -- intros i H. cbn in H. destruct H as [H|[H|[H|H]]]; try congruence. destruct H as (? & ? & ? & G); discriminate.
        -- intros i (r & G). discriminate.
        -- intros k H. eapply live_lt; eauto.
    + destruct TO as (_ & _ & -> & ->). destruct (timeout_spec t) as (_ & S & _).
      apply KQ_neutral with (w := w); auto. constructor.
  - (* LinkCreate *) apply link_create_spec in LC. destruct LC as (C1 & C2 & C3 & C4).
    apply KQ_gen with (w := w); auto; [lia| | | |].
    + assert (NN : forall k, live w k -> lk_id k <> w_next_link w) by (intros k H E; apply live_lt in H; auto; lia).
      assert (NSAME : forall k, live w k -> exists k2, live w k2 /\ lk_id k2 = lk_id k /\
             lk_q k2 ++ sub1 (LinkCreate lid n ty tei sapi, [LinkMade (w_next_link w)]) (lk_id k) = tr1 (LinkCreate lid n ty tei sapi, [LinkMade (w_next_link w)]) (lk_id k) ++ lk_q k /\
             ~ gone1 (LinkCreate lid n ty tei sapi, [LinkMade (w_next_link w)]) (lk_id k) /\ di1 (LinkCreate lid n ty tei sapi, [LinkMade (w_next_link w)]) (lk_id k) = []).
      { intros k H1. exists k. split; [exact H1|]. cbn. rewrite app_nil_r. repeat split; auto. intros (? & ? & ? & G); discriminate. }
      intros k' (a & b & x & X & I). destruct (M _ _ _ X) as [(-> & -> & ->)|[NE X1]].
      * rewrite C3 in I. apply in_app_or in I. destruct I as [I|[<-|[]]].
        -- left. apply NSAME. exists lid, n, t; auto.
        -- right. cbn. repeat split; auto; [exists []; reflexivity|]. intros (? & ? & ? & G); discriminate.
      * left. apply NSAME. exists a, b, x; auto.
    + intros i H. cbn in H. destruct H as [H|[H|[H|H]]]; try congruence. destruct H as (? & ? & ? & G); discriminate.
    + intros i (r & G). inversion G. split; [auto|lia].
    + intros k H. eapply live_lt; eauto.
  - (* LinkDestroy *) apply link_destroy_spec in LD. destruct LD as (C1 & C2 & C3 & k0 & K1 & K2 & ->).
    assert (LK0 : live w k0) by (exists lid, n, t; auto).
    assert (QF : quiet outs').
    { destruct OE as [->|[l ->]]; [constructor|]. unfold frees. destruct (last_of w l); repeat constructor. }
    assert (E1 : forall i, tr1 (LinkDestroy id, LinkGone id lid (lk_q k0) :: outs') i = []).
    { intros i. destruct (quiet_nil outs' (LinkDestroy id) i QF) as (T1 & _). exact T1. }
    assert (E2 : forall i, di1 (LinkDestroy id, LinkGone id lid (lk_q k0) :: outs') i = if Nat.eqb id i then lk_q k0 else []).
    { intros i. destruct (quiet_nil outs' (LinkDestroy id) i QF) as (_ & T1 & _). unfold di1 in *. cbn in *. rewrite T1. apply app_nil_r. }
    assert (E3 : forall i, gone1 (LinkDestroy id, LinkGone id lid (lk_q k0) :: outs') i <-> i = id).
    { intros i. split; [intros (? & ? & ? & G); inversion G; auto|intros ->; cbn; unfold gone1; cbn; eauto]. }
    apply KQ_gen with (w := w); auto; [lia| | | |].
    + intros k' (a & b & x & X & I). left. exists k'.
      assert (HK : live w k' /\ lk_id k' <> id).
      { destruct (M _ _ _ X) as [(-> & -> & ->)|[NE X1]].
        - rewrite C3 in I. apply filter_In in I. destruct I as [I1 I2]. split; [exists lid, n, t; auto|].
          destruct (Nat.eqb_spec (lk_id k') id); [discriminate|auto].
        - split; [exists a, b, x; auto|]. intros E. destruct (ks_uni w K _ _ _ _ _ _ _ _ X1 I T K1); [congruence|]. subst. tauto. }
      destruct HK as [HK1 HK2]. rewrite E1, E2, E3. cbn [sub1]. rewrite app_nil_r.
      destruct (Nat.eqb_spec id (lk_id k')); [congruence|]. auto 6.
    + intros i H. rewrite E1, E2, E3 in H. cbn in H. destruct (Nat.eq_dec i id) as [->|Z].
      * exists k0, (lk_q k0). rewrite E1, E2. cbn. rewrite Nat.eqb_refl, app_nil_r. auto.
      * destruct (Nat.eqb_spec id i); [congruence|]. exfalso. tauto.
    + intros i (r & G). discriminate.
    + intros k H. eapply live_lt; eauto.
Qed.
Lemma KQ0 : KQ world0 [].
Proof.
  constructor.
  - intros k (a & b & t & T & _). discriminate.
  - intros id _. repeat split; auto; [intros (? & ? & [])|intros (? & ? & ? & ? & [])].
  - intros id. exists []. reflexivity.
  - intros id (? & ? & ? & ? & []).
Qed.
