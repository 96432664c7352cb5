(** C48: the unix-socket driver, all datagrams, all histories, all behaviours of the
    kernel. *)
From Coq Require Import List Arith Lia Bool ZArith.
From Verif Require Import Base E1Model UnixModel.
Import ListNotations.
Open Scope Z_scope.

(** ** Specification *)
(** unixsocket_proto.h:8-22: version 1; type 0 data, 1 control; set_altc payload: magic
    0x23004200 in network byte order, new state *)
Definition data_packet (lapd : list Z) : list Z := [1; 0] ++ lapd.
Definition be32 (v : Z) : list Z := [v / 2^24 mod 256; v / 2^16 mod 256; v / 2^8 mod 256; v mod 256].
Definition altc_packet (superchannel : bool) : list Z := [1; 1] ++ be32 0x23004200 ++ [if superchannel then 1 else 0].

(** datagrams written that are data packets, and the writes of a trace *)
Definition is_data (d : list Z) : bool := match d with 1 :: 0 :: _ => true | _ => false end.
Fixpoint data_writes (es : list eff) : list (list Z) :=
  match es with
  | [] => []
  | EWrite _ d _ :: r => if is_data d then d :: data_writes r else data_writes r
  | _ :: r => data_writes r
  end.
Fixpoint ups (es : list eff) : list (list Z) :=
  match es with [] => [] | EUp d :: r => d :: ups r | _ :: r => ups r end.

(** the descriptors of this driver that are open, and those in the select loop,
    after a trace *)
Fixpoint drop (x : Z) (l : list Z) : list Z :=
  match l with [] => [] | y :: r => if x =? y then r else y :: drop x r end.
Definition open1 (l : list Z) (e : eff) : list Z :=
  match e with EConn fd => fd :: l | EClose fd => drop fd l | _ => l end.
Definition open_fds (es : list eff) : list Z := fold_left open1 es [].
Definition sel1 (l : list Z) (e : eff) : list Z :=
  match e with EReg fd true => fd :: l | EUnreg fd => drop fd l | _ => l end.
Definition selected (es : list eff) : list Z := fold_left sel1 es [].
(** one effect is correct after [pre]: only open descriptors of this driver are
    written or closed, a descriptor is put into the select loop once, and only
    closed when it is no longer in it *)
Definition eff_ok (pre : list eff) (e : eff) : Prop :=
  match e with
  | EWrite fd _ _ => In fd (open_fds pre)
  | EClose fd => In fd (open_fds pre) /\ ~ In fd (selected pre)
  | EReg fd _ => In fd (open_fds pre) /\ selected pre = []
  | EUnreg fd => In fd (selected pre)
  | _ => True
  end.
Definition fds_used_ok (es : list eff) : Prop :=
  forall pre e post, es = pre ++ e :: post -> eff_ok pre e.
(** the environment is kind: every connect and registration of the trace succeeds *)
Definition no_failure (es : list eff) : Prop := ~ In EFail es /\ forall fd, ~ In (EReg fd false) es.

(** ** Receive *)
(** a received datagram that fits the receive buffer is passed up, once and
    unchanged, iff it is a data packet; otherwise nothing is passed up and an error
    is returned *)
Theorem C48_rx : forall e s d, (length d <= 1584)%nat ->
  (exists p, d = data_packet p /\ read_cb e s (RdData d) = ([EUp p], s, e, 0)) \/
  ((forall p, d <> data_packet p) /\ exists rc, read_cb e s (RdData d) = ([], s, e, rc) /\ rc < 0).
Proof.
  intros e s d L. unfold read_cb, data_packet. rewrite firstn_all2 by (change (ALLOC_SIZE - 16)%nat with 1584%nat; lia).
  destruct d as [|v [|c m]].
  - right. split; [intros p; discriminate|]. eexists. split; [reflexivity|lia].
  - right. split; [intros p; discriminate|]. eexists. split; [reflexivity|lia].
  - unfold PROTO_VERSION, PROTO_DATA. destruct (Z.eqb_spec v 1) as [->|N]; cbn [negb].
    + destruct (Z.eqb_spec c 0) as [->|N].
      * left. exists m. split; reflexivity.
      * right. split; [intros p H; cbn in H; congruence|]. eexists. split; [reflexivity|lia].
    + right. split; [intros p H; cbn in H; congruence|]. eexists. split; [reflexivity|lia].
Qed.
(** a longer datagram is cut without notice *)
Theorem C48_rx_oversize_refuted : exists e s p, read_cb e s (RdData (data_packet p)) = ([EUp (firstn 1582 p)], s, e, 0) /\ firstn 1582 p <> p.
Proof.
  exists ([], []), (ust0 []), (repeat 7 1583). split; [vm_compute; reflexivity|].
  intros H. apply (f_equal (@length Z)) in H. rewrite firstn_length, repeat_length in H. vm_compute in H. discriminate.
Qed.

(** ** Transmit *)
Lemma data_writes_app a b : data_writes (a ++ b) = data_writes a ++ data_writes b.
Proof. induction a as [|x a IH]; [reflexivity|]. destruct x; cbn; rewrite ?IH; try reflexivity. destruct (is_data d); reflexivity. Qed.
Lemma ups_app a b : ups (a ++ b) = ups a ++ ups b.
Proof. induction a as [|x a IH]; [reflexivity|]. destruct x; cbn; rewrite ?IH; reflexivity. Qed.
Lemma update_quiet cs : forall ws s es s' e rc, line_update cs ws s = (es, s', e, rc) ->
  data_writes es = [] /\ ups es = [].
Proof.
  induction cs as [|[rc0|fd reg] cs IH]; intros ws s es s' e rc H; cbn [line_update] in H.
  - injection H as <- _ _ _. split; reflexivity.
  - injection H as <- _ _ _. split; reflexivity.
  - destruct reg; [|injection H as <- _ _ _; split; reflexivity].
    destruct (pop_write ws) as [ok ws']. destruct ok; [injection H as <- _ _ _; split; reflexivity|].
    unfold drop_fd in H. cbn [u_reg u_fd] in H.
    destruct (line_update cs ws' _) as [[[e2 s2] ev2] rc2] eqn:E. injection H as <- _ _ _. apply IH in E. destruct E as [E1 E2].
    split; [exact E1|exact E2].
Qed.
Lemma exc_quiet e s es s' e' rc : exception_cb e s = (es, s', e', rc) -> data_writes es = [] /\ ups es = [].
Proof.
  unfold exception_cb, drop_fd. destruct (line_update _ _ _) as [[[e2 s2] ev2] rc2] eqn:E. apply update_quiet in E. destruct E as [E1 E2].
  intros H. injection H as <- _ _ _. rewrite !data_writes_app, !ups_app, E1, E2. destruct (u_reg s); split; reflexivity.
Qed.

(** the LAPD messages handed to the driver in a history, in order, each becomes
    exactly one write of its data packet, and no other data packet is written; what
    is passed up is what arrived in data packets *)
Fixpoint lapd_sent (vs : list ev) : list (list Z) :=
  match vs with [] => [] | LapdTx m :: r => m :: lapd_sent r | _ :: r => lapd_sent r end.
Fixpoint arrived (vs : list ev) : list (list Z) :=
  match vs with [] => [] | Readable (RdData d) :: r => d :: arrived r | _ :: r => arrived r end.
Lemma lapd_stays cs : forall ws s es s' e rc, line_update cs ws s = (es, s', e, rc) -> u_lapd s = true -> u_lapd s' = true.
Proof.
  induction cs as [|[rc0|fd reg] cs IH]; intros ws s es s' e rc H L; cbn [line_update] in H.
  - injection H as _ <- _ _. exact L.
  - injection H as _ <- _ _. exact L.
  - destruct reg; [|injection H as _ <- _ _; exact L].
    destruct (pop_write ws) as [ok ws']. destruct ok; [injection H as _ <- _ _; reflexivity|].
    unfold drop_fd in H. cbn [u_reg u_fd u_drv u_wr u_lapd u_links] in H.
    destruct (line_update cs ws' _) as [[[e2 s2] ev2] rc2] eqn:E. injection H as _ <- _ _. eapply IH; [exact E|reflexivity].
Qed.
Lemma exc_lapd e s es s' e' rc : exception_cb e s = (es, s', e', rc) -> u_lapd s = true -> u_lapd s' = true.
Proof.
  unfold exception_cb, drop_fd. destruct (line_update _ _ _) as [[[e2 s2] ev2] rc2] eqn:E. intros H L. injection H as _ <- _ _.
  eapply lapd_stays; [exact E|exact L].
Qed.
Lemma write_lapd e s m es s' e' rc : write_msg e s m = (es, s', e', rc) -> u_lapd s = true -> u_lapd s' = true.
Proof.
  unfold write_msg. destruct (pop_write _) as [ok ws]. destruct ok; intros H L; [injection H as _ <- _ _; exact L|].
  destruct (exception_cb _ _) as [[[e2 s2] ev2] rc2] eqn:E. injection H as _ <- _ _. eapply exc_lapd; eassumption.
Qed.
Lemma write_data e s m es s' e' rc : write_msg e s m = (es, s', e', rc) ->
  data_writes es = (if is_data m then [m] else []) /\ ups es = [].
Proof.
  unfold write_msg. destruct (pop_write _) as [ok ws]. destruct ok; intros H.
  - injection H as <- _ _ _. cbn. destruct (is_data m); split; reflexivity.
  - destruct (exception_cb _ _) as [[[e2 s2] ev2] rc2] eqn:E. injection H as <- _ _ _. apply exc_quiet in E. destruct E as [E1 E2].
    cbn [data_writes ups app]. rewrite E1, E2. destruct (is_data m); split; reflexivity.
Qed.
Lemma step_lapd e s v es s' e' rc : step e s v = Some (es, s', e', rc) -> u_lapd s = true -> u_lapd s' = true.
Proof.
  destruct v; cbn [step]; intros H L.
  - injection H as H. eapply lapd_stays; eassumption.
  - injection H as H. unfold set_altc in H. destruct (u_drv s); [eapply write_lapd; eassumption|injection H as _ <- _ _; exact L].
  - unfold send in H. destruct (u_drv s); [|discriminate]. injection H as _ <- _ _. exact L.
  - injection H as H. destruct (u_reg s); [|injection H as _ <- _ _; exact L]. destruct r; cbn [read_cb] in H.
    + destruct (firstn _ d) as [|a [|b m]]; try (injection H as _ <- _ _; exact L).
      destruct (negb _); [injection H as _ <- _ _; exact L|]. destruct (b =? PROTO_DATA); injection H as _ <- _ _; exact L.
    + eapply exc_lapd; eassumption.
    + injection H as _ <- _ _. exact L.
  - injection H as H. destruct (u_reg s && u_wr s); [|injection H as _ <- _ _; exact L]. unfold write_cb in H.
    destruct (dequeue _) as [[[l m] ls]|]; injection H as _ <- _ _; exact L.
  - injection H as H. rewrite L in H. eapply write_lapd; eassumption.
Qed.
Lemma step_data e s v es s' e' rc : step e s v = Some (es, s', e', rc) -> u_lapd s = true ->
  data_writes es = map data_packet (lapd_sent [v]).
Proof.
  destruct v; cbn [step]; intros H L.
  - injection H as H. apply update_quiet in H. apply H.
  - injection H as H. unfold set_altc in H. destruct (u_drv s); [|injection H as <- _ _ _; reflexivity].
    apply write_data in H. apply (proj1 H).
  - unfold send in H. destruct (u_drv s); [|discriminate]. injection H as <- _ _ _. reflexivity.
  - injection H as H. destruct (u_reg s); [|injection H as <- _ _ _; destruct r; reflexivity].
    destruct r; cbn [read_cb] in H.
    + cbn [lapd_sent map]. destruct (firstn _ d) as [|a [|b m]]; try (injection H as <- _ _ _; reflexivity).
      destruct (negb _); [injection H as <- _ _ _; reflexivity|]. destruct (b =? PROTO_DATA); injection H as <- _ _ _; reflexivity.
    + apply exc_quiet in H. apply H.
    + injection H as <- _ _ _. reflexivity.
  - injection H as H. destruct (u_reg s && u_wr s); [|injection H as <- _ _ _; reflexivity]. unfold write_cb in H.
    destruct (dequeue _) as [[[l m] ls]|]; injection H as <- _ _ _; reflexivity.
  - injection H as H. rewrite L in H. apply write_data in H. rewrite (proj1 H). reflexivity.
Qed.
Theorem C48_tx : forall vs e s es s' e', u_lapd s = true -> run e s vs = Some (es, s', e') ->
  data_writes es = map data_packet (lapd_sent vs).
Proof.
  induction vs as [|v vs IH]; intros e s es s' e' L H; cbn [run] in H; [injection H as <- _ _; reflexivity|].
  destruct (step e s v) as [[[[es1 s1] e1] rc]|] eqn:E; [|discriminate].
  destruct (run e1 s1 vs) as [[[es2 s2] e2]|] eqn:E2; [|discriminate]. injection H as <- _ _.
  rewrite data_writes_app, (step_data _ _ _ _ _ _ _ E L), (IH _ _ _ _ _ (step_lapd _ _ _ _ _ _ _ E L) E2).
  destruct v; reflexivity.
Qed.
(** everything passed up in a history came in a data packet, in order: each packet
    passed up is (the first 1582 octets of) the payload of an arrived data packet *)
Inductive subseq {A} : list A -> list A -> Prop :=
| sub_nil l : subseq [] l
| sub_take x a b : subseq a b -> subseq (x :: a) (x :: b)
| sub_skip x a b : subseq a b -> subseq a (x :: b).
Lemma step_ups e s v es s' e' rc : step e s v = Some (es, s', e', rc) ->
  subseq (map (fun p => data_packet p) (ups es)) (map (firstn 1584) (arrived [v])).
Proof.
  destruct v; cbn [step arrived map]; intros H.
  - injection H as H. apply update_quiet in H. rewrite (proj2 H). constructor.
  - injection H as H. unfold set_altc in H. destruct (u_drv s); [|injection H as <- _ _ _; constructor].
    apply write_data in H. rewrite (proj2 H). constructor.
  - unfold send in H. destruct (u_drv s); [|discriminate]. injection H as <- _ _ _. constructor.
  - injection H as H. destruct (u_reg s); [|injection H as <- _ _ _; constructor].
    destruct r; cbn [read_cb] in H.
    + cbn [arrived map]. change (ALLOC_SIZE - 16)%nat with 1584%nat in H.
      destruct (firstn 1584 d) as [|a [|b m]] eqn:F; try (injection H as <- _ _ _; constructor).
      unfold PROTO_VERSION, PROTO_DATA in H. destruct (Z.eqb_spec a 1) as [->|]; cbn [negb] in H; [|injection H as <- _ _ _; constructor].
      destruct (Z.eqb_spec b 0) as [->|]; injection H as <- _ _ _; [|constructor]. apply sub_take. constructor.
    + apply exc_quiet in H. rewrite (proj2 H). constructor.
    + injection H as <- _ _ _. constructor.
  - injection H as H. destruct (u_reg s && u_wr s); [|injection H as <- _ _ _; constructor]. unfold write_cb in H.
    destruct (dequeue _) as [[[l m] ls]|]; injection H as <- _ _ _; constructor.
  - injection H as H. destruct (u_lapd s); [|injection H as <- _ _ _; constructor]. apply write_data in H. rewrite (proj2 H). constructor.
Qed.
Lemma subseq_app {A} (a b c d : list A) : subseq a b -> subseq c d -> subseq (a ++ c) (b ++ d).
Proof.
  induction 1 as [l|x a b H IH|x a b H IH]; intros S; cbn.
  - induction l as [|y l IHl]; [exact S|]. apply sub_skip. exact IHl.
  - apply sub_take. auto.
  - apply sub_skip. auto.
Qed.
Lemma arrived_cons v vs : arrived (v :: vs) = arrived [v] ++ arrived vs.
Proof. destruct v as [| | |[d| |]| |]; reflexivity. Qed.
Theorem C48_rx_history : forall vs e s es s' e', run e s vs = Some (es, s', e') ->
  subseq (map data_packet (ups es)) (map (firstn 1584) (arrived vs)).
Proof.
  induction vs as [|v vs IH]; intros e s es s' e' H; cbn [run] in H; [injection H as <- _ _; constructor|].
  destruct (step e s v) as [[[[es1 s1] e1] rc]|] eqn:E; [|discriminate].
  destruct (run e1 s1 vs) as [[[es2 s2] e2]|] eqn:E2; [|discriminate]. injection H as <- _ _.
  rewrite ups_app, arrived_cons, !map_app. apply subseq_app; [eapply step_ups; eassumption|eapply IH; eassumption].
Qed.
(** what one side sends the other side (same framing) gets *)
Theorem C48_roundtrip : forall e s m es s' e' rc e2 s2, (length m <= 1582)%nat ->
  write_msg_lapd_cb e s m = (es, s', e', rc) ->
  exists ok rest, es = EWrite (u_fd s) (data_packet m) ok :: rest /\
    read_cb e2 s2 (RdData (data_packet m)) = ([EUp m], s2, e2, 0).
Proof.
  intros e s m es s' e' rc e2 s2 L H. unfold write_msg_lapd_cb, write_msg in H.
  assert (R : read_cb e2 s2 (RdData (data_packet m)) = ([EUp m], s2, e2, 0)).
  { destruct (C48_rx e2 s2 (data_packet m)) as [(p & E & R)|[N _]]; [cbn [length app data_packet]; lia| |].
    - injection E as <-. exact R.
    - exfalso. eapply N; reflexivity. }
  destruct (pop_write _) as [ok ws]. destruct ok.
  - injection H as <- _ _ _. eexists _, _. split; [reflexivity|exact R].
  - destruct (exception_cb _ _) as [[[? ?] ?] ?]. injection H as <- _ _ _. eexists _, _. split; [reflexivity|exact R].
Qed.

(** ** The control message *)
(** set_altc on an initialised line writes exactly the documented message, first *)
Theorem C48_altc : forall e s b es s' e' rc, u_drv s = true -> set_altc e s b = (es, s', e', rc) ->
  exists ok rest, es = EWrite (u_fd s) (altc_packet (negb (b =? 0))) ok :: rest.
Proof.
  intros e s b es s' e' rc D H. unfold set_altc in H. rewrite D in H. unfold write_msg in H.
  assert (M : altc_msg b = altc_packet (negb (b =? 0))) by (unfold altc_msg; destruct (b =? 0); reflexivity).
  rewrite M in H. destruct (pop_write _) as [ok ws]. destruct ok.
  - injection H as <- _ _ _. eexists _, _. reflexivity.
  - destruct (exception_cb _ _) as [[[? ?] ?] ?]. injection H as <- _ _ _. eexists _, _. reflexivity.
Qed.
(** the first thing written on every new connection turns the super-channel off *)
Definition altc_first (es : list eff) : Prop :=
  forall pre fd post, es = pre ++ EReg fd true :: post -> exists ok r, post = EWrite fd (altc_packet false) ok :: r.
Lemma altc_first_cons e es : (forall fd, e <> EReg fd true) -> altc_first es -> altc_first (e :: es).
Proof.
  intros N H pre fd post E. destruct pre as [|x pre]; cbn in E; injection E as E1 E2; [exfalso; eapply N; exact E1|].
  eapply H; exact E2.
Qed.
Lemma altc_first_app a b : altc_first a -> altc_first b -> altc_first (a ++ b).
Proof.
  intros A B pre fd post E. revert pre E. induction a as [|x a IH]; intros pre E.
  - eapply B; exact E.
  - destruct pre as [|y pre]; cbn in E; injection E as E1 E2.
    + subst x. specialize (A [] fd a eq_refl). destruct A as (ok & r & ->). subst post. eexists _, _. reflexivity.
    + eapply IH; [|exact E2]. intros p f q Q. apply (A (x :: p) f q). rewrite Q. reflexivity.
Qed.
Lemma altc_first_nil : altc_first [].
Proof. intros pre fd post E. destruct pre; discriminate. Qed.
Ltac af := repeat (apply altc_first_cons; [discriminate|]); apply altc_first_nil.
Lemma altc_first_reg fd ok es : altc_first es -> altc_first (EReg fd true :: EWrite fd (altc_msg 0) ok :: es).
Proof.
  intros H pre f post E. destruct pre as [|x pre]; cbn in E; injection E as E1 E2.
  - subst. eexists _, _. reflexivity.
  - eapply (altc_first_cons (EWrite fd (altc_msg 0) ok) es); [discriminate|exact H|exact E2].
Qed.
Lemma update_altc cs : forall ws s es s' e rc, line_update cs ws s = (es, s', e, rc) -> altc_first es.
Proof.
  induction cs as [|[rc0|fd reg] cs IH]; intros ws s es s' e rc H; cbn [line_update] in H.
  - injection H as <- _ _ _. af.
  - injection H as <- _ _ _. af.
  - destruct reg; [|injection H as <- _ _ _; af].
    destruct (pop_write ws) as [ok ws']. destruct ok.
    + injection H as <- _ _ _. apply altc_first_cons; [discriminate|]. apply altc_first_reg. af.
    + unfold drop_fd in H. cbn [u_reg u_fd] in H.
      destruct (line_update cs ws' _) as [[[e2 s2] ev2] rc2] eqn:E. injection H as <- _ _ _. apply IH in E.
      cbn [app]. apply altc_first_cons; [discriminate|]. apply altc_first_reg.
      apply altc_first_cons; [discriminate|]. apply altc_first_cons; [discriminate|]. exact E.
Qed.
Lemma exc_altc e s es s' e' rc : exception_cb e s = (es, s', e', rc) -> altc_first es.
Proof.
  unfold exception_cb, drop_fd. destruct (line_update _ _ _) as [[[e2 s2] ev2] rc2] eqn:E. apply update_altc in E.
  intros H. injection H as <- _ _ _. apply altc_first_app; [|exact E]. destruct (u_reg s); af.
Qed.
Lemma write_altc e s m es s' e' rc : write_msg e s m = (es, s', e', rc) -> altc_first es.
Proof.
  unfold write_msg. destruct (pop_write _) as [ok ws]. destruct ok; intros H; [injection H as <- _ _ _; af|].
  destruct (exception_cb _ _) as [[[e2 s2] ev2] rc2] eqn:E. injection H as <- _ _ _. apply exc_altc in E.
  apply altc_first_cons; [discriminate|exact E].
Qed.
Theorem C48_new_connection : forall vs e s es s' e', run e s vs = Some (es, s', e') -> altc_first es.
Proof.
  induction vs as [|v vs IH]; intros e s es s' e' H; cbn [run] in H; [injection H as <- _ _; af|].
  destruct (step e s v) as [[[[es1 s1] e1] rc]|] eqn:E; [|discriminate].
  destruct (run e1 s1 vs) as [[[es2 s2] e2]|] eqn:E2; [|discriminate]. injection H as <- _ _.
  apply altc_first_app; [|eapply IH; eassumption]. clear E2 IH.
  destruct v; cbn [step] in E.
  - injection E as E. eapply update_altc; eassumption.
  - injection E as E. unfold set_altc in E. destruct (u_drv s); [eapply write_altc; eassumption|injection E as <- _ _ _; af].
  - unfold send in E. destruct (u_drv s); [|discriminate]. injection E as <- _ _ _. af.
  - injection E as E. destruct (u_reg s); [|injection E as <- _ _ _; af]. destruct r; cbn [read_cb] in E.
    + destruct (firstn _ d) as [|a [|b m]]; try (injection E as <- _ _ _; af).
      destruct (negb _); [injection E as <- _ _ _; af|]. destruct (b =? PROTO_DATA); injection E as <- _ _ _; af.
    + eapply exc_altc; eassumption.
    + injection E as <- _ _ _. af.
  - injection E as E. destruct (u_reg s && u_wr s); [|injection E as <- _ _ _; af]. unfold write_cb in E.
    destruct (dequeue _) as [[[l m] ls]|]; injection E as <- _ _ _; af.
  - injection E as E. destruct (u_lapd s); [eapply write_altc; eassumption|injection E as <- _ _ _; af].
Qed.

(** ** Descriptors *)
Definition eff_ok' (o sl : list Z) (e : eff) : Prop :=
  match e with
  | EWrite fd _ _ => In fd o
  | EClose fd => In fd o /\ ~ In fd sl
  | EReg fd _ => In fd o /\ sl = []
  | EUnreg fd => In fd sl
  | _ => True
  end.
Fixpoint okt (o sl : list Z) (es : list eff) : Prop :=
  match es with [] => True | e :: r => eff_ok' o sl e /\ okt (open1 o e) (sel1 sl e) r end.
Lemma okt_spec : forall es pre, okt (open_fds pre) (selected pre) es ->
  forall p e q, es = p ++ e :: q -> eff_ok (pre ++ p) e.
Proof.
  induction es as [|x es IH]; intros pre [H R] p e q E || intros pre H p e q E; [destruct p; discriminate|].
  destruct p as [|y p]; cbn in E; injection E as E1 E2.
  - subst x. rewrite app_nil_r. destruct e; exact H.
  - subst y. specialize (IH (pre ++ [x])). unfold open_fds, selected in IH. rewrite !fold_left_app in IH.
    specialize (IH R p e q E2). rewrite <- app_assoc in IH. exact IH.
Qed.
Lemma okt_app a : forall o sl b, okt o sl a -> okt (fold_left open1 a o) (fold_left sel1 a sl) b -> okt o sl (a ++ b).
Proof. induction a as [|x a IH]; intros o sl b A B; [exact B|]. destruct A as [A1 A2]. split; [exact A1|]. apply IH; assumption. Qed.
Lemma no_failure_app a b : no_failure (a ++ b) -> no_failure a /\ no_failure b.
Proof. intros [A B]. split; split; try (intros H; apply A, in_or_app; tauto); intros fd H; apply (B fd), in_or_app; tauto. Qed.

Definition steady (o sl : list Z) (s : ust) : Prop := u_reg s = true /\ u_drv s = true /\ o = [u_fd s] /\ sl = [u_fd s].
Definition goes (o sl : list Z) (es : list eff) (s' : ust) : Prop :=
  okt o sl es /\ steady (fold_left open1 es o) (fold_left sel1 es sl) s'.
Lemma goes_app o sl a b s' : okt o sl a -> goes (fold_left open1 a o) (fold_left sel1 a sl) b s' -> goes o sl (a ++ b) s'.
Proof. intros A [B C]. split; [apply okt_app; assumption|]. rewrite !fold_left_app. exact C. Qed.
Lemma update_goes cs : forall ws s es s' e rc, line_update cs ws s = (es, s', e, rc) -> no_failure es -> goes [] [] es s'.
Proof.
  induction cs as [|[rc0|fd reg] cs IH]; intros ws s es s' e rc H NF; cbn [line_update] in H.
  - injection H as <- _ _ _. exfalso. apply (proj1 NF). left. reflexivity.
  - injection H as <- _ _ _. exfalso. apply (proj1 NF). left. reflexivity.
  - destruct reg; [|injection H as <- _ _ _; exfalso; apply (proj2 NF fd); right; left; reflexivity].
    destruct (pop_write ws) as [ok ws']. destruct ok.
    + injection H as <- <- _ _. split; [cbn; tauto|]. cbn. repeat split.
    + unfold drop_fd in H. cbn [u_reg u_fd u_drv u_wr u_lapd u_links] in H.
      destruct (line_update cs ws' _) as [[[e2 s2] ev2] rc2] eqn:E. injection H as <- <- _ _.
      change (EConn fd :: EReg fd true :: EWrite fd (altc_msg 0) false :: ?x) with ([EConn fd; EReg fd true; EWrite fd (altc_msg 0) false; EUnreg fd; EClose fd] ++ e2) in *.
      apply no_failure_app in NF. apply IH in E; [|apply NF]. 
      match goal with |- goes _ _ ?l _ => change l with ([EConn fd; EReg fd true; EWrite fd (altc_msg 0) false; EUnreg fd; EClose fd] ++ e2) end.
      apply goes_app; cbn; rewrite ?Z.eqb_refl; [tauto|exact E].
Qed.
Lemma exc_goes o sl e s es s' e' rc : exception_cb e s = (es, s', e', rc) -> no_failure es -> steady o sl s -> goes o sl es s'.
Proof.
  unfold exception_cb, drop_fd. destruct (line_update _ _ _) as [[[e2 s2] ev2] rc2] eqn:E. intros H NF (R & D & -> & ->).
  injection H as <- <- _ _. rewrite R in *. apply no_failure_app in NF. apply update_goes in E; [|apply NF].
  apply goes_app; cbn; rewrite ?Z.eqb_refl; [tauto|exact E].
Qed.
Lemma stay_goes o sl s : steady o sl s -> goes o sl [] s.
Proof. intros H. split; [exact I|exact H]. Qed.
Lemma write_goes o sl e s m es s' e' rc : write_msg e s m = (es, s', e', rc) -> no_failure es -> steady o sl s -> goes o sl es s'.
Proof.
  unfold write_msg. destruct (pop_write _) as [ok ws]. destruct ok; intros H NF S.
  - injection H as <- <- _ _. split; [|exact S]. destruct S as (_ & _ & -> & _). cbn. tauto.
  - destruct (exception_cb _ _) as [[[e2 s2] ev2] rc2] eqn:E. injection H as <- <- _ _.
    change (EWrite (u_fd s) m false :: e2) with ([EWrite (u_fd s) m false] ++ e2) in *. apply no_failure_app in NF.
    apply goes_app; [destruct S as (_ & _ & -> & _); cbn; tauto|]. eapply exc_goes; [exact E|apply NF|exact S].
Qed.
Lemma step_goes o sl e s v es s' e' rc : step e s v = Some (es, s', e', rc) -> v <> Update -> no_failure es -> steady o sl s -> goes o sl es s'.
Proof.
  intros H NU NF S. destruct v; cbn [step] in H; [congruence| | | | |].
  - injection H as H. unfold set_altc in H. destruct (u_drv s); [eapply write_goes; eassumption|].
    injection H as <- <- _ _. apply stay_goes; exact S.
  - unfold send in H. destruct (u_drv s); [|discriminate]. injection H as <- <- _ _. apply stay_goes.
    destruct S as (A & B & C & D). repeat split; assumption.
  - injection H as H. destruct (u_reg s); [|injection H as <- <- _ _; apply stay_goes; exact S]. destruct r; cbn [read_cb] in H.
    + destruct (firstn _ d) as [|a [|b m]]; try (injection H as <- <- _ _; apply stay_goes; exact S).
      destruct (negb _); [injection H as <- <- _ _; apply stay_goes; exact S|].
      destruct (b =? PROTO_DATA); injection H as <- <- _ _; [split; [cbn; tauto|exact S]|apply stay_goes; exact S].
    + eapply exc_goes; eassumption.
    + injection H as <- <- _ _. apply stay_goes; exact S.
  - injection H as H. destruct (u_reg s && u_wr s); [|injection H as <- <- _ _; apply stay_goes; exact S]. unfold write_cb in H.
    destruct S as (A & B & C & D).
    destruct (dequeue _) as [[[l m] ls]|]; injection H as <- <- _ _; (split; [cbn; tauto|]); repeat split; cbn; assumption.
  - injection H as H. destruct (u_lapd s); [|injection H as <- <- _ _; apply stay_goes; exact S].
    eapply write_goes; eassumption.
Qed.
Lemma run_goes : forall vs o sl e s es s' e', run e s vs = Some (es, s', e') -> ~ In Update vs -> no_failure es -> steady o sl s -> goes o sl es s'.
Proof.
  induction vs as [|v vs IH]; intros o sl e s es s' e' H NU NF S; cbn [run] in H; [injection H as <- <- _; apply stay_goes; exact S|].
  destruct (step e s v) as [[[[es1 s1] e1] rc]|] eqn:E; [|discriminate].
  destruct (run e1 s1 vs) as [[[es2 s2] e2]|] eqn:E2; [|discriminate]. injection H as <- <- _.
  apply no_failure_app in NF. destruct NF as [N1 N2].
  destruct (step_goes o sl _ _ _ _ _ _ _ E) as [G1 G2]; [intros ->; apply NU; left; reflexivity|exact N1|exact S|].
  apply goes_app; [exact G1|]. eapply IH; [exact E2|intros X; apply NU; right; exact X|exact N2|exact G2].
Qed.

(** a line updated once, on a kernel that lets it (re)connect: in every history only
    the current connection is used, each is closed when it fails, and exactly one
    is open and selected in the end *)
Theorem C48_fds : forall vs e ls es s' e', run e (ust0 ls) (Update :: vs) = Some (es, s', e') ->
  ~ In Update vs -> no_failure es ->
  fds_used_ok es /\ open_fds es = [u_fd s'] /\ selected es = [u_fd s'].
Proof.
  intros vs e ls es s' e' H NU NF. cbn [run step] in H.
  destruct (line_update _ _ _) as [[[es1 s1] e1] rc1] eqn:E.
  destruct (run e1 s1 vs) as [[[es2 s2] e2]|] eqn:E2; [|discriminate]. injection H as <- <- _.
  apply no_failure_app in NF. destruct NF as [N1 N2].
  destruct (update_goes _ _ _ _ _ _ _ E N1) as [G1 G2].
  destruct (goes_app [] [] es1 es2 s2 G1) as [G3 G4]; [eapply run_goes; eassumption|].
  split; [|destruct G4 as (_ & _ & A & B); unfold open_fds, selected; split; assumption].
  intros pre x post Q. apply (okt_spec _ [] G3 pre x post Q).
Qed.
Example C48_fds_witness :
  let vs := [LapdTx [2; 3; 127]; Readable (RdData [1; 0; 9]); LapdTx [5]; Readable RdEof; Altc 7] in
  match run ([COk 5 true; COk 6 true; COk 7 true], [true; true; false; true]) (ust0 []) (Update :: vs) with
  | Some (es, s', _) => ~ In Update vs /\ no_failure es /\ open_fds es = [7] /\
      es = [EConn 5; EReg 5 true; EWrite 5 (altc_packet false) true; EWrite 5 [1; 0; 2; 3; 127] true; EUp [9];
            EWrite 5 [1; 0; 5] false; EUnreg 5; EClose 5; EConn 6; EReg 6 true; EWrite 6 (altc_packet false) true;
            EUnreg 6; EClose 6; EConn 7; EReg 7 true; EWrite 7 (altc_packet false) true; EWrite 7 (altc_packet true) true]
  | None => False
  end.
Proof.
  vm_compute. repeat split; try (intros H; decompose [or] H; (discriminate || contradiction)).
  intros fd H. decompose [or] H; (discriminate || contradiction).
Qed.

Ltac no_in := let H := fresh in intros H; cbn in H; decompose [or] H; first [discriminate|contradiction].
(** otherwise: after a reconnect that failed the driver goes on writing to the
    descriptor it closed, and closes it again *)
Theorem C48_fds_reconnect_refuted : exists vs e es s' e',
  run e (ust0 []) (Update :: vs) = Some (es, s', e') /\ ~ In Update vs /\
  exists pre fd d ok post, es = pre ++ EWrite fd d ok :: EClose fd :: post /\ open_fds pre = [].
Proof.
  exists [Readable RdEof; LapdTx [1; 2; 3]], ([COk 5 true], [true; false]). eexists _, _, _. split; [vm_compute; reflexivity|].
  split; [no_in|].
  exists [EConn 5; EReg 5 true; EWrite 5 (altc_msg 0) true; EUnreg 5; EClose 5; EFail]. eexists 5, _, _, _. split; vm_compute; reflexivity.
Qed.
(** a line that never connected: the control message goes to descriptor 0, which is
    then closed if that fails *)
Theorem C48_fd0_refuted : exists e es s' e',
  run e (ust0 []) [Update; Altc 1] = Some (es, s', e') /\ es = [EFail; EWrite 0 (altc_packet true) false; EClose 0; EFail].
Proof. exists ([CFail (-2)], [false]). eexists _, _, _. split; vm_compute; reflexivity. Qed.
(** a second update of a connected line leaks the first connection and enters the
    osmo_fd into the select list twice *)
Theorem C48_update_twice_refuted : exists e es s' e',
  run e (ust0 []) [Update; Update] = Some (es, s', e') /\ no_failure es /\ open_fds es = [6; 5] /\ ~ fds_used_ok es.
Proof.
  exists ([COk 5 true; COk 6 true], []). eexists _, _, _. split; [vm_compute; reflexivity|].
  split; [split; [no_in|intros fd; no_in]|].
  split; [vm_compute; reflexivity|]. intros H.
  specialize (H [EConn 5; EReg 5 true; EWrite 5 (altc_msg 0) true; EConn 6] (EReg 6 true) [EWrite 6 (altc_msg 0) true] eq_refl).
  destruct H as [_ H]. vm_compute in H. discriminate.
Qed.
(** a peer that accepts and then refuses the first message makes one call nest as
    deep as it likes *)
Theorem C48_nesting_refuted : forall n, exists e es s' e' rc,
  step e (ust0 []) Update = Some (es, s', e', rc) /\ (n <= length (filter (fun x => match x with EConn _ => true | _ => false end) es))%nat.
Proof.
  assert (A : forall n s, exists es s' e' rc, line_update (repeat (COk 5 true) n) (repeat false n) s = (es, s', e', rc) /\
     length (filter (fun x => match x with EConn _ => true | _ => false end) es) = n).
  { induction n as [|n IH]; intros s; cbn [repeat line_update]; [eexists _, _, _, _; split; reflexivity|]. cbn [pop_write]. unfold drop_fd. cbn [u_reg u_fd u_drv u_wr u_lapd u_links].
    destruct (IH (mkU true 5 false false true (u_links s))) as (es & s' & e' & rc & E & L). rewrite E.
    eexists _, _, _, _. split; [reflexivity|]. cbn. rewrite L. reflexivity. }
  intros n. exists (repeat (COk 5 true) n, repeat false n). destruct (A n (ust0 [])) as (es & s' & e' & rc & E & L).
  exists es, s', e', rc. split; [cbn [step fst snd]; rewrite E; reflexivity|lia].
Qed.

(** ** Queued messages *)
Definition pending (s : ust) : Prop := exists l, In l (u_links s) /\ lk_q l <> [].
Lemma dequeue_pending ls : dequeue ls = None <-> ~ exists l, In l ls /\ lk_q l <> [].
Proof.
  induction ls as [|l ls IH]; cbn [dequeue]; [split; [intros _ (l & [] & _)|reflexivity]|].
  destruct (lk_q l) as [|m q] eqn:Q.
  - destruct (dequeue ls) as [[[x m] r]|].
    + split; [discriminate|]. intros H. exfalso. destruct IH as [_ IH]. enough (Q' : Some (x, m, r) = None) by discriminate. apply IH.
      intros (y & I & N). apply H. exists y. split; [right; exact I|exact N].
    + split; [|reflexivity]. intros _ (y & [<-|I] & N); [congruence|]. apply (proj1 IH eq_refl). exists y. split; assumption.
  - split; [discriminate|]. intros H. exfalso. apply H. exists l. split; [left; reflexivity|rewrite Q; discriminate].
Qed.
(** while a connection lasts, a line with a queued message waits for the descriptor
    to become writable, and then the message is handed to LAPD *)
Definition same_connection (es : list eff) : Prop := forall e, In e es -> match e with EConn _ | EFail | EUnreg _ | EClose _ => False | _ => True end.
Lemma exc_not_same e s es s' e' rc : exception_cb e s = (es, s', e', rc) -> ~ same_connection es.
Proof.
  unfold exception_cb, drop_fd. destruct (line_update _ _ _) as [[[e2 s2] ev2] rc2] eqn:E. intros H S. injection H as <- _ _ _.
  apply (S (EClose (u_fd s))). apply in_or_app. left. apply in_or_app. right. left. reflexivity.
Qed.
Lemma same_app a b : same_connection (a ++ b) -> same_connection a /\ same_connection b.
Proof. intros H. split; intros e I; apply H, in_or_app; tauto. Qed.
Lemma write_same e s m es s' e' rc : write_msg e s m = (es, s', e', rc) -> same_connection es -> s' = s.
Proof.
  unfold write_msg. destruct (pop_write _) as [ok ws]. destruct ok; intros H S; [injection H as _ <- _ _; reflexivity|].
  destruct (exception_cb _ _) as [[[e2 s2] ev2] rc2] eqn:E. injection H as <- _ _ _. exfalso. eapply exc_not_same; [exact E|].
  intros x I. apply S. right. exact I.
Qed.
Lemma update_not_same cs : forall ws s es s' e rc, line_update cs ws s = (es, s', e, rc) -> ~ same_connection es.
Proof.
  intros ws s es s' e rc H S. destruct cs as [|[rc0|fd reg] cs]; cbn [line_update] in H.
  - injection H as <- _ _ _. apply (S EFail). left. reflexivity.
  - injection H as <- _ _ _. apply (S EFail). left. reflexivity.
  - destruct reg; [|injection H as <- _ _ _; apply (S (EConn fd)); left; reflexivity].
    destruct (pop_write ws) as [ok ws']. destruct ok; [injection H as <- _ _ _; apply (S (EConn fd)); left; reflexivity|].
    destruct (drop_fd _) as [e1 s1]. destruct (line_update _ _ _) as [[[e2 s2] ev2] rc2]. injection H as <- _ _ _.
    apply (S (EConn fd)). left. reflexivity.
Qed.
Lemma dequeue_In : forall ls l m r, dequeue ls = Some (l, m, r) -> exists q, In l ls /\ lk_q l = m :: q.
Proof.
  induction ls as [|x ls IH]; intros l m r H; cbn [dequeue] in H; [discriminate|].
  destruct (lk_q x) as [|y q] eqn:Q.
  - destruct (dequeue ls) as [[[a b] c]|] eqn:E; [|discriminate]. injection H as <- <- _.
    destruct (IH _ _ _ eq_refl) as (q & I & E'). exists q. split; [right; exact I|exact E'].
  - injection H as <- <- _. exists q. split; [left; reflexivity|exact Q].
Qed.
Theorem C48_pending : forall vs e s es s' e', u_reg s = true -> (u_wr s = true \/ ~ pending s) ->
  run e s vs = Some (es, s', e') -> same_connection es -> pending s' ->
  exists l m q r, step e' s' Writable = Some ([ELapd (lk_tei l) (lk_sapi l) m], r, e', 0) /\ In l (u_links s') /\ lk_q l = m :: q.
Proof.
  intros vs e s es s' e' R W H SC P.
  assert (K : u_reg s' = true /\ (u_wr s' = true \/ ~ pending s')).
  { clear P. revert e s es R W H SC. induction vs as [|v vs IH]; intros e s es R W H SC; cbn [run] in H; [injection H as _ <- _; split; assumption|].
    destruct (step e s v) as [[[[es1 s1] e1] rc]|] eqn:E; [|discriminate].
    destruct (run e1 s1 vs) as [[[es2 s2] e2]|] eqn:E2; [|discriminate]. injection H as <- <- <-. apply same_app in SC. destruct SC as [S1 S2].
    assert (K : u_reg s1 = true /\ (u_wr s1 = true \/ ~ pending s1)).
    { destruct v; cbn [step] in E.
      - injection E as E. exfalso. eapply update_not_same; eassumption.
      - injection E as E. unfold set_altc in E. destruct (u_drv s); [apply write_same in E; [|exact S1]; subst; split; assumption|].
        injection E as _ <- _ _. split; assumption.
      - unfold send in E. destruct (u_drv s); [|discriminate]. injection E as _ <- _ _. split; [exact R|left; reflexivity].
      - rewrite R in E. injection E as E. destruct r; cbn [read_cb] in E.
        + destruct (firstn _ d) as [|a [|b m]]; try (injection E as _ <- _ _; split; assumption).
          destruct (negb _); [injection E as _ <- _ _; split; assumption|]. destruct (b =? PROTO_DATA); injection E as _ <- _ _; split; assumption.
        + exfalso. eapply exc_not_same; eassumption.
        + injection E as _ <- _ _. split; assumption.
      - injection E as E. destruct (u_reg s && u_wr s) eqn:RW; [|injection E as _ <- _ _; split; assumption]. unfold write_cb in E.
        destruct (dequeue _) as [[[l m] ls]|] eqn:D; injection E as _ <- _ _.
        + split; [exact R|left]. cbn. apply andb_true_iff in RW. apply RW.
        + split; [exact R|right]. intros Q. apply dequeue_pending in D. apply D. exact Q.
      - injection E as E. destruct (u_lapd s); [apply write_same in E; [|exact S1]; subst; split; assumption|].
        injection E as _ <- _ _. split; assumption. }
    destruct K as [K1 K2]. eapply IH; [exact K1|exact K2|exact E2|exact S2]. }
  destruct K as [K1 [K2|K2]]; [|contradiction].
  destruct (dequeue (u_links s')) as [[[l m] ls]|] eqn:D.
  - destruct (dequeue_In _ _ _ _ D) as (q & I & Q). exists l, m, q. eexists. cbn [step]. rewrite K1, K2. cbn [andb]. unfold write_cb. rewrite D.
    split; [reflexivity|]. split; assumption.
  - exfalso. apply dequeue_pending in D. apply D. exact P.
Qed.
Example C48_pending_witness :
  let s := mkU true 5 true false true [mkLink 0 SIGN_OML 25 62 []; mkLink 1 SIGN_RSL 1 0 []] in
  match run ([], []) s [Send 1 [7; 8]; Readable (RdData [1; 0; 3]); Send 0 [9]] with
  | Some (es, s', e') => (u_wr s = true \/ ~ pending s) /\ same_connection es /\ pending s' /\
       step e' s' Writable = Some ([ELapd 25 62 [9]], mkU true 5 true true true [mkLink 0 SIGN_OML 25 62 []; mkLink 1 SIGN_RSL 1 0 [[7; 8]]], e', 0)
  | None => False
  end.
Proof.
  vm_compute. split; [right; intros (l & H & N); decompose [or] H; subst; (contradiction || (cbn in N; congruence))|].
  split; [intros e H; decompose [or] H; subst; (exact I || contradiction)|].
  split; [|reflexivity]. eexists. split; [left; reflexivity|discriminate].
Qed.
(** across a reconnect this is lost: a queued message stays, however often the
    descriptor is writable, until the user sends another *)
Theorem C48_pending_reconnect_refuted : exists vs e ls es s' e',
  run e (ust0 ls) (Update :: vs) = Some (es, s', e') /\ ~ In Update vs /\ no_failure es /\ pending s' /\
  forall n, run e' s' (repeat Writable n) = Some ([], s', e').
Proof.
  exists [Send 0 [9]; Readable RdEof], ([COk 5 true; COk 6 true], []), [mkLink 0 SIGN_OML 25 62 []]. eexists _, _, _.
  split; [vm_compute; reflexivity|]. split; [no_in|].
  split; [split; [no_in|intros fd; no_in]|].
  split; [eexists; split; [left; reflexivity|discriminate]|].
  induction n as [|n IH]; [reflexivity|]. cbn [repeat run step u_reg u_wr andb]. rewrite IH. reflexivity.
Qed.
(** sending on a line never updated: the driver data is NULL *)
Theorem C48_send_before_update_refuted : exists ls id m, step ([], []) (ust0 ls) (Send id m) = None.
Proof. exists [mkLink 0 SIGN_OML 25 62 []], 0%nat, [1]. reflexivity. Qed.
(** a connection that cannot be put into the select loop is closed again and the update
    fails; one that cannot be made leaves nothing either *)
Theorem C48_update_failed : forall s c cs ws es s' e' rc,
  step (c :: cs, ws) s Update = Some (es, s', e', rc) -> (c = CFail rc \/ exists fd, c = COk fd false) ->
  open_fds es = [] /\ selected es = [] /\ e' = (cs, ws) /\ (forall fd, c = COk fd false -> rc = -5 /\ u_reg s' = false).
Proof.
  intros s c cs ws es s' e' rc H [-> | (fd & ->)]; cbn [step line_update fst snd] in H.
  - injection H as <- <- <-. repeat split; intros; discriminate.
  - injection H as <- <- <- <-. unfold open_fds, selected. cbn [fold_left open1 sel1]. cbn. rewrite Z.eqb_refl. repeat split.
Qed.
(** with nothing queued the first write opportunity ends the write request: the select
    loop does not spin *)
Theorem C48_idle : forall e s, u_reg s = true -> ~ pending s ->
  exists s', step e s Writable = Some ([], s', e, 0) /\ u_wr s' = false /\ u_links s' = u_links s /\ u_reg s' = true.
Proof.
  intros e s R P. cbn [step]. rewrite R. cbn [andb]. destruct (u_wr s) eqn:W; [|exists s; auto].
  unfold write_cb. destruct (dequeue (u_links s)) as [[[l m] ls]|] eqn:D; [|eexists; split; [reflexivity|easy]].
  exfalso. apply P. destruct (dequeue_In _ _ _ _ D) as (q & I & Q). exists l. split; [exact I|]. rewrite Q. discriminate.
Qed.

(** before the line is updated for the first time nothing is written, opened, closed or
    handed up, whatever else is asked *)
Theorem C48_before_update : forall vs e ls es s' e', ~ In Update vs -> run e (ust0 ls) vs = Some (es, s', e') -> es = [] /\ e' = e.
Proof.
  intros vs e ls. induction vs as [|v vs IH]; intros es s' e' NU H; cbn [run] in H; [now injection H as <- _ <-|].
  assert (X : step e (ust0 ls) v = None \/ exists rc, step e (ust0 ls) v = Some ([], ust0 ls, e, rc)).
  { destruct v; cbn; try (right; eexists; reflexivity); try (now left). exfalso. apply NU. now left. }
  destruct X as [X | (rc & X)]; rewrite X in H; [discriminate H|].
  destruct (run e (ust0 ls) vs) as [[[es2 s2] e2]|] eqn:R; [|discriminate H]. injection H as <- _ <-. apply (IH es2 s2 e2); [|reflexivity]. intros I'. apply NU. now right.
Qed.
