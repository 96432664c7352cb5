(** C46, C47: the IPA proxy, all configuration histories, all messages. *)
From Coq Require Import List Arith Lia Bool ZArith.
From Verif Require Import Base ProxyModel ProxyProofs.
Import ListNotations.
Open Scope Z_scope.

(** ** Specification *)
(** [view s] (ProxyProofs.v): the configured routes as quadruples (source instance,
    stream identifier on the source side, destination instance, stream identifier on
    the destination side), in the order they were added.
    The identifier pairs configured between two instances: *)
Definition pairs (v : list rt) (a b : nat) : list (Z * Z) :=
  flat_map (fun t : rt => let '(a', p, b', q) := t in if Nat.eqb a' a && Nat.eqb b' b then [(p, q)] else []) v.
(** no stream identifier is used by two routes of a pair, on either side *)
Definition disjoint (v : list rt) : Prop :=
  forall a b, NoDup (map fst (pairs v a b)) /\ NoDup (map snd (pairs v a b)).
(** the pair of instances a proxied connection belongs to *)
Definition conn_pair (s : st) (cid : nat) : option (nat * nat) :=
  do sh <- conn_shared s cid; Some (s_src sh, s_dst sh).
(** histories in which no two routes of a pair ever share an identifier *)
Inductive dreach : st -> Prop :=
| dreach0 : dreach st0
| dreach1 s o s' x : dreach s -> step s o = Some (s', x) -> disjoint (view s') -> dreach s'.

Lemma dreach_reach s : dreach s -> reach s.
Proof. induction 1; [constructor|econstructor; eassumption]. Qed.
Lemma in_pairs v a b p q : In (p, q) (pairs v a b) <-> In (a, p, b, q) v.
Proof.
  unfold pairs. rewrite in_flat_map. split.
  - intros ([[[a' p'] b'] q'] & I & J). destruct (Nat.eqb_spec a' a) as [->|]; [|easy]. destruct (Nat.eqb_spec b' b) as [->|]; [|easy].
    cbn in J. destruct J as [J|[]]. now injection J as -> ->.
  - intros I. exists (a, p, b, q). split; [easy|]. rewrite !Nat.eqb_refl. now left.
Qed.
Lemma pairs_app v w a b : pairs (v ++ w) a b = pairs v a b ++ pairs w a b.
Proof. apply flat_map_app. Qed.
Lemma pairs_cons a p b q w : pairs ((a, p, b, q) :: w) a b = (p, q) :: pairs w a b.
Proof. unfold pairs. cbn [flat_map]. now rewrite !Nat.eqb_refl. Qed.
Lemma nodup_fst (l : list (Z * Z)) p q q' : NoDup (map fst l) -> In (p, q) l -> In (p, q') l -> q = q'.
Proof.
  induction l as [|[x y] l IH]; [easy|]. cbn [map fst]. intros N I J. apply NoDup_cons_iff in N as [N1 N2].
  destruct I as [I|I], J as [J|J]; [congruence|injection I as -> ->|injection J as -> ->|auto].
  - exfalso. apply N1. apply (in_map fst) in J. exact J.
  - exfalso. apply N1. apply (in_map fst) in I. exact I.
Qed.
Lemma nodup_snd (l : list (Z * Z)) p p' q : NoDup (map snd l) -> In (p, q) l -> In (p', q) l -> p = p'.
Proof.
  induction l as [|[x y] l IH]; [easy|]. cbn [map snd]. intros N I J. apply NoDup_cons_iff in N as [N1 N2].
  destruct I as [I|I], J as [J|J]; [congruence|injection I as -> ->|injection J as -> ->|auto].
  - exfalso. apply N1. apply (in_map snd) in J. exact J.
  - exfalso. apply N1. apply (in_map snd) in I. exact I.
Qed.
Lemma disjoint_fst v : disjoint v -> forall a b p q q', In (a, p, b, q) v -> In (a, p, b, q') v -> q = q'.
Proof. intros D a b p q q' I J. destruct (D a b) as [N _]. apply in_pairs in I, J. eapply nodup_fst; eassumption. Qed.
Lemma disjoint_snd v : disjoint v -> forall a b p p' q, In (a, p, b, q) v -> In (a, p', b, q) v -> p = p'.
Proof. intros D a b p p' q I J. destruct (D a b) as [_ N]. apply in_pairs in I, J. eapply nodup_snd; eassumption. Qed.
Lemma disjoint_mid v1 v2 a p b q : disjoint (v1 ++ (a, p, b, q) :: v2) ->
  forall p' q', In (a, p', b, q') (v1 ++ v2) -> p' <> p /\ q' <> q.
Proof.
  intros D p' q' I. destruct (D a b) as [N1 N2]. rewrite pairs_app, pairs_cons in N1, N2.
  rewrite map_app in N1, N2. cbn [map fst snd] in N1, N2. apply NoDup_remove_2 in N1, N2. rewrite <- map_app, <- pairs_app in N1, N2.
  apply in_pairs in I. split; intros ->; [apply N1; apply (in_map fst) in I|apply N2; apply (in_map snd) in I]; exact I.
Qed.

(** the bit maps have every configured route *)
Definition Full (s : st) : Prop := forall sh p q, In sh (shareds s) -> In (s_src sh, p, s_dst sh, q) (view s) ->
  get (s_smap sh) (Z.to_nat p) = Some true /\ get (s_dmap sh) (Z.to_nat q) = Some true.
Lemma same_view s s' : routes s' = routes s -> shareds s' = shareds s -> view s' = view s.
Proof. unfold view. intros -> ->. reflexivity. Qed.
Lemma step_same s o s' x : step s o = Some (s', x) ->
  match o with RouteAdd _ _ _ _ _ | RouteDel _ _ _ _ => True | _ => routes s' = routes s /\ shareds s' = shareds s end.
Proof.
  destruct o; cbn [step]; intros H; auto.
  - unfold instance_add in H. destruct (existsb _ _); injection H as <- <-; easy.
  - unfold instance_del in H. destruct (find _ _); [|easy]. destruct (0 <? _); injection H as <- <-; easy.
  - unfold accept in H. destruct (find _ _); [|easy]. destruct (find_route _ _) as [r0|]; [|easy]. destruct (find_shared _ _); [|easy].
    destruct (find_inst _ _); [|easy]. destruct ok; injection H as <- <-; easy.
  - injection H as <- <-. easy.
  - destruct (sock_src_cb _ _ _); [|easy]. injection H as <- <-. easy.
  - destruct (sock_dst_cb _ _ _); [|easy]. injection H as <- <-. easy.
Qed.
Lemma dreach_Full s : dreach s -> Full s /\ disjoint (view s).
Proof.
  induction 1 as [|s o s' x R [F D] S D']; [split; [intros sh p q []|intros a b; split; constructor]|].
  split; [|exact D']. pose proof (reach_Inv s (dreach_reach s R)) as V.
  pose proof (step_same s o s' x S) as SM.
  assert (B : forall a p b q, In (a, p, b, q) (view s') -> 0 <= p < 256 /\ 0 <= q < 256).
  { apply view_bounds. eapply step_Inv; eassumption. }
  destruct o; try (unfold Full; rewrite (proj2 SM), (same_view s s' (proj1 SM) (proj2 SM)); exact F); clear SM; cbn [step] in S.
  - destruct (route_add_spec s n1 v1 n2 v2 bound V) as [E|(a & b & t & i' & E & W & _ & _ & _ & _ & _ & _ & _ & U1 & U2 & VW & _ & _ & _ & _ & SX)];
      rewrite E in S; injection S as <- <-; [exact F|]. cbn [fst] in *.
    intros sh p q I J. destruct (B _ _ _ _ J) as [Bp Bq].
    destruct (SX sh I) as [[I' NE]|(E1 & E2 & m & d & O & P1 & P2)].
    + rewrite VW in J. apply in_app_iff in J as [J|[J|[]]]; [now apply F|]. injection J as E1 _ E2 _. destruct NE; congruence.
    + rewrite (put_get _ _ _ _ (Z.to_nat p) P1), (put_get _ _ _ _ (Z.to_nat q) P2).
      assert (0 <= uint32 v1) by (apply Z.mod_pos_bound; reflexivity). assert (0 <= uint32 v2) by (apply Z.mod_pos_bound; reflexivity).
      rewrite VW in J. rewrite E1, E2 in J. apply in_app_iff in J as [J|[J|[]]].
      * destruct O as [(y & Y1 & Y2 & Y3 & <- & <-)|O]; [|exfalso; eapply O, J]. rewrite <- Y2, <- Y3 in J. destruct (F y p q Y1 J) as [-> ->].
        destruct (Nat.eqb _ _), (Nat.eqb _ _); auto.
      * injection J as <- <-. rewrite !Nat.eqb_refl. easy.
  - destruct (route_del_spec s n1 v1 n2 v2 V) as [E|(a & b & l1 & r & l2 & _ & _ & _ & _ & _ & VW & _ & [[_ E]|(_ & t & E & W & _ & _ & _ & _ & _ & SX & VW')])];
      rewrite E in S; [injection S as <- <-; exact F|easy|injection S as <- <-]. cbn [fst] in *.
    intros sh p q I J. destruct (B _ _ _ _ J) as [Bp Bq].
    assert (0 <= uint32 v1) by (apply Z.mod_pos_bound; reflexivity). assert (0 <= uint32 v2) by (apply Z.mod_pos_bound; reflexivity).
    assert (J0 : In (s_src sh, p, s_dst sh, q) (view s)).
    { rewrite VW' in J. rewrite VW. apply in_app_iff in J as [J|J]; apply in_app_iff; [now left|right; now right]. }
    destruct (SX sh I) as [[I' NE]|(E1 & E2 & y & Y1 & Y2 & Y3 & P1 & P2)]; [now apply F|].
    rewrite E1, E2 in J. rewrite VW' in J. rewrite VW in D. destruct (disjoint_mid _ _ _ _ _ _ D p q J) as [N1 N2].
    rewrite (put_get _ _ _ _ (Z.to_nat p) P1), (put_get _ _ _ _ (Z.to_nat q) P2).
    rewrite E1, E2, <- Y2, <- Y3 in J0. destruct (F y p q Y1 J0) as [-> ->].
    destruct (Nat.eqb_spec (Z.to_nat p) (Z.to_nat (uint32 v1))); [lia|]. destruct (Nat.eqb_spec (Z.to_nat q) (Z.to_nat (uint32 v2))); [lia|]. easy.
Qed.

(** ** C46: forwarding *)
Lemma conn_shared_in s cid sh : conn_shared s cid = Some sh -> In sh (shareds s).
Proof.
  unfold conn_shared. destruct (find _ _); [|easy]. destruct (find_route _ _); [|easy]. unfold find_shared. intros F. now apply find_id_some in F.
Qed.
(** in every history: a message is dropped when no route has its stream identifier on
    the side it comes from, and what is forwarded belongs to a route with it *)
Theorem C46_not_routed : forall s cid a b p, reach s -> conn_pair s cid = Some (a, b) -> 0 <= p < 256 ->
  ((forall q, ~ In (a, p, b, q) (view s)) -> sock_src_cb s cid p = Some Dropped) /\
  ((forall q, ~ In (a, q, b, p) (view s)) -> sock_dst_cb s cid p = Some Dropped).
Proof.
  intros s cid a b p R C B. pose proof (reach_Inv s R) as V. unfold conn_pair in C. unfold sock_src_cb, sock_dst_cb.
  destruct (conn_shared s cid) as [sh|] eqn:E; [|easy]. injection C as <- <-. apply conn_shared_in in E.
  destruct (I_t s V sh E) as [(_ & _ & T1) (_ & _ & T2)]. split; intros N.
  - destruct (T1 p B) as [[_ (q & _ & I)]|[-> _]]; [exfalso; eapply N, I|reflexivity].
  - destruct (T2 p B) as [[_ (q & _ & I)]|[-> _]]; [exfalso; eapply N, I|reflexivity].
Qed.
(** where no two routes of a pair share an identifier: a message from the source is
    forwarded iff a route has its identifier on the source side; but the new
    identifier is taken from the route that has the old one on the *other* side, and is
    0 when there is none *)
Theorem C46_src : forall s cid a b p q, dreach s -> conn_pair s cid = Some (a, b) -> In (a, p, b, q) (view s) ->
  (forall p', In (a, p', b, p) (view s) -> sock_src_cb s cid p = Some (Forwarded p')) /\
  ((forall p', ~ In (a, p', b, p) (view s)) -> sock_src_cb s cid p = Some (Forwarded 0)).
Proof.
  intros s cid a b p q R C I. pose proof (reach_Inv s (dreach_reach s R)) as V. destruct (dreach_Full s R) as [F D].
  unfold conn_pair in C. unfold sock_src_cb. destruct (conn_shared s cid) as [sh|] eqn:E; [|easy]. injection C as <- <-. apply conn_shared_in in E.
  destruct (F sh p q E I) as [-> _]. destruct (I_t s V sh E) as [_ (_ & _ & T2)].
  destruct (view_bounds s V _ _ _ _ I) as [B _].
  destruct (T2 p B) as [[_ (q' & -> & J)]|[M ->]]; split; intros H; try reflexivity.
  - intros K. f_equal. f_equal. apply (disjoint_snd _ D _ _ _ _ _ J K).
  - exfalso. eapply H, J.
  - intros K. destruct (F sh _ _ E K) as [_ K2]. congruence.
Qed.
(** the same from the destination, as long as the source has not closed *)
Theorem C46_dst : forall s cid a b p q c, dreach s -> conn_pair s cid = Some (a, b) -> In (a, q, b, p) (view s) ->
  find (fun x => Nat.eqb (c_id x) cid) (conns s) = Some c -> c_src c = true ->
  (forall p', In (a, p, b, p') (view s) -> sock_dst_cb s cid p = Some (Forwarded p')) /\
  ((forall p', ~ In (a, p, b, p') (view s)) -> sock_dst_cb s cid p = Some (Forwarded 0)).
Proof.
  intros s cid a b p q c R C I Fc O. pose proof (reach_Inv s (dreach_reach s R)) as V. destruct (dreach_Full s R) as [F D].
  unfold conn_pair in C. unfold sock_dst_cb. destruct (conn_shared s cid) as [sh|] eqn:E; [|easy]. injection C as <- <-. apply conn_shared_in in E.
  destruct (F sh q p E I) as [_ ->]. destruct (I_t s V sh E) as [(_ & _ & T1) _].
  destruct (view_bounds s V _ _ _ _ I) as [_ B]. rewrite Fc, O.
  destruct (T1 p B) as [[_ (q' & -> & J)]|[M ->]]; split; intros H; try reflexivity.
  - intros K. f_equal. f_equal. apply (disjoint_fst _ D _ _ _ _ _ J K).
  - exfalso. eapply H, J.
  - intros K. destruct (F sh _ _ E K) as [K2 _]. congruence.
Qed.
(** so the mapping is the configured one exactly where the routes of the pair are
    symmetric, such as those that keep the identifier *)
Theorem C46_symmetric : forall s cid a b p q c, dreach s -> conn_pair s cid = Some (a, b) ->
  (forall p q, In (a, p, b, q) (view s) -> In (a, q, b, p) (view s)) ->
  find (fun x => Nat.eqb (c_id x) cid) (conns s) = Some c -> c_src c = true ->
  In (a, p, b, q) (view s) ->
  sock_src_cb s cid p = Some (Forwarded q) /\ sock_dst_cb s cid q = Some (Forwarded p).
Proof.
  intros s cid a b p q c R C SY Fc O I. split.
  - apply (C46_src s cid a b p q R C I). now apply SY.
  - apply (C46_dst s cid a b q p c R C I Fc O). now apply SY.
Qed.
(** [C46] refuted: a route that translates p to q <> p is honoured in neither direction
    unless the reverse translation is configured as well: with no other route using p
    or q, messages of both directions get identifier 0 *)
Theorem C46_refuted_translation : forall s cid a b p q c, dreach s -> conn_pair s cid = Some (a, b) ->
  In (a, p, b, q) (view s) -> (forall x, ~ In (a, x, b, p) (view s)) -> (forall x, ~ In (a, q, b, x) (view s)) ->
  find (fun x => Nat.eqb (c_id x) cid) (conns s) = Some c -> c_src c = true ->
  sock_src_cb s cid p = Some (Forwarded 0) /\ sock_dst_cb s cid q = Some (Forwarded 0).
Proof.
  intros s cid a b p q c R C I N1 N2 Fc O. split.
  - apply (C46_src s cid a b p q R C I). exact N1.
  - apply (C46_dst s cid a b q p c R C I Fc O). exact N2.
Qed.

(** ** C47: the configuration *)
(** in every history: the counter of an instance is the number of routes that use it;
    every route joins a bind instance to a connect instance that both exist *)
Theorem C47_counters : forall s, reach s ->
  NoDup (map i_id (insts s)) /\
  (forall i, In i (insts s) -> i_refcnt i = uses (view s) (i_id i)) /\
  (forall a p b q, In (a, p, b, q) (view s) -> 0 <= p < 256 /\ 0 <= q < 256 /\
     (exists x, In x (insts s) /\ i_id x = a /\ i_type x = T_BIND) /\
     (exists y, In y (insts s) /\ i_id y = b /\ i_type y = T_CONNECT)).
Proof.
  intros s R. pose proof (reach_Inv s R) as V. split; [apply V|]. split; [apply V|].
  intros a p b q I. destruct (view_bounds s V _ _ _ _ I) as [B1 B2]. destruct (view_insts s V _ _ _ _ I) as [X Y]. auto.
Qed.
(** an instance in use is not deleted; one that is not is, and nothing else changes *)
Theorem C47_instance_del : forall s name i, reach s -> find (name_is name) (insts s) = Some i ->
  (0 < uses (view s) (i_id i) -> instance_del s name = Some (s, Warn)) /\
  (uses (view s) (i_id i) = 0 -> exists s', instance_del s name = Some (s', Ok) /\ view s' = view s /\ links s' = links s /\ conns s' = conns s /\
     exists l1 l2, insts s = l1 ++ i :: l2 /\ insts s' = l1 ++ l2).
Proof.
  intros s name i R F. pose proof (reach_Inv s R) as V. unfold instance_del. rewrite F. apply find_some in F as [Fi _].
  rewrite (I_i s V i Fi). split; intros H.
  - now replace (0 <? uses (view s) (i_id i)) with true by lia.
  - rewrite H. cbn [Z.ltb Z.compare]. eexists. split; [reflexivity|]. do 3 (split; [reflexivity|]).
    apply in_split in Fi as (l1 & l2 & E). exists l1, l2. split; [exact E|]. cbn [insts].
    pose proof (I_ni s V) as N. rewrite E in *. rewrite map_app in N. cbn [map] in N. apply NoDup_remove_2 in N.
    rewrite filter_app. cbn [filter]. rewrite Nat.eqb_refl. cbn [negb].
    assert (K : forall l, (forall x, In x l -> In (i_id x) (map i_id l1 ++ map i_id l2)) -> filter (fun x => negb (Nat.eqb (i_id x) (i_id i))) l = l).
    { induction l as [|x l IH]; [easy|]. intros W. cbn [filter]. destruct (Nat.eqb_spec (i_id x) (i_id i)) as [Q|Q].
      - exfalso. apply N. rewrite <- Q. apply W. now left.
      - cbn [negb]. f_equal. apply IH. intros y Y. apply W. now right. }
    rewrite !K; [reflexivity| |]; intros x X; apply in_app_iff; [right|left]; now apply in_map.
Qed.
(** adding a route either changes nothing or adds exactly that route, between a bind
    instance and a connect instance of those names, and listens on the source's port
    iff it is the first of its pair *)
Theorem C47_route_add : forall s n1 v1 n2 v2 bound, reach s ->
  route_add s n1 v1 n2 v2 bound = Some (s, Warn) \/
  exists a b s', route_add s n1 v1 n2 v2 bound = Some (s', Ok) /\
    In a (insts s) /\ In b (insts s) /\ name_is n1 a = true /\ name_is n2 b = true /\ i_type a = T_BIND /\ i_type b = T_CONNECT /\
    uint32 v1 < 256 /\ uint32 v2 < 256 /\
    view s' = view s ++ [(i_id a, uint32 v1, i_id b, uint32 v2)] /\ conns s' = conns s /\
    map l_port (links s') = map l_port (links s) ++ (if 0 <? between (view s) (i_id a) (i_id b) then [] else [i_port a]).
Proof.
  intros s n1 v1 n2 v2 bound R. pose proof (reach_Inv s R) as V.
  destruct (route_add_spec s n1 v1 n2 v2 bound V) as [E|(a & b & t & i' & E & W & C & Ia & Ib & Na & Nb & Ta & Tb & U1 & U2 & VW & L & _)]; [now left|right].
  exists a, b, t. repeat split; auto. destruct L as [[-> (p & q & I)]|(l & -> & L1 & _ & NI & _)].
  - assert (X : 0 < between (view s) (i_id a) (i_id b)) by (apply between_pos; eauto).
    replace (0 <? between (view s) (i_id a) (i_id b)) with true by lia. now rewrite app_nil_r.
  - replace (0 <? between (view s) (i_id a) (i_id b)) with false; [rewrite map_app; cbn; now rewrite L1|]. symmetry. apply Z.ltb_ge.
    apply Z.nlt_ge. intros X. apply between_pos in X as (p & q & X). eapply NI, X.
Qed.
(** when it is refused: unless an instance is missing or of the wrong type, an
    identifier is out of range, the port cannot be bound for the first route of the
    pair, or the oldest route of the pair is this one, it is added *)
Theorem C47_route_add_accepted : forall s n1 v1 n2 v2 a b, reach s ->
  find_src s n1 = Some a -> find_dst s n1 n2 = Some b -> i_type a = T_BIND -> i_type b = T_CONNECT ->
  0 <= v1 < 256 -> 0 <= v2 < 256 ->
  hd_error (pairs (view s) (i_id a) (i_id b)) <> Some (v1, v2) ->
  exists s', route_add s n1 v1 n2 v2 true = Some (s', Ok) /\ view s' = view s ++ [(i_id a, v1, i_id b, v2)].
Proof.
  intros s n1 v1 n2 v2 a b R Fa Fb Ta Tb B1 B2 H. pose proof (reach_Inv s R) as V.
  assert (U1 : uint32 v1 = v1) by (apply Z.mod_small; lia). assert (U2 : uint32 v2 = v2) by (apply Z.mod_small; lia).
  assert (AR : route_args s n1 v1 n2 v2 = Some (a, v1, b, v2)).
  { unfold route_args. rewrite Fa, Fb, Ta, Tb, U1, U2. replace (0xff <? v1) with false by lia. now replace (0xff <? v2) with false by lia. }
  assert (NW : route_add s n1 v1 n2 v2 true <> Some (s, Warn)).
  { unfold route_add. rewrite AR. cbn [negb].
    pose proof (find_routeM_spec s (fun _ sh => pair_is (i_id a) (i_id b) sh) (routes s) V (fun r H => H)) as W.
    destruct (find_routeM _ _ _) as [[[r sh]|]|]; [| |easy].
    - destruct (_ && _) eqn:E; [|destruct (map_route _ _ _); congruence]. exfalso. apply H.
      apply andb_true_iff in E as [E1 E2]. apply Z.eqb_eq in E1, E2.
      destruct W as (l1 & l2 & RR & S1 & S2 & PI & FST). unfold pair_is in PI. apply andb_true_iff in PI as [P1 P2]. apply Nat.eqb_eq in P1, P2.
      unfold view. rewrite RR, view_app, pairs_app. cbn [flat_map]. unfold rt_of at 2. rewrite <- S2, (shared_pair_in _ sh (I_ns s V) S1).
      cbn [app]. rewrite P1, P2, pairs_cons.
      assert (N : pairs (flat_map (rt_of (shareds s)) l1) (i_id a) (i_id b) = []).
      { destruct (pairs (flat_map (rt_of (shareds s)) l1) (i_id a) (i_id b)) as [|[p q] l] eqn:Q; [easy|exfalso].
        assert (J : In (p, q) ((p, q) :: l)) by now left. rewrite <- Q in J. apply in_pairs in J.
        apply in_flat_map in J as (r' & J1 & J2).
        assert (R' : In r' (routes s)) by (rewrite RR; apply in_app_iff; now left).
        destruct (I_r s V r' R') as (_ & _ & x & X1 & X2). unfold rt_of in J2. rewrite <- X2, (shared_pair_in _ x (I_ns s V) X1) in J2. destruct J2 as [J2|[]].
        injection J2 as E3 _ E4 _. specialize (FST r' x J1 X1 X2). unfold pair_is in FST. rewrite E3, E4, !Nat.eqb_refl in FST. easy. }
      rewrite N. cbn. now rewrite E1, E2.
    - destruct (map_route _ _ _); congruence. }
  destruct (route_add_spec s n1 v1 n2 v2 true V) as [E|(a' & b' & t & i' & E & _ & _ & _ & _ & _ & _ & _ & _ & _ & _ & VW & _)]; [easy|].
  exists t. split; [exact E|].
  unfold route_add in E. rewrite AR in E.
  assert (IV : insts t = add_ref 1 (i_id a) (i_id b) (insts s)).
  { destruct (find_routeM _ _ _) as [[[r sh]|]|]; [| |easy].
    - destruct (_ && _); [easy|]. destruct (map_route _ _ _); [|easy]. now injection E as <-.
    - cbn [negb] in E. destruct (map_route _ _ _); [|easy]. now injection E as <-. }
  destruct (route_add_spec s n1 v1 n2 v2 true V) as [E'|(a2 & b2 & t2 & i2 & E' & _ & _ & Ia & Ib & Na & Nb & Ta2 & Tb2 & _ & _ & VW2 & _ & _ & _ & IV2 & _)]; [easy|].
  assert (t2 = t). { unfold route_add in E'. rewrite AR in E'. congruence. } subst t2.
  rewrite VW2, U1, U2.
  (* the instances are determined by the counters *)
  assert (XA : forall x, In x (insts s) -> ((if Nat.eqb (i_id x) (i_id a) then 1 else 0) + (if Nat.eqb (i_id x) (i_id b) then 1 else 0)) = ((if Nat.eqb (i_id x) (i_id a2) then 1 else 0) + (if Nat.eqb (i_id x) (i_id b2) then 1 else 0))).
  { rewrite IV in IV2. unfold add_ref in IV2. intros x X. pose proof (ext_in_map IV2 x X) as M. cbn beta in M. injection M as M. lia. }
  unfold find_src in Fa. unfold find_dst in Fb. apply find_some in Fa as [Fa _], Fb as [Fb _]. apply in_rev in Fa, Fb.
  pose proof (neq_types s a b V Fa Fb Ta Tb) as NE. pose proof (neq_types s a2 b V Ia Fb Ta2 Tb) as NE2. pose proof (neq_types s a b2 V Fa Ib Ta Tb2) as NE3.
  pose proof (XA a Fa) as X1. pose proof (XA b Fb) as X2. rewrite !Nat.eqb_refl in X1, X2.
  destruct (Nat.eqb_spec (i_id a) (i_id b)); [easy|]. destruct (Nat.eqb_spec (i_id a) (i_id b2)); [easy|].
  destruct (Nat.eqb_spec (i_id b) (i_id a)); [congruence|]. destruct (Nat.eqb_spec (i_id b) (i_id a2)); [congruence|].
  destruct (Nat.eqb_spec (i_id a) (i_id a2)) as [->|]; [|lia]. destruct (Nat.eqb_spec (i_id b) (i_id b2)) as [->|]; [|lia]. reflexivity.
Qed.
(** deleting a route: nothing happens, or exactly the oldest route equal to it is
    removed, or (when it is the only route of its pair) the behaviour is undefined *)
Theorem C47_route_del : forall s n1 v1 n2 v2, reach s ->
  route_del s n1 v1 n2 v2 = Some (s, Warn) \/
  exists a b w1 w2, In a (insts s) /\ In b (insts s) /\ name_is n1 a = true /\ name_is n2 b = true /\
    view s = w1 ++ (i_id a, uint32 v1, i_id b, uint32 v2) :: w2 /\ ~ In (i_id a, uint32 v1, i_id b, uint32 v2) w1 /\
    ((between (view s) (i_id a) (i_id b) = 1 /\ route_del s n1 v1 n2 v2 = None) \/
     (1 < between (view s) (i_id a) (i_id b) /\
      exists s', route_del s n1 v1 n2 v2 = Some (s', Ok) /\ view s' = w1 ++ w2 /\ conns s' = conns s /\ links s' = links s)).
Proof.
  intros s n1 v1 n2 v2 R. pose proof (reach_Inv s R) as V.
  destruct (route_del_spec s n1 v1 n2 v2 V) as [E|(a & b & l1 & r & l2 & Ia & Ib & Na & Nb & RR & VW & NI & H)]; [now left|right].
  exists a, b, (flat_map (rt_of (shareds s)) l1), (flat_map (rt_of (shareds s)) l2). repeat split; auto.
  destruct H as [H|(H & t & E & _ & H1 & H2 & _ & _ & _ & _ & H3)]; [now left|right]. split; [exact H|]. exists t. auto.
Qed.

(** *** Instance names *)
Definition short_names (o : op) : Prop := match o with InstAdd n _ _ _ => (length n <= 15)%nat | _ => True end.
Inductive nreach : st -> Prop :=
| nreach0 : nreach st0
| nreach1 s o s' x : nreach s -> short_names o -> step s o = Some (s', x) -> nreach s'.
Lemma nreach_reach s : nreach s -> reach s.
Proof. induction 1; [constructor|econstructor; eassumption]. Qed.
Lemma strncmp_eq_short n : forall a b, (length a <= n)%nat -> (length a < n \/ length b <= n)%nat -> strncmp_eq n a b = true <-> a = b.
Proof.
  induction n as [|n IH]; intros a b L K; cbn [strncmp_eq].
  - destruct a; [|cbn in L; lia]. destruct b; [easy|cbn in K; lia].
  - destruct a as [|x a], b as [|y b]; try (split; easy). cbn [length] in *. rewrite andb_true_iff, Z.eqb_eq, IH by lia.
    split; [intros [-> ->]; reflexivity|intros E; now injection E].
Qed.
Lemma name_is_short name i : (length (i_name i) <= 15)%nat -> name_is name i = true <-> i_name i = name.
Proof. intros L. apply strncmp_eq_short; unfold IPA_INSTANCE_NAME; lia. Qed.
Lemma insts_names s o s' x : reach s -> step s o = Some (s', x) ->
  map i_name (insts s') = match o with InstAdd n _ _ _ => map i_name (insts s) ++ (if existsb (name_is n) (insts s) then [] else [firstn 15 n]) | InstDel _ => map i_name (insts s') | _ => map i_name (insts s) end.
Proof.
  intros R S. pose proof (reach_Inv s R) as V. destruct o; cbn [step] in S; auto.
  - unfold instance_add in S. destruct (existsb _ _); injection S as <- <-; [now rewrite app_nil_r|]. cbn [insts]. rewrite map_app. reflexivity.
  - destruct (route_add_spec s n1 v1 n2 v2 bound V) as [E|(a & b & t & i' & E & _ & _ & _ & _ & _ & _ & _ & _ & _ & _ & _ & _ & _ & _ & I & _)]; rewrite E in S; injection S as <- <-; [easy|].
    cbn [fst]. rewrite I. unfold add_ref. rewrite map_map. apply map_ext. reflexivity.
  - destruct (route_del_spec s n1 v1 n2 v2 V) as [E|(a & b & l1 & r & l2 & _ & _ & _ & _ & _ & _ & _ & [[_ E]|(_ & t & E & _ & _ & _ & _ & _ & I & _)])];
      rewrite E in S; [injection S as <- <-; easy|easy|injection S as <- <-]. cbn [fst]. rewrite I. unfold add_ref. rewrite map_map. apply map_ext. reflexivity.
  - unfold accept in S. destruct (find _ _); [|easy]. destruct (find_route _ _) as [r0|]; [|easy]. destruct (find_shared _ _); [|easy].
    destruct (find_inst _ _); [|easy]. destruct ok; injection S as <- <-; easy.
  - injection S as <- <-. easy.
  - destruct (sock_src_cb _ _ _); [|easy]. injection S as <- <-. easy.
  - destruct (sock_dst_cb _ _ _); [|easy]. injection S as <- <-. easy.
Qed.
Lemma nodup_map_filter {A B} (f : A -> B) (p : A -> bool) l : NoDup (map f l) -> NoDup (map f (filter p l)).
Proof.
  induction l as [|x l IH]; [easy|]. cbn [map filter]. intros N. apply NoDup_cons_iff in N as [N1 N2]. destruct (p x); [|auto].
  cbn [map]. constructor; [|auto]. intros I. apply N1. apply in_map_iff in I as (y & E & Y). apply filter_In in Y as [Y _]. rewrite <- E. now apply in_map.
Qed.
(** names of up to 15 octets identify instances: no two instances have the same, and
    [ipa instance] is accepted iff the name is not taken *)
Theorem C47_names : forall s, nreach s ->
  NoDup (map i_name (insts s)) /\ (forall i, In i (insts s) -> (length (i_name i) <= 15)%nat).
Proof.
  induction 1 as [|s o s' x R [N L] SN S]; [split; [constructor|easy]|].
  pose proof (insts_names s o s' x (nreach_reach s R) S) as M.
  assert (LL : forall n, In n (map i_name (insts s)) -> (length n <= 15)%nat) by (intros n I; apply in_map_iff in I as (i & <- & I); auto).
  assert (G : NoDup (map i_name (insts s')) /\ forall n, In n (map i_name (insts s')) -> (length n <= 15)%nat).
  { destruct o; try (rewrite M; split; assumption).
    - cbn [short_names] in SN. rewrite M. destruct (existsb (name_is name) (insts s)) eqn:E; [rewrite app_nil_r; split; assumption|].
      rewrite firstn_all2 by lia. split.
      + apply nodup_snoc; [exact N|]. intros I. apply in_map_iff in I as (i & I1 & I2).
        assert (X : existsb (name_is name) (insts s) = true) by (apply existsb_exists; exists i; split; [easy|]; apply name_is_short; auto). congruence.
      + intros n I. apply in_app_iff in I as [I|[<-|[]]]; auto.
    - cbn [step] in S. unfold instance_del in S. destruct (find _ _) as [i|]; [|easy]. destruct (0 <? _); injection S as <- <-; [split; assumption|].
      cbn [fst insts]. split; [now apply nodup_map_filter|]. intros n I. apply in_map_iff in I as (y & <- & I). apply filter_In in I as [I _]. auto. }
  destruct G as [G1 G2]. split; [exact G1|]. intros i I. apply G2. now apply in_map.
Qed.
Theorem C47_instance_add : forall s name ty addr port, nreach s -> (length name <= 15)%nat ->
  (In name (map i_name (insts s)) -> instance_add s name ty addr port = (s, Warn)) /\
  (~ In name (map i_name (insts s)) -> exists s', instance_add s name ty addr port = (s', Ok) /\ view s' = view s /\ links s' = links s /\ conns s' = conns s /\
     insts s' = insts s ++ [mkI (next s) name ty addr (port mod 65536) 0]).
Proof.
  intros s name ty addr port R L. destruct (C47_names s R) as [_ LL]. unfold instance_add. destruct (existsb (name_is name) (insts s)) eqn:E; split; intros H; try reflexivity.
  - exfalso. apply H. apply existsb_exists in E as (i & I & J). apply name_is_short in J; [|auto]. rewrite <- J. now apply in_map.
  - exfalso. apply in_map_iff in H as (i & I1 & I2).
    assert (X : existsb (name_is name) (insts s) = true) by (apply existsb_exists; exists i; split; [easy|]; apply name_is_short; auto). congruence.
  - rewrite (firstn_all2 name) by lia. eexists. split; [reflexivity|]. cbn. auto.
Qed.
(** and the commands address the instances of those names *)
Theorem C47_addressed : forall s n i, nreach s -> In i (insts s) -> i_name i = n ->
  find (name_is n) (insts s) = Some i /\ find_src s n = Some i /\ forall n1, n1 <> n -> find_dst s n1 n = Some i.
Proof.
  intros s n i R I E. destruct (C47_names s R) as [N LL].
  assert (G : forall (P : inst -> bool) l, (forall x, In x l -> In x (insts s)) -> In i l -> P i = true -> (forall x, P x = true -> In x l -> name_is n x = true) -> find P l = Some i).
  { intros P l SUB IL PI W. destruct (find P l) as [y|] eqn:F.
    - apply find_some in F as [F1 F2]. apply W in F2; [|easy]. apply name_is_short in F2; [|auto]. f_equal.
      apply SUB in F1. clear -N F1 F2 I E. revert N I F1. induction (insts s) as [|z l' IH]; [easy|]. cbn [map]. intros N. apply NoDup_cons_iff in N as [N1 N2].
      intros [Q1|Q1] [Q2|Q2]; [congruence| | |auto]; exfalso; apply N1; subst z; [rewrite E, <- F2|rewrite F2, <- E]; now apply in_map.
    - eapply find_none in F; [|exact IL]. congruence. }
  assert (NI : name_is n i = true) by (apply name_is_short; auto).
  split; [apply G; auto|]. split.
  - apply G; auto; [intros x X; now apply in_rev|now apply in_rev in I].
  - intros n1 D. apply G; [intros x X; now apply in_rev|now apply in_rev in I| |].
    + rewrite NI. cbn [andb]. apply negb_true_iff. destruct (name_is n1 i) eqn:Q; [|easy]. apply name_is_short in Q; [congruence|auto].
    + intros x X _. now apply andb_true_iff in X.
Qed.

(** *** Histories free of undefined behaviour *)
(** what the operator and the peers must not do: delete an instance that does not
    exist; delete the oldest route of a pair; and the source must not close its
    connection while the destination sends *)
Definition safe (s : st) (o : op) : Prop :=
  match o with
  | InstDel n => exists i, In i (insts s) /\ name_is n i = true
  | RouteDel n1 v1 n2 v2 => forall a b w1 w2, In a (insts s) -> In b (insts s) -> name_is n1 a = true -> name_is n2 b = true ->
      view s = w1 ++ (i_id a, uint32 v1, i_id b, uint32 v2) :: w2 -> pairs w1 (i_id a) (i_id b) <> []
  | Accept l _ => In l (map l_id (links s))
  | SrcMsg c p => 0 <= p < 256 /\ exists x, In x (conns s) /\ c_id x = c /\ c_src x = true
  | DstMsg c p => 0 <= p < 256 /\ exists x, In x (conns s) /\ c_id x = c /\ c_src x = true
  | _ => True
  end.
Inductive sreach : st -> Prop :=
| sreach0 : sreach st0
| sreach1 s o s' x : sreach s -> safe s o -> step s o = Some (s', x) -> sreach s'.
Lemma sreach_reach s : sreach s -> reach s.
Proof. induction 1; [constructor|econstructor; eassumption]. Qed.
Record LInv (s : st) : Prop := {
  L_first : forall l, In l (links s) -> exists r1 r r2, routes s = r1 ++ r :: r2 /\ r_id r = l_route l /\ forall r', In r' r1 -> r_shared r' <> r_shared r;
  L_conn : forall c, In c (conns s) -> exists l, In l (links s) /\ c_route c = l_route l;
  L_ids : NoDup (map c_id (conns s)); L_lt : forall c, In c (conns s) -> (c_id c < next s)%nat;
  L_lids : NoDup (map l_id (links s)); L_llt : forall l, In l (links s) -> (l_id l < next s)%nat
}.
Lemma split_unique (x1 x2 y1 y2 : list route) x y : x1 ++ x :: x2 = y1 ++ y :: y2 -> NoDup (map r_id (x1 ++ x :: x2)) -> r_id x = r_id y -> x1 = y1 /\ x = y /\ x2 = y2.
Proof.
  revert y1. induction x1 as [|z x1 IH]; intros [|w y1] E N H; cbn [app] in *.
  - injection E as -> ->. auto.
  - exfalso. injection E as -> ->. cbn [map] in N. apply NoDup_cons_iff in N as [N _]. apply N. rewrite H, map_app. apply in_app_iff. right. now left.
  - exfalso. injection E as -> <-. cbn [map] in N. apply NoDup_cons_iff in N as [N _]. apply N. rewrite <- H, map_app. apply in_app_iff. right. now left.
  - injection E as -> E. cbn [map] in N. apply NoDup_cons_iff in N as [_ N]. destruct (IH y1 E N H) as (-> & -> & ->). auto.
Qed.
Lemma first_kept (r1 r2 d1 d2 : list route) r d : r1 ++ r :: r2 = d1 ++ d :: d2 -> NoDup (map r_id (r1 ++ r :: r2)) -> r_id d <> r_id r ->
  (forall r', In r' r1 -> r_shared r' <> r_shared r) ->
  exists q1 q2, d1 ++ d2 = q1 ++ r :: q2 /\ forall r', In r' q1 -> r_shared r' <> r_shared r.
Proof.
  revert d1. induction r1 as [|z r1 IH]; intros [|w d1] E N H F; cbn [app] in *.
  - injection E as -> ->. congruence.
  - injection E as -> ->. exists [], (d1 ++ d2). split; [easy|]. intros r' [].
  - injection E as -> <-. exists r1, r2. split; [easy|]. intros r' I. apply F. now right.
  - injection E as -> E. cbn [map] in N. apply NoDup_cons_iff in N as [_ N].
    destruct (IH d1 E N H (fun r' I => F r' (or_intror I))) as (q1 & q2 & -> & Q). exists (w :: q1), q2. split; [easy|].
    intros r' [<-|I]; [apply F; now left|auto].
Qed.
Lemma sreach_LInv s : sreach s -> LInv s.
Proof.
  induction 1 as [|s o s' x R [L1 L2 L3 L4 L5 L6] SF S]; [constructor; cbn; try constructor; easy|].
  pose proof (reach_Inv s (sreach_reach s R)) as V. destruct o; cbn [step] in S.
  - unfold instance_add in S. destruct (existsb _ _); injection S as <- <-; constructor; cbn; auto.
    + intros c I. apply L4 in I. lia.
    + intros c I. apply L6 in I. lia.
  - unfold instance_del in S. destruct (find _ _); [|easy]. destruct (0 <? _); injection S as <- <-; constructor; auto.
  - destruct (route_add_spec s n1 v1 n2 v2 bound V) as [E|(a & b & t & i' & E & W & C & _ & _ & _ & _ & _ & _ & _ & _ & _ & L & RR & NX & _ & _)];
      rewrite E in S; injection S as <- <-; [now constructor|]. cbn [fst].
    assert (OLD : forall l, In l (links s) -> exists r1 r r2, routes t = r1 ++ r :: r2 /\ r_id r = l_route l /\ forall r', In r' r1 -> r_shared r' <> r_shared r).
    { intros l I. destruct (L1 l I) as (r1 & r & r2 & Q1 & Q2 & Q3). exists r1, r, (r2 ++ [mkR (next s) (uint32 v1) (uint32 v2) i']). rewrite RR, Q1, <- app_assoc. auto. }
    constructor; rewrite ?NX; rewrite ?C; auto.
    + destruct L as [[-> _]|(l & -> & _ & _ & _ & LR & FR)]; [exact OLD|]. intros k K. apply in_app_iff in K as [K|[<-|[]]]; [auto|].
      exists (routes s), (mkR (next s) (uint32 v1) (uint32 v2) i'), []. rewrite RR. cbn. auto.
    + intros c I. destruct (L2 c I) as (l & J & K). exists l. split; [|easy]. destruct L as [[-> _]|(l' & -> & _)]; [easy|apply in_app_iff; now left].
    + intros c I. apply L4 in I. lia.
    + destruct L as [[-> _]|(l & -> & _ & LI & _)]; [easy|]. rewrite map_app. apply nodup_snoc; [easy|]. intros J. apply in_map_iff in J as (y & Y1 & Y2). apply L6 in Y2. lia.
    + intros k K. destruct L as [[EL _]|(l & EL & _ & LI & _)]; rewrite EL in K; [apply L6 in K; lia|]. apply in_app_iff in K as [K|[<-|[]]]; [apply L6 in K; lia|lia].
  - destruct (route_del_spec s n1 v1 n2 v2 V) as [E|(a & b & l1 & r & l2 & Ia & Ib & Na & Nb & RR & VW & _ & [[_ E]|(_ & t & E & _ & CC & LL & RR' & NX & _)])];
      rewrite E in S; [injection S as <- <-; now constructor|easy|injection S as <- <-]. cbn [fst].
    constructor; rewrite ?CC, ?LL, ?NX; auto.
    intros l I. destruct (L1 l I) as (r1 & m & r2 & Q1 & Q2 & Q3). rewrite RR'.
    assert (ND : NoDup (map r_id (r1 ++ m :: r2))) by (rewrite <- Q1; apply (I_nr s V)).
    destruct (Nat.eq_dec (r_id r) (r_id m)) as [EQ|NE].
    + exfalso. rewrite Q1 in RR. destruct (split_unique _ _ _ _ _ _ RR ND) as (-> & -> & ->); [easy|].
      cbn [safe] in SF. specialize (SF a b _ _ Ia Ib Na Nb VW). apply SF.
      destruct (pairs (flat_map (rt_of (shareds s)) l1) (i_id a) (i_id b)) as [|[p q] w] eqn:PQ; [easy|exfalso].
      assert (J : In (p, q) ((p, q) :: w)) by now left. rewrite <- PQ in J. apply in_pairs in J. apply in_flat_map in J as (r' & J1 & J2).
      assert (R1 : In r' (routes s)) by (rewrite Q1; apply in_app_iff; now left).
      assert (R2 : In r (routes s)) by (rewrite Q1; apply in_app_iff; right; now left).
      destruct (I_r s V r' R1) as (_ & _ & x & X1 & X2). destruct (I_r s V r R2) as (_ & _ & y & Y1 & Y2).
      unfold rt_of in J2. rewrite <- X2, (shared_pair_in _ x (I_ns s V) X1) in J2. destruct J2 as [J2|[]]. injection J2 as E1 _ E2 _.
      assert (VR : In (i_id a, uint32 v1, i_id b, uint32 v2) (rt_of (shareds s) r)).
      { assert (VV : view s = flat_map (rt_of (shareds s)) l1 ++ rt_of (shareds s) r ++ flat_map (rt_of (shareds s)) l2).
        { unfold view. rewrite Q1, view_app. reflexivity. }
        rewrite VW in VV. apply app_inv_head in VV.
        assert (RT : rt_of (shareds s) r = [(s_src y, r_ss r, s_dst y, r_ds r)]) by (unfold rt_of; now rewrite <- Y2, (shared_pair_in _ y (I_ns s V) Y1)).
        rewrite RT in VV |- *. cbn [app] in VV. left. congruence. }
      unfold rt_of in VR. rewrite <- Y2, (shared_pair_in _ y (I_ns s V) Y1) in VR. destruct VR as [VR|[]]. injection VR as E3 _ E4 _.
      assert (x = y) by (apply (I_p s V); auto; congruence). subst y. apply (Q3 r' J1). congruence.
    + rewrite Q1 in RR. destruct (first_kept _ _ _ _ _ _ RR ND NE Q3) as (q1 & q2 & K1 & K2). exists q1, m, q2. auto.
  - unfold accept in S. destruct (find _ (links s)) as [l|] eqn:Fl; [|easy]. destruct (find_route s (l_route l)) as [r|] eqn:Fr; [|easy]. destruct (find_shared _ _); [|easy].
    destruct (find_inst _ _); [|easy]. apply find_some in Fl as [Fl _]. unfold find_route in Fr. apply find_id_some in Fr as [_ Fr].
    destruct ok; injection S as <- <-; [|now constructor]. cbn [fst]. constructor; cbn [links routes conns next]; auto.
    + intros c [<-|I]; [exists l; auto|auto].
    + cbn [map c_id]. constructor; [|easy]. intros J. apply in_map_iff in J as (y & Y1 & Y2). apply L4 in Y2. lia.
    + intros c [<-|I]; [cbn; lia|apply L4 in I; lia].
    + intros k K. apply L6 in K. lia.
  - injection S as <- <-. constructor; cbn [src_closed links routes conns next]; auto.
    + intros c I. apply in_map_iff in I as (y & E & Y). destruct (L2 y Y) as (l & J & K). exists l. split; [easy|]. destruct (Nat.eqb _ _); subst; easy.
    + rewrite map_map. erewrite map_ext; [exact L3|]. intros c. destruct (Nat.eqb _ _); reflexivity.
    + intros c I. apply in_map_iff in I as (y & E & Y). apply L4 in Y. destruct (Nat.eqb _ _); subst; easy.
  - destruct (sock_src_cb _ _ _); [|easy]. injection S as <- <-. now constructor.
  - destruct (sock_dst_cb _ _ _); [|easy]. injection S as <- <-. now constructor.
Qed.
Lemma link_route_ok s l : sreach s -> In l (links s) -> exists r sh i, find_route s (l_route l) = Some r /\ find_shared s (r_shared r) = Some sh /\ In sh (shareds s) /\ find_inst s (s_dst sh) = Some i.
Proof.
  intros R I. pose proof (reach_Inv s (sreach_reach s R)) as V. destruct (L_first s (sreach_LInv s R) l I) as (r1 & r & r2 & E1 & E2 & _).
  assert (J : In r (routes s)) by (rewrite E1; apply in_app_iff; right; now left).
  destruct (I_r s V r J) as (_ & _ & sh & S1 & S2). destruct (I_s s V sh S1) as (_ & _ & _ & i & I1 & I2 & _).
  exists r, sh, i. unfold find_route, find_shared, find_inst. rewrite <- E2, <- S2, <- I2.
  rewrite (find_id r_id _ r (I_nr s V) J), (find_id s_id _ sh (I_ns s V) S1), (find_id i_id _ i (I_ni s V) I1). auto.
Qed.
Theorem C47_defined : forall s o, sreach s -> safe s o -> exists s' x, step s o = Some (s', x).
Proof.
  intros s o R SF. pose proof (reach_Inv s (sreach_reach s R)) as V. pose proof (sreach_LInv s R) as LV.
  assert (CS : forall cid c, In c (conns s) -> c_id c = cid -> find (fun x => Nat.eqb (c_id x) cid) (conns s) = Some c /\ exists sh, conn_shared s cid = Some sh /\ In sh (shareds s)).
  { intros cid c I <-. pose proof (find_id c_id _ c (L_ids s LV) I) as F. split; [exact F|].
    destruct (L_conn s LV c I) as (l & J & K). destruct (link_route_ok s l R J) as (r & sh & i & F1 & F2 & F3 & _).
    exists sh. unfold conn_shared. rewrite F, K, F1, F2. auto. }
  assert (TG : forall m t P p, tab_ok m t P -> 0 <= p < 256 -> exists b q, get m (Z.to_nat p) = Some b /\ get t (Z.to_nat p) = Some q).
  { intros m t P p (_ & _ & T) B. destruct (T p B) as [[? (q & ? & _)]|[? ?]]; eauto. }
  destruct o; cbn [step safe] in *.
  - destruct (instance_add _ _ _ _ _). eauto.
  - unfold instance_del. destruct (find _ _) as [i|] eqn:F; [destruct (0 <? _); cbn; eauto|]. destruct SF as (i & I & J). eapply find_none in F; [|exact I]. congruence.
  - destruct (route_add_spec s n1 v1 n2 v2 bound V) as [E|(a & b & t & i' & E & _)]; rewrite E; eauto.
  - destruct (route_del_spec s n1 v1 n2 v2 V) as [E|(a & b & l1 & r & l2 & Ia & Ib & Na & Nb & RR & VW & _ & [[B1 E]|(_ & t & E & _)])]; try (rewrite E; eauto).
    exfalso. specialize (SF a b _ _ Ia Ib Na Nb VW). rewrite VW, between_app, between_cons, !Nat.eqb_refl in B1. cbn [andb] in B1.
    destruct (pairs (flat_map (rt_of (shareds s)) l1) (i_id a) (i_id b)) as [|[p q] w] eqn:PQ; [easy|].
    assert (J : In (p, q) ((p, q) :: w)) by now left. rewrite <- PQ in J. apply in_pairs in J.
    assert (X : 0 < between (flat_map (rt_of (shareds s)) l1) (i_id a) (i_id b)) by (apply between_pos; eauto).
    pose proof (between_nonneg (flat_map (rt_of (shareds s)) l2) (i_id a) (i_id b)). lia.
  - apply in_map_iff in SF as (l & <- & I). unfold accept. rewrite (find_id l_id _ l (L_lids s LV) I).
    destruct (link_route_ok s l R I) as (r & sh & i & -> & -> & _ & ->). destruct ok; cbn; eauto.
  - eauto.
  - destruct SF as (B & c & I & E & _). destruct (CS cid c I E) as (_ & sh & F & J). unfold sock_src_cb. rewrite F.
    destruct (I_t s V sh J) as [T1 T2]. destruct (TG _ _ _ p T1 B) as (b1 & q1 & -> & _). destruct (TG _ _ _ p T2 B) as (b2 & q2 & _ & ->). destruct b1; eauto.
  - destruct SF as (B & c & I & E & O). destruct (CS cid c I E) as (Fc & sh & F & J). unfold sock_dst_cb. rewrite F, Fc, O.
    destruct (I_t s V sh J) as [T1 T2]. destruct (TG _ _ _ p T1 B) as (b1 & q1 & _ & ->). destruct (TG _ _ _ p T2 B) as (b2 & q2 & -> & _). destruct b2; eauto.
Qed.

(** ** Witnesses *)
Definition nA : list Z := [97]. Definition nB : list Z := [98].
Definition setup : list op := [InstAdd nA T_BIND [49] 4000; InstAdd nB T_CONNECT [49] 5000].
Example C46_witness : exists s, dreach s /\ conn_pair s 4 = Some (0%nat, 1%nat) /\
  view s = [(0%nat, 0xfe, 1%nat, 0xfe); (0%nat, 3, 1%nat, 5)] /\ sock_src_cb s 4 0xfe = Some (Forwarded 0xfe) /\ sock_src_cb s 4 3 = Some (Forwarded 0).
Proof.
  assert (D : forall v, (forall a b, In (a, b) [(0%nat, 1%nat)] -> NoDup (map fst (pairs v a b)) /\ NoDup (map snd (pairs v a b))) ->
    (forall a p b q, In (a, p, b, q) v -> (a, b) = (0%nat, 1%nat)) -> disjoint v).
  { intros v H K a b. destruct (Nat.eq_dec a 0) as [->|NA]; [destruct (Nat.eq_dec b 1) as [->|NB]; [apply H; now left|]|].
    - replace (pairs v 0 b) with (@nil (Z * Z)); [split; constructor|]. destruct (pairs v 0 b) as [|[p q] l] eqn:E; [easy|exfalso].
      assert (J : In (p, q) ((p, q) :: l)) by now left. rewrite <- E in J. apply in_pairs in J. apply K in J. congruence.
    - replace (pairs v a b) with (@nil (Z * Z)); [split; constructor|]. destruct (pairs v a b) as [|[p q] l] eqn:E; [easy|exfalso].
      assert (J : In (p, q) ((p, q) :: l)) by now left. rewrite <- E in J. apply in_pairs in J. apply K in J. congruence. }
  assert (ND : forall x y : Z, x <> y -> NoDup [x; y]) by (intros x y N; constructor; [intros [E|[]]; auto|constructor; [easy|constructor]]).
  eexists. split.
  - eapply dreach1; [eapply dreach1; [eapply dreach1; [eapply dreach1; [eapply dreach1; [apply dreach0| |]| |]| |]| |]| |].
    + instantiate (1 := Ret Ok). instantiate (2 := InstAdd nA T_BIND [49] 4000). vm_compute. reflexivity.
    + apply D; [intros a b _; split; constructor|intros a p b q []].
    + instantiate (1 := Ret Ok). instantiate (2 := InstAdd nB T_CONNECT [49] 5000). vm_compute. reflexivity.
    + apply D; [intros a b _; split; constructor|intros a p b q []].
    + instantiate (1 := Ret Ok). instantiate (2 := RouteAdd nA 0xfe nB 0xfe true). vm_compute. reflexivity.
    + apply D; vm_compute; [intros a b [E|[]]; injection E as <- <-; split; (constructor; [easy|constructor])|intros a p b q [E|[]]; now injection E as <- _ <- _].
    + instantiate (1 := Ret Ok). instantiate (2 := RouteAdd nA 3 nB 5 true). vm_compute. reflexivity.
    + apply D; vm_compute; [intros a b [E|[]]; injection E as <- <-; split; apply ND; easy|intros a p b q [E|[E|[]]]; now injection E as <- _ <- _].
    + instantiate (1 := Ret Ok). instantiate (2 := Accept 2 true). vm_compute. reflexivity.
    + apply D; vm_compute; [intros a b [E|[]]; injection E as <- <-; split; apply ND; easy|intros a p b q [E|[E|[]]]; now injection E as <- _ <- _].
  - vm_compute. auto.
Qed.
Example C47_witness : option_map snd (run st0 (setup ++ [RouteAdd nA 1 nB 1 true; RouteAdd nA 2 nB 2 true; InstDel nA; RouteAdd nA 256 nB 1 true;
    RouteAdd nB 1 nA 1 true; Accept 2 true; RouteDel nA 2 nB 2; SrcMsg 4 2; SrcMsg 4 1; DstMsg 4 1]))
  = Some [Ret Ok; Ret Ok; Ret Ok; Ret Ok; Ret Warn; Ret Warn; Ret Warn; Ret Ok; Ret Ok; Fwd Dropped; Fwd (Forwarded 1); Fwd (Forwarded 1)].
Proof. vm_compute. reflexivity. Qed.

(** ** What does not hold *)
(** a route equal to an existing one is accepted, unless that is the oldest of its pair *)
Theorem C47_refuted_duplicate : option_map (fun x => view (fst x)) (run st0 (setup ++ [RouteAdd nA 1 nB 1 true; RouteAdd nA 2 nB 2 true; RouteAdd nA 2 nB 2 true]))
  = Some [(0%nat, 1, 1%nat, 1); (0%nat, 2, 1%nat, 2); (0%nat, 2, 1%nat, 2)].
Proof. vm_compute. reflexivity. Qed.
(** where routes overlap, deleting one silences another that is still configured *)
Theorem C47_refuted_overlap : option_map (fun x => (view (fst x), rev (snd x)))
   (run st0 (setup ++ [RouteAdd nA 1 nB 1 true; RouteAdd nA 1 nB 2 true; RouteAdd nA 2 nB 1 true; RouteDel nA 1 nB 2; Accept 2 true; SrcMsg 5 1]))
  = Some ([(0%nat, 1, 1%nat, 1); (0%nat, 2, 1%nat, 1)], [Fwd Dropped; Ret Ok; Ret Ok; Ret Ok; Ret Ok; Ret Ok; Ret Ok; Ret Ok]).
Proof. vm_compute. reflexivity. Qed.
(** deleting the only route of a pair is undefined, in every state *)
Theorem C47_refuted_last_route : forall s n1 v1 n2 v2 a b, reach s ->
  find_src s n1 = Some a -> find_dst s n1 n2 = Some b -> view s = [(i_id a, v1, i_id b, v2)] ->
  route_del s n1 v1 n2 v2 = None.
Proof.
  intros s n1 v1 n2 v2 a b R Fa Fb VW. pose proof (reach_Inv s R) as V.
  assert (I : In (i_id a, v1, i_id b, v2) (view s)) by (rewrite VW; now left).
  destruct (view_bounds s V _ _ _ _ I) as [B1 B2]. destruct (view_insts s V _ _ _ _ I) as [(x & X1 & X2 & X3) (y & Y1 & Y2 & Y3)].
  pose proof Fa as Fa'. pose proof Fb as Fb'. unfold find_src in Fa'. unfold find_dst in Fb'. apply find_some in Fa' as [Ia _], Fb' as [Ib _]. apply in_rev in Ia, Ib.
  assert (x = a) by (apply (id_inj i_id (insts s)); [apply (I_ni s V)|auto..]). assert (y = b) by (apply (id_inj i_id (insts s)); [apply (I_ni s V)|auto..]). subst x y.
  assert (U1 : uint32 v1 = v1) by (apply Z.mod_small; lia). assert (U2 : uint32 v2 = v2) by (apply Z.mod_small; lia).
  assert (AR : route_args s n1 v1 n2 v2 = Some (a, v1, b, v2)).
  { unfold route_args. rewrite Fa, Fb, X3, Y3, U1, U2. replace (0xff <? v1) with false by lia. now replace (0xff <? v2) with false by lia. }
  unfold route_del. rewrite AR.
  pose proof (find_routeM_spec s (fun r sh => pair_is (i_id a) (i_id b) sh && (r_ss r =? v1) && (r_ds r =? v2)) (routes s) V (fun r H => H)) as W.
  destruct (find_routeM _ _ _) as [[[r sh]|]|]; [| |easy].
  - destruct W as (l1 & l2 & _ & S1 & _ & PI & _). apply andb_true_iff in PI as [PI _]. apply andb_true_iff in PI as [PI _]. unfold pair_is in PI.
    apply andb_true_iff in PI as [P1 P2]. apply Nat.eqb_eq in P1, P2. destruct (I_s s V sh S1) as (C & _). rewrite VW, P1, P2, between_cons, !Nat.eqb_refl in C. cbn in C. now rewrite C.
  - exfalso. apply (in_view s V) in I as (r & sh & R1 & S1 & S2 & E1 & E2 & E3 & E4). specialize (W r sh R1 S1 S2). unfold pair_is in W. rewrite <- E1, <- E2, <- E3, <- E4, !Nat.eqb_refl, !Z.eqb_refl in W. easy.
Qed.
(** deleting the oldest of several routes is accepted, but a later connection or message
    uses it after it was freed *)
Theorem C47_refuted_oldest_route :
  (exists s, run st0 (setup ++ [RouteAdd nA 1 nB 1 true; RouteAdd nA 2 nB 2 true; RouteDel nA 1 nB 1]) = Some (s, [Ret Ok; Ret Ok; Ret Ok; Ret Ok; Ret Ok]) /\
     step s (Accept 2 true) = None) /\
  (exists s x, run st0 (setup ++ [RouteAdd nA 1 nB 1 true; Accept 2 true; RouteAdd nA 2 nB 2 true; RouteDel nA 1 nB 1]) = Some (s, x) /\ step s (SrcMsg 3 2) = None).
Proof. split; [eexists|do 2 eexists]; vm_compute; split; reflexivity. Qed.
(** so does a routed message from the destination after the source closed *)
Theorem C47_refuted_source_closed : exists s x, run st0 (setup ++ [RouteAdd nA 1 nB 1 true; Accept 2 true; SrcClosed 3]) = Some (s, x) /\ step s (DstMsg 3 1) = None /\ step s (DstMsg 3 2) <> None.
Proof. do 2 eexists. vm_compute. repeat split; easy. Qed.
(** deleting an instance that does not exist is undefined, in every state *)
Theorem C47_refuted_unknown_instance : forall s n, (forall i, In i (insts s) -> name_is n i = false) -> instance_del s n = None.
Proof.
  intros s n H. unfold instance_del. destruct (find (name_is n) (insts s)) as [i|] eqn:F; [|reflexivity]. apply find_some in F as [I J]. rewrite (H i I) in J. discriminate.
Qed.
(** names of 16 octets or more are accepted again and again, and never found *)
Theorem C47_refuted_long_names : forall s n ty addr port, reach s -> (16 <= length n)%nat ->
  snd (instance_add s n ty addr port) = Ok /\ instance_del s n = None /\ find_src s n = None.
Proof.
  intros s n ty addr port R L.
  assert (LL : forall s, reach s -> forall i, In i (insts s) -> (length (i_name i) <= 15)%nat).
  { clear. assert (G : forall s, reach s -> forall m, In m (map i_name (insts s)) -> (length m <= 15)%nat).
    { induction 1 as [|s o s' x R IH S]; [easy|]. intros m. pose proof (insts_names s o s' x R S) as M. destruct o; try (rewrite M; exact (IH m)).
      - rewrite M. intros I. apply in_app_iff in I as [I|I]; [auto|]. destruct (existsb _ _); [easy|]. destruct I as [<-|[]]. rewrite firstn_length. lia.
      - cbn [step] in S. unfold instance_del in S. destruct (find _ _) as [i|]; [|easy]. destruct (0 <? _); injection S as <- <-; [exact (IH m)|].
        cbn [fst insts]. intros I. apply in_map_iff in I as (y & <- & I). apply filter_In in I as [I _]. apply IH. now apply in_map. }
    intros s R i I. apply (G s R). now apply in_map. }
  assert (N : forall i, In i (insts s) -> name_is n i = false).
  { intros i I. destruct (name_is n i) eqn:E; [|easy]. apply name_is_short in E; [|eapply LL; eassumption]. specialize (LL s R i I). rewrite E in LL. lia. }
  split; [|split].
  - unfold instance_add. destruct (existsb _ _) eqn:E; [|easy]. apply existsb_exists in E as (i & I & J). rewrite N in J; easy.
  - now apply C47_refuted_unknown_instance.
  - unfold find_src. destruct (find _ _) as [i|] eqn:F; [|easy]. apply find_some in F as [I J]. apply in_rev in I. rewrite N in J; easy.
Qed.
(** a stream identifier of more than 32 bits is taken for its low 32 bits *)
Theorem C47_refuted_wide_identifier : forall s n1 k1 p n2 k2 q bound, route_add s n1 (k1 * 2^32 + p) n2 (k2 * 2^32 + q) bound = route_add s n1 p n2 q bound.
Proof.
  intros. unfold route_add, route_args, uint32. now rewrite !(Z.add_comm (_ * 2^32)), !Z.mod_add by easy.
Qed.
