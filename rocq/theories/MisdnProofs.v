(** Invariants of the mISDN driver model: one timeslot. *)
From Coq Require Import List Arith Lia Bool ZArith.
From Verif Require Import Base E1Model MisdnModel MisdnSpec.
Import ListNotations.
Open Scope Z_scope.

Ltac ms := unfold emit, next, put, w_type, w_cur, w_fd, w_wr, w_unc, w_lapd, w_q in *; cbn [lx les ln m_type m_cur m_fd m_reg m_wr m_unc m_lapd m_q m_tmr] in *.
Ltac msg := unfold emit, next, put, w_type, w_cur, w_fd, w_wr, w_unc, w_lapd, w_q; cbn [lx les ln m_type m_cur m_fd m_reg m_wr m_unc m_lapd m_q m_tmr].
Lemma type_eqb_spec a b : Bool.reflect (a = b) (type_eqb a b).
Proof. destruct a, b; constructor; congruence. Qed.

(** ** traces *)
Lemma life_app a : forall v b, life v (a ++ b) = match life v a with Some w => life w b | None => None end.
Proof. induction a as [|e a IH]; intros v b; [easy|]. cbn [app life]. destruct (advance v e); [apply IH|easy]. Qed.
Lemma waiting_app i a : forall v b, waiting i v (a ++ b) = match waiting i v a with Some w => waiting i w b | None => None end.
Proof. induction a as [|e a IH]; intros v b; [easy|]. cbn [app waiting]. destruct (passes i v e); [apply IH|easy]. Qed.
Lemma flight_app a : forall v b, flight v (a ++ b) = match flight v a with Some w => flight w b | None => None end.
Proof. induction a as [|e a IH]; intros v b; [easy|]. cbn [app flight]. destruct (flies v e); [apply IH|easy]. Qed.
Lemma addr_app i a : forall v b, addr i v (a ++ b) = match addr i v a with Some w => addr i w b | None => None end.
Proof. induction a as [|e a IH]; intros v b; [easy|]. cbn [app addr]. destruct (addresses i v e); [apply IH|easy]. Qed.

(** ** links *)
Definition ids (q : list lnk) : list nat := map l_id q.
Lemma has_in i q : has i q = true <-> In i (ids q).
Proof. unfold has, ids. rewrite existsb_exists, in_map_iff. split; intros (p & A & B). - exists p. apply Nat.eqb_eq in B. auto. - exists p. subst. split; [easy|apply Nat.eqb_refl]. Qed.
Lemma queue_absent i q : ~ In i (ids q) -> queue i q = [].
Proof. induction q as [|a r IH]; [easy|]. cbn. intros N. destruct (Nat.eqb_spec (l_id a) i); [tauto|]. apply IH. tauto. Qed.
(** address of link [i] in a list *)
Definition adrq (i : nat) (q : list lnk) : address := match find (fun a => Nat.eqb (l_id a) i) q with Some a => Some (l_tei a, l_sapi a, l_chan a) | None => None end.
Lemma take_spec q : forall a m q', NoDup (ids q) -> take q = Some (a, m, q') ->
  ids q' = ids q /\ queue (l_id a) q = m :: queue (l_id a) q' /\ (forall j, j <> l_id a -> queue j q' = queue j q) /\ (forall j, adrq j q' = adrq j q) /\ adrq (l_id a) q = Some (l_tei a, l_sapi a, l_chan a) /\ In a q.
Proof.
  induction q as [|b r IH]; intros a m q' N H; [discriminate|]. cbn [take] in H. inversion N as [|? ? N1 N2]; subst. destruct (l_q b) as [|x ms] eqn:LQ.
  - destruct (take r) as [[[c y] r']|]; [|discriminate]. injection H as -> -> <-. destruct (IH _ _ _ N2 eq_refl) as (A & B & C & D & E & F). split; [unfold ids in *; cbn; now rewrite A|].
    assert (NE : l_id b <> l_id a). { intros Q. apply N1. rewrite Q. now apply in_map. }
    apply Nat.eqb_neq in NE. cbn [queue]. rewrite NE. split; [exact B|]. split; [intros k K; destruct (Nat.eqb (l_id b) k); [easy|now apply C]|]. unfold adrq in *. cbn [find]. split; [intros j; destruct (Nat.eqb (l_id b) j); [easy|apply D]|]. rewrite NE. split; [exact E|now right].
  - injection H as <- <- <-. cbn [ids map l_id queue]. rewrite Nat.eqb_refl. split; [easy|]. split; [cbn [l_q]; now rewrite LQ|]. split; [intros k K; destruct (Nat.eqb_spec (l_id b) k); congruence|]. unfold adrq. cbn [find l_id]. split; [intros j; now destruct (Nat.eqb (l_id b) j)|]. rewrite Nat.eqb_refl. split; [easy|now left].
Qed.
Lemma take_none q : take q = None -> forall i, queue i q = [].
Proof.
  induction q as [|b r IH]; intros H i; [easy|]. cbn [take] in H. destruct (l_q b) eqn:L; [|discriminate]. destruct (take r) as [[[c y] r']|]; [discriminate|]. cbn [queue]. destruct (Nat.eqb (l_id b) i); auto.
Qed.
Lemma append_ids i m q : ids (append i m q) = ids q.
Proof. unfold ids. induction q as [|a r IH]; [easy|]. cbn [append]. destruct (Nat.eqb (l_id a) i); cbn [map l_id]; [easy|]. now rewrite IH. Qed.
Lemma append_queue i m q j : queue j (append i m q) = if Nat.eqb j i && has i q then queue j q ++ [m] else queue j q.
Proof.
  induction q as [|a r IH]; [cbn; now rewrite andb_false_r|]. cbn [append queue has existsb]. destruct (Nat.eqb_spec (l_id a) i) as [<-|NE]; cbn [queue orb l_id l_q].
  - rewrite andb_true_r. rewrite (Nat.eqb_sym j). destruct (Nat.eqb (l_id a) j); easy.
  - destruct (Nat.eqb_spec (l_id a) j) as [<-|NE2].
    + apply Nat.eqb_neq in NE. now rewrite NE.
    + apply IH.
Qed.
Lemma append_adrq i m q j : adrq j (append i m q) = adrq j q.
Proof. unfold adrq. induction q as [|a r IH]; [easy|]. cbn [append]. destruct (Nat.eqb (l_id a) i); cbn [find l_id]; destruct (Nat.eqb (l_id a) j); try easy. Qed.
Lemma filter_queue i q j : queue j (filter (fun p => negb (Nat.eqb (l_id p) i)) q) = if Nat.eqb j i then [] else queue j q.
Proof.
  induction q as [|a r IH]; [cbn; now destruct (Nat.eqb j i)|]. cbn [filter]. destruct (Nat.eqb_spec (l_id a) i) as [<-|NE]; cbn [negb].
  - rewrite IH. cbn [queue]. destruct (Nat.eqb_spec j (l_id a)); [easy|]. destruct (Nat.eqb_spec (l_id a) j); congruence.
  - cbn [queue]. rewrite IH. destruct (Nat.eqb_spec (l_id a) j) as [<-|]; [|easy]. apply Nat.eqb_neq in NE. now rewrite NE.
Qed.
Lemma adrq_cons j a r : adrq j (a :: r) = if Nat.eqb (l_id a) j then Some (l_tei a, l_sapi a, l_chan a) else adrq j r.
Proof. unfold adrq. cbn [find]. now destruct (Nat.eqb (l_id a) j). Qed.
Lemma filter_adrq i q j : adrq j (filter (fun p => negb (Nat.eqb (l_id p) i)) q) = if Nat.eqb j i then None else adrq j q.
Proof.
  induction q as [|a r IH]; [cbn; now destruct (Nat.eqb j i)|]. cbn [filter]. destruct (Nat.eqb_spec (l_id a) i) as [<-|NE]; cbn [negb].
  - rewrite IH, adrq_cons. destruct (Nat.eqb_spec j (l_id a)); [easy|]. destruct (Nat.eqb_spec (l_id a) j); congruence.
  - rewrite !adrq_cons, IH. destruct (Nat.eqb_spec (l_id a) j) as [<-|]; [|easy]. apply Nat.eqb_neq in NE. now rewrite NE.
Qed.
Lemma filter_ids i q : NoDup (ids q) -> NoDup (ids (filter (fun p => negb (Nat.eqb (l_id p) i)) q)).
Proof.
  induction q as [|a r IH]; intros N; [easy|]. inversion N as [|? ? N1 N2]; subst. cbn [filter]. destruct (negb _); [|auto]. cbn [ids map]. constructor; [|now apply IH].
  intros I. apply N1. unfold ids in *. apply in_map_iff in I as (p & E & I). apply filter_In in I as [I _]. apply in_map_iff. now exists p.
Qed.
Lemma snoc_queue a q j : l_q a = [] -> queue j (q ++ [a]) = queue j q.
Proof. intros E. induction q as [|b r IH]; [cbn; rewrite E; now destruct (Nat.eqb (l_id a) j)|]. cbn [app queue]. now rewrite IH. Qed.
Lemma snoc_adrq a q j : ~ In (l_id a) (ids q) -> adrq j (q ++ [a]) = if Nat.eqb (l_id a) j then Some (l_tei a, l_sapi a, l_chan a) else adrq j q.
Proof.
  unfold adrq. induction q as [|b r IH]; [cbn; now destruct (Nat.eqb (l_id a) j)|]. cbn [app find ids map]. intros N. destruct (Nat.eqb_spec (l_id b) j) as [<-|NE]; [|apply IH; intros X; apply N; now right].
  destruct (Nat.eqb_spec (l_id a) (l_id b)) as [Q|]; [|easy]. exfalso. apply N. left. now rewrite Q.
Qed.
Lemma set_chan_ids t s c q : ids (set_chan t s c q) = ids q.
Proof. unfold ids. induction q as [|a r IH]; [easy|]. cbn [set_chan]. destruct (_ && _); cbn [map l_id]; [easy|]. now rewrite IH. Qed.
Lemma set_chan_queue t s c q j : queue j (set_chan t s c q) = queue j q.
Proof. induction q as [|a r IH]; [easy|]. cbn [set_chan]. destruct (_ && _); cbn [queue l_id l_q]; [easy|]. now rewrite IH. Qed.
Lemma set_chan_adrq t s c q a : NoDup (ids q) -> lookup t s q = Some a -> forall j, adrq j (set_chan t s c q) = if Nat.eqb (l_id a) j then Some (l_tei a, l_sapi a, c) else adrq j q.
Proof.
  unfold adrq, lookup. induction q as [|b r IH]; [discriminate|]. intros N L j. inversion N as [|? ? N1 N2]; subst. cbn [set_chan find] in *. destruct (_ && _).
  - injection L as <-. cbn [find l_id l_tei l_sapi l_chan]. now destruct (Nat.eqb (l_id b) j).
  - cbn [find]. destruct (Nat.eqb_spec (l_id b) j) as [<-|NE]; [|now apply IH]. destruct (Nat.eqb_spec (l_id a) (l_id b)) as [Q|]; [|easy]. exfalso. apply N1. rewrite <- Q. apply find_some in L as [L _]. now apply in_map.
Qed.
Lemma lookup_adrq t s q a : NoDup (ids q) -> lookup t s q = Some a -> adrq (l_id a) q = Some (l_tei a, l_sapi a, l_chan a).
Proof.
  unfold adrq, lookup. induction q as [|b r IH]; [discriminate|]. intros N L. inversion N as [|? ? N1 N2]; subst. cbn [find] in *. destruct (_ && _).
  - injection L as <-. now rewrite Nat.eqb_refl.
  - destruct (Nat.eqb_spec (l_id b) (l_id a)) as [Q|]; [|now apply IH]. exfalso. apply N1. rewrite Q. apply find_some in L as [L _]. now apply in_map.
Qed.

(** ** what always holds of a timeslot and what it has done *)
Record Shape (x : mts) : Prop := {
  sh_reg : m_reg x = true -> exists f, m_fd x = Open f;
  sh_lapd : m_lapd x = true -> exists f, m_fd x = Open f;
  sh_ids : NoDup (ids (m_q x));
  sh_q : match m_type x with TS_SIGN => True | TS_RAW | TS_HDLC => exists ms, m_q x = [mkLk 0 0 0 0 ms] | _ => m_q x = [] end;
  sh_tmr : m_tmr x = true -> m_type x = TS_SIGN /\ m_q x <> []
}.
Definition adr (i : nat) (x : mts) : address := match m_type x with TS_SIGN => adrq i (m_q x) | _ => None end.
Definition stage_ok (v : option (nat * stage)) (x : mts) : Prop := match m_fd x with Open f => exists g, v = Some (f, g) /\ (m_reg x = true <-> g = Polled) | _ => v = None end.
Definition fl_ok (b : bool) (x : mts) : Prop := b = true -> m_unc x = true /\ exists f, m_fd x = Open f.
Definition Place (u : bool) (t : nat) (x : mts) (es : list eff) : Prop := forall f, m_fd x = Open f ->
  m_cur x <> TS_NONE /\ In (ESock f (proto_of u t (m_cur x))) es /\ (m_reg x = true -> exists dev, In (EBind f dev (chan_of u t (m_cur x)) (group_of u (m_cur x))) es).
Record Good (u : bool) (t : nat) (x : mts) (es : list eff) : Prop := {
  g_shape : Shape x;
  g_life : exists v, life None es = Some v /\ stage_ok v x;
  g_wait : forall i, waiting i [] es = Some (queue i (m_q x));
  g_fly : exists b, flight false es = Some b /\ fl_ok b x;
  g_adr : forall i, addr i None es = Some (adr i x);
  g_place : Place u t x es
}.
Lemma good_step u t x x' E es : Good u t x E -> Shape x' -> (forall v, stage_ok v x -> exists v', life v es = Some v' /\ stage_ok v' x') ->
  (forall i, waiting i (queue i (m_q x)) es = Some (queue i (m_q x'))) -> (forall b, fl_ok b x -> exists b', flight b es = Some b' /\ fl_ok b' x') ->
  (forall i, addr i (adr i x) es = Some (adr i x')) -> (Place u t x E -> Place u t x' (E ++ es)) -> Good u t x' (E ++ es).
Proof.
  intros [S L W F A P] S' L' W' F' A' P'. split; [easy|..].
  - destruct L as (v & L & V). destruct (L' v V) as (v' & X & Y). exists v'. now rewrite life_app, L.
  - intros i. now rewrite waiting_app, W.
  - destruct F as (b & F & B). destruct (F' b B) as (b' & X & Y). exists b'. now rewrite flight_app, F.
  - intros i. now rewrite addr_app, A.
  - auto.
Qed.
Lemma place_keep u t x x' E es : m_cur x' = m_cur x -> m_fd x' = m_fd x -> (m_reg x' = true -> m_reg x = true) -> Place u t x E -> Place u t x' (E ++ es).
Proof.
  intros A B C P f H. rewrite B in H. destruct (P f H) as (P0 & P1 & P2). rewrite A. split; [easy|]. split; [apply in_or_app; now left|]. intros R. destruct (P2 (C R)) as (d & D). exists d. apply in_or_app. now left.
Qed.
Lemma place_closed u t x E : (forall f, m_fd x <> Open f) -> Place u t x E.
Proof. intros H f F. now elim (H f). Qed.

(** a change of a timeslot *)
Definition esocks (es : list eff) : list nat := flat_map (fun e => match e with ESock f _ => [f] | _ => [] end) es.
Record Keep (u : bool) (t : nat) (z z' : loc) (es : list eff) : Prop := {
  kp_les : les z' = les z ++ es;
  kp_n : (ln z <= ln z')%nat;
  kp_socks : Forall (fun f => (ln z <= f < ln z')%nat) (esocks es) /\ NoDup (esocks es);
  kp_good : forall E, Good u t (lx z) E -> Good u t (lx z') (E ++ es)
}.
Lemma nodup_app {A} (a b : list A) : NoDup a -> NoDup b -> (forall x, In x a -> ~ In x b) -> NoDup (a ++ b).
Proof. induction 1 as [|x a N D IH]; intros B H; [easy|]. cbn [app]. constructor; [rewrite in_app_iff; intros [I|I]; [easy|]; apply (H x); [now left|easy]|]. apply IH; [easy|]. intros y I. apply H. now right. Qed.
Lemma keep_trans u t a b c e1 e2 : Keep u t a b e1 -> Keep u t b c e2 -> Keep u t a c (e1 ++ e2).
Proof.
  intros [A1 A2 [A3 A5] A4] [B1 B2 [B3 B5] B4]. split.
  - now rewrite B1, A1, app_assoc.
  - lia.
  - unfold esocks in *. rewrite flat_map_app. split.
    + apply Forall_app. split; eapply Forall_impl; try eassumption; cbn; intros; lia.
    + apply nodup_app; [easy..|]. intros x I J. rewrite Forall_forall in A3, B3. specialize (A3 _ I). specialize (B3 _ J). lia.
  - intros E G. rewrite app_assoc. auto.
Qed.
Lemma keep_refl u t z : Keep u t z z [].
Proof. split; [now rewrite app_nil_r|lia|split; constructor|]. intros E G. now rewrite app_nil_r. Qed.
Lemma keep_by u t z z' es : les z' = les z ++ es -> (ln z <= ln z')%nat -> esocks es = [] -> (forall E, Good u t (lx z) E -> Good u t (lx z') (E ++ es)) -> Keep u t z z' es.
Proof. intros A B C D. split; auto. rewrite C. split; constructor. Qed.
(** a change of the state alone *)
Lemma keep_put u t z x : (Shape (lx z) -> Shape x) -> m_cur x = m_cur (lx z) -> m_fd x = m_fd (lx z) -> m_reg x = m_reg (lx z) -> (m_unc (lx z) = true -> m_unc x = true) -> (forall i, queue i (m_q x) = queue i (m_q (lx z))) -> (forall i, adr i x = adr i (lx z)) -> Keep u t z (put z x) [].
Proof.
  intros S C F R U Q A. apply keep_by; [now rewrite app_nil_r|easy|easy|]. intros E G. apply (good_step u t (lx z)); auto; cbn [put lx].
  - apply S, G.
  - intros v V. exists v. split; [easy|]. unfold stage_ok in *. rewrite F. destruct (m_fd (lx z)); try easy. destruct V as (g & -> & V). exists g. split; [easy|]. now rewrite R.
  - intros i. cbn [waiting]. now rewrite Q.
  - intros b B. exists b. split; [easy|]. intros X. destruct (B X) as [B1 B2]. rewrite F. auto.
  - intros i. cbn [addr]. now rewrite A.
  - apply place_keep; auto. congruence.
Qed.
Lemma shape_wr x w : Shape x -> Shape (w_wr x w). Proof. intros []. split; auto. Qed.
Lemma shape_unc x w : Shape x -> Shape (w_unc x w). Proof. intros []. split; auto. Qed.
Lemma keep_wr u t z w : Keep u t z (put z (w_wr (lx z) w)) [].
Proof. apply keep_put; auto. apply shape_wr. Qed.
Lemma keep_next u t z : Keep u t z (next z) [].
Proof. apply keep_by; [now rewrite app_nil_r|cbn; lia|easy|]. intros E G. now rewrite app_nil_r. Qed.
(** effects that say nothing about socket, queues, flight, addresses; or write to the socket *)
Definition idle (e : eff) : bool := match e with EBlock _ _ | ELapdWr _ _ | ESa _ _ | EStrayX | EDropX | EStray Mux _ | EDrop Mux _ | ELapdRx _ | ERx _ _ _ | EUp _ _ | ELeak => true | _ => false end.
Definition writes (e : eff) : option nat := match e with EData f _ _ _ _ | EBlock f _ | ESign f _ _ _ _ _ | ELapdWr f _ | ESa f _ => Some f | _ => None end.
Lemma keep_idle u t z e : idle e = true -> (forall f, writes e = Some f -> m_fd (lx z) = Open f) -> Keep u t z (emit z e) [e].
Proof.
  intros I W. apply keep_by; [easy|easy|destruct e; easy|]. intros E G. apply (good_step u t (lx z)); auto; cbn [emit lx].
  - apply G.
  - intros v V. exists v. split; [|easy]. cbn [life]. destruct e as [| | | | | | | | | | | |[]|[]| | | | | | | | | | | | |]; cbn in I; try discriminate; try easy; (specialize (W _ eq_refl); unfold stage_ok in V; rewrite W in V; destruct V as (g & -> & _); cbn [advance]; now rewrite Nat.eqb_refl).
  - intros i. cbn [waiting]. destruct e as [| | | | | | | | | | | |[]|[]| | | | | | | | | | | | |]; easy.
  - intros b B. exists b. split; [|easy]. cbn [flight]. destruct e; easy.
  - intros i. cbn [addr]. destruct e; easy.
  - now apply place_keep.
Qed.

(** ** updating *)
Definition down_x (x : mts) : mts := mkT (m_type x) (m_type x) Closed false (m_wr x) false false (m_q x) (m_tmr x).
Definition down_es (x : mts) : list eff := match m_fd x with Open f => if m_reg x then [EUnreg f; EClose f] else [EClose f] | _ => [] end.
Lemma down_eq z : Shape (lx z) -> down_ts z = mkL (down_x (lx z)) (les z ++ down_es (lx z)) (ln z).
Proof.
  intros S. destruct z as [[ty cur fd reg wr unc la q tm] es n]. pose proof (sh_reg _ S) as R. cbn [lx m_reg m_fd] in R. clear S.
  destruct fd as [| |f]; [destruct reg; [destruct (R eq_refl); discriminate|]..|destruct reg]; cbv -[app]; rewrite ?app_nil_r, <- ?app_assoc; reflexivity.
Qed.
Lemma down_keep u t z : Shape (lx z) -> Keep u t z (down_ts z) (down_es (lx z)).
Proof.
  intros S. rewrite (down_eq z S). apply keep_by; [easy|easy|unfold down_es; destruct (m_fd (lx z)); try easy; now destruct (m_reg (lx z))|]. intros E G. cbn [lx]. set (x := lx z) in *. apply (good_step u t x); auto.
  - destruct S. split; cbn [down_x m_reg m_lapd m_q m_type m_tmr]; auto; discriminate.
  - intros v V. exists None. split; [|easy]. unfold stage_ok, down_es in *. destruct (m_fd x) as [| |f]; [now subst v|now subst v|]. destruct V as (g & -> & V). destruct (m_reg x); cbn [life advance].
    + rewrite (proj1 V eq_refl). rewrite Nat.eqb_refl. cbn [life advance]. now rewrite Nat.eqb_refl.
    + rewrite Nat.eqb_refl. assert (N : g <> Polled) by (intros N; apply V in N; discriminate). destruct g; easy.
  - intros i. unfold down_es. cbn [down_x m_q]. destruct (m_fd x) as [| |f]; try easy. now destruct (m_reg x).
  - intros b B. exists false. split; [|discriminate]. unfold down_es. destruct (m_fd x) as [| |f] eqn:F; [|..|now destruct (m_reg x)]; (destruct b; [destruct (B eq_refl) as (_ & ? & X); congruence|easy]).
  - intros i. unfold down_es. change (adr i (down_x x)) with (adr i x). destruct (m_fd x) as [| |f]; try easy. now destruct (m_reg x).
  - intros _. now apply place_closed.
Qed.
(** what opening a socket for a timeslot does: [p] says how far it gets *)
Definition up_es (u : bool) (dev t f : nat) (ty : ts_type) : list eff :=
  [ESock f (proto_of u t ty); EBind f dev (chan_of u t ty) (group_of u ty); if group_of u ty then EClear f else EAct f; EReg f].
Definition up_x (u : bool) (f : nat) (x : mts) (wr reg : bool) : mts := mkT (m_type x) (m_cur x) (Open f) reg wr (m_unc x) (type_eqb (m_type x) TS_SIGN && u) (m_q x) (m_tmr x).
Lemma up_good u t dev f x wr p E : Good u t x E -> m_fd x = Closed -> m_reg x = false -> m_cur x = m_type x -> m_type x <> TS_NONE -> (1 <= p <= 4)%nat ->
  Good u t (up_x u f x wr (Nat.eqb p 4)) (E ++ firstn p (up_es u dev t f (m_type x))).
Proof.
  intros G F R C TY P. assert (p = 1 \/ p = 2 \/ p = 3 \/ p = 4)%nat as PC by lia. apply (good_step u t x); auto.
  - destruct (g_shape _ _ _ _ G). split; cbn [up_x m_reg m_fd m_lapd m_q m_type m_tmr]; eauto.
  - intros v V. unfold stage_ok in *. rewrite F in V. subst v. cbn [up_x m_fd m_reg].
    assert (FF : Nat.eqb f f = true) by apply Nat.eqb_refl. destruct PC as [-> | [-> | [-> | ->]]]; cbn [firstn up_es Nat.eqb]; destruct (group_of u (m_type x)); cbn [life advance]; rewrite ?FF; (eexists; split; [reflexivity|]); (eexists; split; [reflexivity|]); (split; [discriminate || easy|discriminate || easy]).
  - intros i. cbn [up_x m_q]. destruct PC as [-> | [-> | [-> | ->]]]; cbn [firstn up_es]; destruct (group_of u (m_type x)); reflexivity.
  - intros b B. exists b. split; [destruct PC as [-> | [-> | [-> | ->]]]; cbn [firstn up_es]; destruct (group_of u (m_type x)); reflexivity|]. intros X. destruct (B X) as (_ & g & Y). congruence.
  - intros i. change (adr i (up_x u f x wr (Nat.eqb p 4))) with (adr i x). destruct PC as [-> | [-> | [-> | ->]]]; cbn [firstn up_es]; destruct (group_of u (m_type x)); reflexivity.
  - intros _ g H. cbn [up_x m_fd m_cur m_reg] in *. injection H as <-. rewrite C. split; [easy|]. split.
    + apply in_or_app. right. destruct PC as [-> | [-> | [-> | ->]]]; now left.
    + intros Q. apply Nat.eqb_eq in Q. subst p. exists dev. apply in_or_app. right. now (right; left).
Qed.
(** an update of one timeslot, told by its result *)
Inductive updated (k : kern) (u : bool) (dev t : nat) (z : loc) : loc -> option Z -> list eff -> Prop :=
| UpSame : m_cur (lx z) = m_type (lx z) -> updated k u dev t z z None []
| UpNone : m_cur (lx z) <> TS_NONE -> m_type (lx z) = TS_NONE -> updated k u dev t z (mkL (down_x (lx z)) (les z ++ down_es (lx z)) (ln z)) None (down_es (lx z))
| UpFail rc : m_cur (lx z) <> m_type (lx z) -> m_type (lx z) <> TS_NONE -> rc < 0 -> k_sock k (ln z) = false ->
    updated k u dev t z (mkL (w_fd (down_x (lx z)) Failed false) (les z ++ down_es (lx z)) (S (ln z))) (Some rc) (down_es (lx z))
| UpPart rc p n wr m : m_cur (lx z) <> m_type (lx z) -> m_type (lx z) <> TS_NONE -> rc < 0 -> (1 <= p <= 3)%nat -> (ln z < n)%nat -> (ln z <= m < n)%nat -> k_bind k m = false \/ k_clear k m = false \/ k_reg k m = false ->
    updated k u dev t z (mkL (up_x u (ln z) (down_x (lx z)) wr false) (les z ++ down_es (lx z) ++ firstn p (up_es u dev t (ln z) (m_type (lx z)))) n) (Some rc) (down_es (lx z) ++ firstn p (up_es u dev t (ln z) (m_type (lx z))))
| UpFull n : m_cur (lx z) <> m_type (lx z) -> m_type (lx z) <> TS_NONE -> (ln z < n)%nat ->
    updated k u dev t z (mkL (up_x u (ln z) (down_x (lx z)) false true) (les z ++ down_es (lx z) ++ up_es u dev t (ln z) (m_type (lx z))) n) None (down_es (lx z) ++ up_es u dev t (ln z) (m_type (lx z))).
Lemma up_spec k u dev t f ty wr q tm es n : let r := up_ts k u dev t f (mkL (mkT ty ty (Open f) false wr false false q tm) (es ++ firstn 1 (up_es u dev t f ty)) n) in
  let x := mkT ty ty Closed false wr false false q tm in
  (exists n', snd r = None /\ fst r = mkL (up_x u f x false true) (es ++ up_es u dev t f ty) n' /\ (n <= n')%nat) \/
  (exists rc p n' m wr', snd r = Some rc /\ fst r = mkL (up_x u f x wr' false) (es ++ firstn p (up_es u dev t f ty)) n' /\ rc < 0 /\ (1 <= p <= 3)%nat /\ (n <= m < n')%nat /\ (k_bind k m = false \/ k_clear k m = false \/ k_reg k m = false) /\ (n <= n')%nat).
Proof.
  cbv zeta. unfold up_ts. cbn [lx m_type].
  set (z1 := if type_eqb ty TS_SIGN && u then _ else _).
  assert (Z1 : z1 = mkL (up_x u f (mkT ty ty Closed false wr false false q tm) wr false) (es ++ firstn 1 (up_es u dev t f ty)) n).
  { subst z1. unfold up_x, put, w_lapd. cbn. now destruct (type_eqb ty TS_SIGN && u). }
  clearbody z1. subst z1. cbn [ln]. destruct (k_bind k n) eqn:B; cbn [negb].
  2:{ right. exists (-5), 1%nat, (S n), n, wr. unfold next. cbn [fst snd lx les ln]. repeat split; auto; lia. }
  set (z2 := emit _ _). assert (Z2 : z2 = mkL (up_x u f (mkT ty ty Closed false wr false false q tm) wr false) (es ++ firstn 2 (up_es u dev t f ty)) (S n)).
  { subst z2. unfold emit, next, up_es. cbn [lx les ln firstn]. now rewrite <- app_assoc. }
  clearbody z2. subst z2. cbn [ln]. destruct (group_of u ty && negb (k_clear k (S n))) eqn:GC.
  { right. apply andb_true_iff in GC as [_ GC]. apply negb_true_iff in GC. exists (-5), 2%nat, (S (S n)), (S n), wr. unfold next. cbn [fst snd lx les ln]. repeat split; auto; lia. }
  set (z3 := put _ _). assert (Z3 : z3 = mkL (up_x u f (mkT ty ty Closed false wr false false q tm) false false) (es ++ firstn 3 (up_es u dev t f ty)) (S (S n))).
  { subst z3. unfold emit, next, up_es, put, w_wr, up_x. cbn [lx les ln firstn m_type m_cur m_fd m_reg m_wr m_unc m_lapd m_q m_tmr]. now rewrite <- app_assoc. }
  clearbody z3. subst z3. cbn [ln]. destruct (k_reg k (S (S n))) eqn:KR; cbn [fst snd].
  - left. exists (S (S (S n))). split; [easy|]. split; [|lia]. unfold emit, next, put, w_fd, up_x, up_es. cbn [lx les ln firstn m_type m_cur m_fd m_reg m_wr m_unc m_lapd m_q m_tmr]. now rewrite <- app_assoc.
  - right. exists (-1), 3%nat, (S (S (S n))), (S (S n)), false. unfold next. cbn [fst snd lx les ln]. repeat split; auto; lia.
Qed.
Lemma update_spec k u dev t z : Shape (lx z) -> exists es, updated k u dev t z (fst (update_ts k u dev t z)) (snd (update_ts k u dev t z)) es.
Proof.
  intros S. unfold update_ts. destruct (type_eqb_spec (m_cur (lx z)) (m_type (lx z))) as [C|C]; [eexists; now apply UpSame|]. rewrite (down_eq z S). cbn [lx ln].
  destruct (type_eqb_spec (m_type (lx z)) TS_NONE) as [T|T]; [eexists; apply UpNone; congruence|]. destruct (k_sock k (ln z)) eqn:K.
  2:{ cbn [fst snd]. eexists. now apply UpFail. }
  set (x := lx z) in *. set (z1 := emit _ _).
  assert (Z1 : z1 = mkL (mkT (m_type x) (m_type x) (Open (ln z)) false (m_wr x) false false (m_q x) (m_tmr x)) (les z ++ down_es x ++ firstn 1 (up_es u dev t (ln z) (m_type x))) (Datatypes.S (ln z))).
  { subst z1. unfold emit, next, put, w_fd, up_es, down_x. cbn. now rewrite <- app_assoc. }
  clearbody z1. subst z1.
  pose proof (up_spec k u dev t (ln z) (m_type x) (m_wr x) (m_q x) (m_tmr x) (les z ++ down_es x) (Datatypes.S (ln z))) as US. rewrite <- app_assoc in US.
  destruct (up_ts k u dev t (ln z) _) as [z2 o]. cbn [fst snd] in US; destruct US as [(n & -> & A & B)|(rc & p & n & m & wr & -> & A & B & C1 & D1 & E1 & B')]; cbn [fst snd].
  - eexists. subst z2. rewrite <- app_assoc. apply (UpFull k u dev t z n); auto; lia.
  - eexists. subst z2. rewrite <- app_assoc. apply (UpPart k u dev t z rc p n wr m); auto; lia.
Qed.
Lemma updated_keep k u dev t z z' o es : Shape (lx z) -> updated k u dev t z z' o es -> Keep u t z z' es.
Proof.
  intros S U. pose proof (down_keep u t z S) as D. rewrite (down_eq z S) in D.
  assert (DS : esocks (down_es (lx z)) = []) by (unfold down_es; destruct (m_fd (lx z)); try easy; now destruct (m_reg (lx z))).
  assert (UP : forall wr p n, m_type (lx z) <> TS_NONE -> (1 <= p <= 4)%nat -> (ln z < n)%nat -> Keep u t z (mkL (up_x u (ln z) (down_x (lx z)) wr (Nat.eqb p 4)) (les z ++ down_es (lx z) ++ firstn p (up_es u dev t (ln z) (m_type (lx z)))) n) (down_es (lx z) ++ firstn p (up_es u dev t (ln z) (m_type (lx z))))).
  { intros wr p n TY P N. split; cbn [les ln lx]; [easy|lia|..].
    - unfold esocks in *. rewrite flat_map_app, DS. cbn [app]. assert (p = 1 \/ p = 2 \/ p = 3 \/ p = 4)%nat as PC by lia. destruct PC as [-> | [-> | [-> | ->]]]; cbn [firstn up_es flat_map]; destruct (group_of u (m_type (lx z))); cbn [app]; (split; [constructor; [lia|constructor]|constructor; [easy|constructor]]).
    - intros E G. rewrite app_assoc. apply (up_good u t dev (ln z) (down_x (lx z)) wr p); auto. apply (kp_good _ _ _ _ _ D E G). }
  destruct U as [C|C T|rc C T R K|rc p n wr m C T R P N M K|n C T N].
  - apply keep_refl.
  - exact D.
  - replace (down_es (lx z)) with (down_es (lx z) ++ []) at 2 by apply app_nil_r. eapply keep_trans; [exact D|]. apply keep_by; [cbn; now rewrite app_nil_r|cbn; lia|easy|]. intros E G. cbn [lx] in *. apply (good_step u t (down_x (lx z))); auto.
    + destruct (g_shape _ _ _ _ G). split; auto; discriminate.
    + intros v V. exists v. split; [easy|exact V].
    + intros b B. exists b. split; [easy|]. intros X. destruct (B X) as (_ & f & Y). discriminate.
    + intros _. now apply place_closed.
  - replace false with (Nat.eqb p 4) by (apply Nat.eqb_neq; lia). apply UP; auto; lia.
  - apply (UP false 4%nat n); auto; lia.
Qed.

(** ** the other operations *)
Definition Kept (u : bool) (t : nat) (z z' : loc) : Prop := exists es, Keep u t z z' es.
Lemma kept_trans u t a b c : Kept u t a b -> Kept u t b c -> Kept u t a c.
Proof. intros [e A] [f B]. exists (e ++ f). eapply keep_trans; eauto. Qed.
Lemma kept_refl u t z : Kept u t z z. Proof. exists []. apply keep_refl. Qed.
Lemma kept_by u t z z' es : les z' = les z ++ es -> (ln z <= ln z')%nat -> esocks es = [] -> (forall E, Good u t (lx z) E -> Good u t (lx z') (E ++ es)) -> Kept u t z z'.
Proof. intros. exists es. now apply keep_by. Qed.
Lemma kept_wr u t z w : Kept u t z (put z (w_wr (lx z) w)). Proof. exists []. apply keep_wr. Qed.
Lemma kept_next u t z : Kept u t z (next z). Proof. exists []. apply keep_next. Qed.
Lemma kept_want u t z : Kept u t z (want_write z).
Proof. unfold want_write. destruct (m_type (lx z)); try apply kept_refl; apply kept_wr. Qed.
Lemma kept_idle u t z e : idle e = true -> (forall f, writes e = Some f -> m_fd (lx z) = Open f) -> Kept u t z (emit z e).
Proof. intros. exists [e]. now apply keep_idle. Qed.
Lemma kept_lapd u t m z : Kept u t z (lapd_write m z).
Proof. unfold lapd_write. destruct (m_fd (lx z)) eqn:F; apply kept_idle; try easy. intros g [= <-]. easy. Qed.
Lemma kept_sa u t b z : Kept u t z (sa_write b z).
Proof. unfold sa_write. destruct (m_fd (lx z)) eqn:F; apply kept_idle; try easy. intros g [= <-]. easy. Qed.
Lemma kept_block k u t l z : Kept u t z (block_write k l z).
Proof. unfold block_write. eapply kept_trans; [apply kept_next|]. destruct (m_fd (lx z)) eqn:F; apply kept_idle; try easy. intros g [= <-]. easy. Qed.
(** taking a message off and handing it over *)
Lemma shape_q x q tm : Shape x -> ids q = ids (m_q x) -> (match m_type x with TS_RAW | TS_HDLC => exists ms, q = [mkLk 0 0 0 0 ms] | _ => True end) -> (tm = true -> m_tmr x = true \/ m_type x = TS_SIGN /\ m_q x <> []) -> Shape (w_q x q tm).
Proof.
  intros [A B C D E] I Q T. split; cbn [w_q m_reg m_fd m_lapd m_q m_type m_tmr]; auto.
  - now rewrite I.
  - destruct (m_type x); try easy; rewrite D in I; now destruct q.
  - intros X. assert (m_type x = TS_SIGN /\ m_q x <> []) as [Y N] by (destruct (T X); auto). split; [easy|]. intros ->. destruct (m_q x); easy.
Qed.
Lemma take_single ms a m q : take [mkLk 0 0 0 0 ms] = Some (a, m, q) -> exists r, ms = m :: r /\ a = mkLk 0 0 0 0 ms /\ q = [mkLk 0 0 0 0 r].
Proof. destruct ms as [|x r]; [discriminate|]. cbn. intros [= <- <- <-]. eauto. Qed.
Lemma shape_take x a m q tm : Shape x -> take (m_q x) = Some (a, m, q) -> (tm = true -> m_tmr x = true \/ m_type x = TS_SIGN) -> Shape (w_q x q tm).
Proof.
  intros S T H. destruct (take_spec _ _ _ _ (sh_ids _ S) T) as (A & B & C & D & F & I). apply shape_q; auto.
  - pose proof (sh_q _ S) as Q. destruct (m_type x); try easy; destruct Q as (ms & Q); rewrite Q in T; apply take_single in T as (r & _ & _ & ->); eauto.
  - intros X. destruct (H X); [now left|right]. split; [easy|]. intros N. now rewrite N in I.
Qed.
(** handing over message [m] of link [a], by an effect that says so *)
Definition hands (e : eff) (x : mts) (a : lnk) (m : list Z) : Prop :=
  match e with
  | EData f (Msg i) m' _ full => i = l_id a /\ m' = m /\ m_fd x = Open f /\ m_unc x = false
  | ESign f i c sapi tei m' => i = l_id a /\ m' = m /\ m_fd x = Open f /\ m_type x = TS_SIGN /\ c = l_chan a /\ sapi = l_sapi a /\ tei = l_tei a
  | ELapdTx i m' | EStray (Msg i) m' | EDrop (Msg i) m' => i = l_id a /\ m' = m
  | _ => False
  end.
Definition flown (e : eff) : bool := match e with EData _ _ _ _ b => b | _ => false end.
Lemma good_hand u t x x' a m q tm e E : Good u t x E -> take (m_q x) = Some (a, m, q) -> (tm = true -> m_tmr x = true \/ m_type x = TS_SIGN) -> hands e x a m ->
  x' = (if flown e then w_unc (w_q x q tm) true else w_q x q tm) \/ (x' = w_unc (w_q x q tm) true) -> Good u t x' (E ++ [e]).
Proof.
  intros G T H HA X. pose proof (g_shape _ _ _ _ G) as S. destruct (take_spec _ _ _ _ (sh_ids _ S) T) as (A & B & C & D & F & _).
  assert (SH : Shape x'). { pose proof (shape_take x a m q tm S T H). destruct X as [-> | ->]; [destruct (flown e)|]; auto using shape_unc. }
  assert (Q : m_q x' = q) by (destruct X as [-> | ->]; [destruct (flown e)|]; reflexivity).
  assert (FD : m_fd x' = m_fd x) by (destruct X as [-> | ->]; [destruct (flown e)|]; reflexivity).
  assert (RG : m_reg x' = m_reg x) by (destruct X as [-> | ->]; [destruct (flown e)|]; reflexivity).
  assert (CU : m_cur x' = m_cur x) by (destruct X as [-> | ->]; [destruct (flown e)|]; reflexivity).
  assert (TY : m_type x' = m_type x) by (destruct X as [-> | ->]; [destruct (flown e)|]; reflexivity).
  assert (UN : m_unc x = true \/ flown e = true -> m_unc x' = true). { destruct X as [-> | ->]; [destruct (flown e)|]; cbn; intros [Z|Z]; easy. }
  clear X. apply (good_step u t x); auto.
  - intros v V. exists v. split.
    + destruct e as [| | | | | | |f [i|] m' o fu|? ?|f i c s0 te m'| | |[i|] ?|[i|] ?| | |i ?| | | | | | | | | | ]; try easy; cbn [hands] in HA; cbn [life advance]; unfold stage_ok in V.
      * destruct HA as (_ & _ & HF & _). rewrite HF in V. destruct V as (g & -> & _). now rewrite Nat.eqb_refl.
      * destruct HA as (_ & _ & HF & _). rewrite HF in V. destruct V as (g & -> & _). now rewrite Nat.eqb_refl.
    + unfold stage_ok in *. rewrite FD, RG. exact V.
  - intros i. rewrite Q. assert (P : passes i (queue i (m_q x)) e = Some (queue i q)).
    { destruct e as [| | | | | | |f [j|] m' o fu|? ?|f j c s0 te m'| | |[j|] ?|[j|] ?| | |j ?| | | | | | | | | | ]; try easy; cbn [hands] in HA; cbn [passes]; destruct HA as (-> & -> & _) || destruct HA as (-> & ->).
      all: destruct (Nat.eqb_spec (l_id a) i) as [<-|NE]; [rewrite B; now destruct (list_eq_dec Z.eq_dec m m)|rewrite C; auto]. }
    cbn [waiting]. now rewrite P.
  - intros b FB. unfold fl_ok in *. exists (b || flown e)%bool.
    destruct e as [| | | | | | |f [i|] m' o fu|? ?|f i c s0 te m'| | |[i|] ?|[i|] ?| | |i ?| | | | | | | | | | ]; try easy; cbn [hands] in HA; cbn [flight flies flown].
    1:{ destruct HA as (_ & _ & HF & HU). destruct b; [destruct (FB eq_refl); congruence|]. rewrite FD. split; [now destruct fu|]. cbn. intros ->. split; [apply UN; now right|eauto]. }
    all: rewrite orb_false_r, FD; split; [easy|]; intros Z; destruct (FB Z); split; auto.
  - intros i. assert (AQ : adr i x' = adr i x) by (unfold adr; rewrite TY, Q; destruct (m_type x); auto).
    rewrite AQ. cbn [addr]. destruct e as [| | | | | | |f [j|] m' o fu|? ?|f j c s0 te m'| | |[j|] ?|[j|] ?| | |j ?| | | | | | | | | | ]; try easy. cbn [hands] in HA. destruct HA as (-> & _ & _ & TS & -> & -> & ->). cbn [addresses]. destruct (Nat.eqb_spec (l_id a) i) as [<-|NE]; [|easy]. unfold adr. rewrite TS, F, !Z.eqb_refl. reflexivity.
  - apply place_keep; auto. congruence.
Qed.
Lemma good_mux u t x f m o (full : bool) E : Good u t x E -> m_fd x = Open f -> m_unc x = false -> Good u t (if full then w_unc x true else x) (E ++ [EData f Mux m o full]).
Proof.
  intros G F U. apply (good_step u t x); auto.
  - destruct full; [apply shape_unc|]; apply G.
  - intros v V. exists v. split; [unfold stage_ok in V; rewrite F in V; destruct V as (g & -> & _); cbn [life advance]; now rewrite Nat.eqb_refl|]. now destruct full.
  - intros i. cbn [waiting passes]. now destruct full.
  - intros b B. unfold fl_ok in *. exists full. cbn [flight flies]. split; [|destruct full; [cbn; eauto|discriminate]]. destruct b; [destruct (B eq_refl); congruence|]. now destruct full.
  - intros i. cbn [addr addresses]. now destruct full.
  - apply place_keep; destruct full; auto.
Qed.
Lemma good_stray u t x e E : Good u t x E -> (match e with EStray Mux _ | EDrop Mux _ => True | _ => False end) -> Good u t (w_unc x true) (E ++ [e]) /\ Good u t x (E ++ [e]).
Proof.
  intros G H. assert (P : Good u t x (E ++ [e])).
  { apply (good_step u t x); auto.
    - apply G.
    - intros v V. exists v. split; [|easy]. cbn [life]. now destruct e.
    - intros i. cbn [waiting]. destruct e as [| | | | | | | | | | | |[] ?|[] ?| | | | | | | | | | | | |]; easy.
    - intros b B. exists b. split; [|easy]. cbn [flight]. now destruct e.
    - intros i. cbn [addr]. now destruct e.
    - now apply place_keep. }
  split; [|easy]. rewrite <- (app_nil_r (E ++ [e])). apply (good_step u t x); auto.
  - apply shape_unc, G.
  - intros v V. exists v. split; [easy|exact V].
  - intros b B. exists b. split; [easy|]. intros X. destruct (B X). split; auto.
  - now apply place_keep.
Qed.
Lemma kept_data k u t rev z : Kept u t z (data_write k rev z).
Proof.
  unfold data_write. eapply kept_trans; [apply (kept_wr u t z false)|]. set (z0 := put z _). clearbody z0. destruct (m_unc (lx z0)) eqn:U; [apply kept_refl|]. unfold tx_ts.
  assert (Q : forall a m q, take (m_q (lx z0)) = Some (a, m, q) -> Kept u t z0 (let '(z, full) := out_data k (put z0 (w_q (lx z0) q (m_tmr (lx z0)))) (Msg (l_id a)) m (if rev then map rev8 m else m) in if full then put z (w_unc (lx z) true) else z)).
  { intros a m q T. unfold out_data. cbn [put lx w_q m_fd]. destruct (m_fd (lx z0)) as [| |f] eqn:F.
    - destruct (k_write k _); (eapply kept_by; [reflexivity|cbn; lia|reflexivity|]; intros E G; eapply (good_hand u t (lx z0) _ a m q (m_tmr (lx z0))); [exact G|exact T|auto|now cbn|first [now left|now right]]).
    - eapply kept_by; [reflexivity|cbn; lia|reflexivity|]. intros E G. eapply (good_hand u t (lx z0) _ a m q (m_tmr (lx z0))); [exact G|exact T|auto|now cbn|now left].
    - destruct (k_write k _); (eapply kept_by; [reflexivity|cbn; lia|reflexivity|]; intros E G; eapply (good_hand u t (lx z0) _ a m q (m_tmr (lx z0))); [exact G|exact T|auto|now cbn|now left]). }
  assert (R : forall m o, Kept u t z0 (let '(z, full) := out_data k (next z0) Mux m o in if full then put z (w_unc (lx z) true) else z)). 
  { intros m o. unfold out_data. cbn [next lx ln m_fd]. destruct (m_fd (lx z0)) as [| |f] eqn:F.
    3:{ destruct (k_write k _); (eapply kept_by; [reflexivity|cbn; lia|reflexivity|]; intros E G; cbn [put next emit lx]); [apply (good_mux u t (lx z0) f m o true)|apply (good_mux u t (lx z0) f m o false)]; auto. }
    all: try (destruct (k_write k _)); (eapply kept_by; [reflexivity|cbn; lia|reflexivity|]; intros E G; cbn [put next emit lx]; match goal with |- Good _ _ _ (_ ++ [?e]) => destruct (good_stray u t (lx z0) e E G Logic.I) end; assumption). }
  destruct (m_type (lx z0)); try apply R; try apply kept_refl; (destruct (take (m_q (lx z0))) as [[[a m] q]|] eqn:T; [now apply Q|apply kept_refl]).
Qed.
Lemma kept_sign k u t ul z z' : sign_write k ul z = Ok z' -> Kept u t z z'.
Proof.
  unfold sign_write. intros H. eapply kept_trans; [apply (kept_wr u t z false)|]. set (z0 := put z _) in *. clearbody z0. revert H.
  destruct (m_type (lx z0)) eqn:TY; try discriminate; try (intros [= <-]; apply kept_refl); destruct (take (m_q (lx z0))) as [[[a m] q]|] eqn:T; try discriminate; try (intros [= <-]; apply kept_refl).
  cbn [put lx]. destruct ul; [destruct (m_lapd _); [|discriminate]|]; intros [= <-].
  - eapply kept_by; [reflexivity|cbn; lia|reflexivity|]. intros E G. eapply (good_hand u t (lx z0) _ a m q true); [exact G|exact T|auto|now cbn|now left].
  - cbn [put lx w_q m_q m_fd]. destruct (m_fd (lx z0)) as [| |f] eqn:F; (eapply kept_by; [reflexivity|cbn; lia|reflexivity|]; intros E G; eapply (good_hand u t (lx z0) _ a m q true); [exact G|exact T|auto|cbn; auto 10|now left]).
Qed.
(** commands *)
Lemma kept_config u t ty z z' : config ty z = Ok z' -> Kept u t z z'.
Proof.
  unfold config. destruct (type_eqb_spec (m_type (lx z)) ty) as [|NE]; [intros [= <-]; apply kept_refl|]. destruct (_ && _) eqn:L; [discriminate|]. intros [= <-].
  eapply kept_by; [reflexivity|cbn; lia|reflexivity|]. intros E G. cbn [emit put lx]. pose proof (g_shape _ _ _ _ G) as S. apply (good_step u t (lx z)); auto.
  - destruct S as [A B C D F]. split; cbn [w_type m_reg m_fd m_lapd m_q m_type m_tmr]; auto.
    + destruct ty; cbn; repeat constructor; easy.
    + destruct ty; cbn; eauto.
    + intros X. destruct (F X) as [Y N]. rewrite Y in L. cbn in L. now destruct (m_q (lx z)).
  - intros v V. exists v. split; [easy|exact V].
  - intros i. cbn [waiting passes w_type m_q]. destruct ty; cbn [queues0 queue l_id]; try easy; now destruct (Nat.eqb 0 i).
  - intros b B. exists b. split; [easy|exact B].
  - intros i. cbn [addr addresses]. unfold adr. cbn [w_type m_type m_q]. now destruct ty.
  - now apply place_keep.
Qed.
Lemma kept_link u t i tei sapi z : Kept u t z (link i tei sapi z).
Proof.
  unfold link. destruct (type_eqb_spec (m_type (lx z)) TS_SIGN) as [TY|]; [|apply kept_refl]. destruct (has i (m_q (lx z))) eqn:H; [apply kept_refl|]. cbn [andb negb].
  assert (N : ~ In i (ids (m_q (lx z)))) by (rewrite <- has_in; congruence).
  eapply kept_by; [reflexivity|cbn; lia|reflexivity|]. intros E G. cbn [emit put lx]. pose proof (g_shape _ _ _ _ G) as S. apply (good_step u t (lx z)); auto.
  - destruct S as [A B C D F]. split; cbn [w_q m_reg m_fd m_lapd m_q m_type m_tmr]; auto.
    + unfold ids in *. rewrite map_app. apply nodup_app; [easy|repeat constructor; easy|]. intros x I [<-|[]]. easy.
    + now rewrite TY.
    + intros X. split; [easy|]. now destruct (m_q (lx z)).
  - intros v V. exists v. split; [easy|exact V].
  - intros j. cbn [waiting passes w_q m_q]. now rewrite snoc_queue.
  - intros b B. exists b. split; [easy|exact B].
  - intros j. cbn [addr addresses]. unfold adr. cbn [w_q m_type m_q]. rewrite TY, snoc_adrq by easy. cbn [l_id l_tei l_sapi l_chan]. now destruct (Nat.eqb i j).
  - now apply place_keep.
Qed.
Lemma kept_unlink u t i z : Kept u t z (unlink i z).
Proof.
  unfold unlink. destruct (type_eqb_spec (m_type (lx z)) TS_SIGN) as [TY|]; [|apply kept_refl]. destruct (has i (m_q (lx z))) eqn:H; [|apply kept_refl]. cbn [andb negb].
  eapply kept_by; [reflexivity|cbn; lia|reflexivity|]. intros E G. cbn [emit put lx]. pose proof (g_shape _ _ _ _ G) as S. apply (good_step u t (lx z)); auto.
  - destruct S as [A B C D F]. split; cbn [w_q m_reg m_fd m_lapd m_q m_type m_tmr]; auto; try discriminate.
    + now apply filter_ids.
    + now rewrite TY.
  - intros v V. exists v. split; [easy|exact V].
  - intros j. cbn [waiting passes w_q m_q]. rewrite filter_queue, (Nat.eqb_sym i j). now destruct (Nat.eqb j i).
  - intros b B. exists b. split; [easy|exact B].
  - intros j. cbn [addr addresses]. unfold adr. cbn [w_q m_type m_q]. rewrite TY, filter_adrq, (Nat.eqb_sym i j). now destruct (Nat.eqb j i).
  - now apply place_keep.
Qed.
Lemma good_append u t x i m E : Good u t x E -> has i (m_q x) = true -> Good u t (w_q x (append i m (m_q x)) (m_tmr x)) (E ++ [EAcc i m]).
Proof.
  intros G H. pose proof (g_shape _ _ _ _ G) as S. apply (good_step u t x); auto.
  - apply shape_q; auto using append_ids. pose proof (sh_q _ S) as Q. destruct (m_type x); try easy; destruct Q as (ms & ->); cbn [append l_id]; destruct (Nat.eqb 0 i); eauto.
  - intros v V. exists v. split; [easy|exact V].
  - intros j. cbn [waiting passes w_q m_q]. rewrite append_queue, H, andb_true_r, (Nat.eqb_sym i j). now destruct (Nat.eqb j i).
  - intros b B. exists b. split; [easy|exact B].
  - intros j. cbn [addr addresses]. unfold adr. cbn [w_q m_type m_q]. now rewrite append_adrq.
  - now apply place_keep.
Qed.
Lemma kept_send u t i m z : Kept u t z (send i m z).
Proof.
  unfold send. destruct (has i (m_q (lx z))) eqn:H; [|apply kept_refl]. cbn [negb].
  assert (AP : forall z0, m_q (lx z0) = m_q (lx z) -> m_tmr (lx z0) = m_tmr (lx z) -> Kept u t z0 (emit (put z0 (w_q (lx z0) (append i m (m_q (lx z))) (m_tmr (lx z)))) (EAcc i m))).
  { intros z0 Q T. eapply kept_by; [reflexivity|cbn; lia|reflexivity|]. intros E G. cbn [emit put lx]. rewrite <- Q, <- T. apply good_append; [easy|now rewrite Q]. }
  assert (WQ : m_q (lx (want_write z)) = m_q (lx z) /\ m_tmr (lx (want_write z)) = m_tmr (lx z)) by (unfold want_write; now destruct (m_type (lx z))).
  destruct (m_type (lx z)) eqn:TY; try apply kept_refl.
  - pose proof (AP z eq_refl eq_refl) as AZ. set (y := emit _ _) in *. clearbody y. destruct (m_tmr (lx z)); [exact AZ|]. eapply kept_trans; [exact AZ|apply kept_want].
  - eapply kept_trans; [apply kept_want|]. now apply AP.
  - eapply kept_trans; [apply kept_want|]. now apply AP.
Qed.
Lemma kept_chan u t tei sapi c z : m_type (lx z) = TS_SIGN -> Kept u t z (tell_chan tei sapi c z).
Proof.
  intros TY. unfold tell_chan. destruct (lookup tei sapi (m_q (lx z))) as [a|] eqn:L; [|apply kept_refl].
  eapply kept_by; [reflexivity|cbn; lia|reflexivity|]. intros E G. cbn [emit put lx]. pose proof (g_shape _ _ _ _ G) as S. apply (good_step u t (lx z)); auto.
  - apply shape_q; auto using set_chan_ids. now rewrite TY.
  - intros v V. exists v. split; [easy|exact V].
  - intros j. cbn [waiting passes w_q m_q]. now rewrite set_chan_queue.
  - intros b B. exists b. split; [easy|exact B].
  - intros j. cbn [addr addresses]. unfold adr. cbn [w_q m_type m_q]. rewrite TY, (set_chan_adrq _ _ _ _ _ (sh_ids _ S) L). destruct (Nat.eqb_spec (l_id a) j) as [<-|NE]; [|easy]. now rewrite (lookup_adrq _ _ _ _ (sh_ids _ S) L).
  - now apply place_keep.
Qed.
Lemma kept_cnf u t z : Kept u t z (emit (put z (w_wr (w_unc (lx z) false) true)) ECnf).
Proof.
  eapply kept_by; [reflexivity|cbn; lia|reflexivity|]. intros E G. cbn [emit put lx]. apply (good_step u t (lx z)); auto.
  - apply shape_wr, shape_unc, G.
  - intros v V. exists v. split; [easy|exact V].
  - intros b B. exists false. split; [easy|discriminate].
  - now apply place_keep.
Qed.
Lemma kept_timer u t z : Kept u t z (want_write (put z (w_q (lx z) (m_q (lx z)) false))).
Proof.
  eapply kept_trans; [|apply kept_want]. exists []. apply keep_put; auto. intros S. apply shape_q; auto; [|discriminate]. pose proof (sh_q _ S). now destruct (m_type (lx z)).
Qed.
