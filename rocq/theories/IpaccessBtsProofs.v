(** Invariant of the BTS side of the ip.access driver. *)
From Coq Require Import List Arith Lia Bool ZArith.
From Verif Require Import Base ProxyProofs IpaccessModel IpaccessProofs IpaccessBtsModel IpaccessBtsSpec.
Import ListNotations.
Open Scope Z_scope.

Ltac bs := cbn [il tab tss clis kas lks unit_trx kap logs nxt out b_ka b_fd b_sign c_id c_ts c_open
  emit set_ts set_tab set_clis set_kas set_lks set_il set_unit fresh] in *.
Ltac bsg := cbn [il tab tss clis kas lks unit_trx kap logs nxt out b_ka b_fd b_sign c_id c_ts c_open
  emit set_ts set_tab set_clis set_kas set_lks set_il set_unit fresh].

Lemma phase_app c es : forall p fs, phase c p (es ++ fs) = match phase c p es with Some q => phase c q fs | None => None end.
Proof. induction es as [|e es IH]; intros p fs; [easy|]. cbn [app phase]. destruct (advance c p e); [apply IH|easy]. Qed.

(** streams are opened for their timeslot and identify themselves as its TRX *)
Definition named (cl : list cli) (o : list beff) : Prop :=
  (forall x, In x cl -> told (c_id x) (c_ts x) o) /\ (forall c m, In (BIdResp c m) o -> exists t, told c t o /\ m = trx_of t).
Definition silent (es : list beff) : Prop := forall c m, ~ In (BIdResp c m) es.
Lemma told_app c t o es : told c t o -> told c t (o ++ es).
Proof. intros (a & p & I). exists a, p. apply in_app_iff. auto. Qed.
Lemma named_le cl o cl' es : named cl o -> silent es -> (forall x, In x cl' -> exists y, In y cl /\ c_id y = c_id x /\ c_ts y = c_ts x) -> named cl' (o ++ es).
Proof.
  intros [A B] S C. split.
  - intros x I. destruct (C x I) as (y & J & <- & <-). apply told_app. auto.
  - intros c m I. apply in_app_iff in I as [I|I]; [|now apply S in I]. destruct (B c m I) as (t & ? & ?). exists t. split; [now apply told_app|easy].
Qed.
Lemma silent_one e : (match e with BIdResp _ _ => false | _ => true end) = true -> silent [e].
Proof. intros H c m [->|[]]. discriminate. Qed.
Record W (s : bst) : Prop := {
  w_nd : NoDup (map c_id (clis s));
  w_lt : forall x, In x (clis s) -> (c_id x < nxt s)%nat;
  w_tab : forall i c, tab s i = Some c -> exists x, In x (clis s) /\ c_id x = c /\ c_ts x = i;
  w_ka : forall i k, b_ka (tss s i) = Some k -> exists x, kas s k = Some (c_id x) /\ In x (clis s) /\ c_ts x = i;
  w_kas : forall k c, kas s k = Some c -> (k < nxt s)%nat /\ exists x, In x (clis s) /\ c_id x = c /\ c_open x = true /\ b_ka (tss s (c_ts x)) = Some k;
  w_cli : forall x, In x (clis s) -> (c_ts x < 32)%nat /\ b_sign (tss s (c_ts x)) = true /\ il s = true;
  w_lk : forall k, In k (lks s) -> l_line k = 0%nat /\ (l_ts k < 32)%nat /\ b_sign (tss s (l_ts k)) = true /\ (l_id k < nxt s)%nat;
  w_lnd : NoDup (map l_id (lks s));
  w_q : forall k, In k (lks s) -> l_tx k = [];
  w_in : forall x, In x (clis s) -> phase (c_id x) 0 (out s) = Some (if c_open x then 1 else 2)%nat;
  w_out : forall c, ~ In c (map c_id (clis s)) -> phase c 0 (out s) = Some 0%nat \/ phase c 0 (out s) = Some 3%nat;
  w_new : forall c, (nxt s <= c)%nat -> phase c 0 (out s) = Some 0%nat;
  w_nm : named (clis s) (out s)
}.
(** every client is in the table *)
Definition T (s : bst) : Prop := forall x, In x (clis s) -> tab s (c_ts x) = Some (c_id x).
Definition Inv (p : bool) (s : bst) : Prop := W s /\ (p = true -> T s).
Definition fine (p : bool) (r : why) : Prop :=
  r <> Freed /\ r <> NoList /\ (p = true -> r <> NullCli /\ forall t, r <> Supervised t).
(** what every call does to the streams *)
Definition Fr (s s' : bst) : Prop :=
  (nxt s <= nxt s')%nat /\ kap s' = kap s /\ (logs s' = logs s /\ (il s = true -> il s' = true)) /\ unit_trx s' = unit_trx s /\ (exists es, out s' = out s ++ es) /\
  forall x, In x (clis s') -> (c_id x < nxt s)%nat -> exists y, In y (clis s) /\ c_id y = c_id x /\ c_ts y = c_ts x /\ (c_open x = true -> c_open y = true).
(** ... if no stream is opened *)
Definition Sh (s s' : bst) : Prop :=
  (forall x, In x (clis s') -> (c_id x < nxt s)%nat) /\ (forall i, tab s' i = tab s i \/ tab s' i = None) /\ tab s' 0 = tab s 0.
Definition good (p q : bool) (s : bst) (r : res bst) : Prop :=
  match r with Ok s' => Inv p s' /\ Fr s s' /\ (q = true -> Sh s s') | Bad r => fine p r end.
Definition cb (p : bool) (f : bst -> res bst) : Prop := forall s, Inv p s -> good p p s (f s).

Lemma fr_refl s : Fr s s.
Proof. split; [lia|]. do 3 (split; [easy|]). split; [exists []; now rewrite app_nil_r|]. eauto. Qed.
Lemma fr_trans a b c : Fr a b -> Fr b c -> Fr a c.
Proof.
  intros (N1 & K1 & L1 & U1 & (e1 & O1) & F1) (N2 & K2 & L2 & U2 & (e2 & O2) & F2). split; [lia|]. split; [congruence|]. split; [split; [destruct L1, L2; congruence|destruct L1, L2; auto]|]. split; [congruence|].
  split; [exists (e1 ++ e2); rewrite O2, O1; now rewrite app_assoc|]. intros x I L. destruct (F2 x I) as (y & J & E & Et & Eo); [lia|].
  destruct (F1 y J) as (z & J' & E' & Et' & Eo'); [lia|]. exists z. split; [easy|]. split; [congruence|]. split; [congruence|]. auto.
Qed.
Lemma sh_refl s : W s -> Sh s s.
Proof. intros w. split; [apply w|]. auto. Qed.
Lemma sh_trans a b c : Fr a b -> Sh a b -> Fr b c -> Sh b c -> Sh a c.
Proof.
  intros F1 (S1 & T1 & Z1) F2 (S2 & T2 & Z2). split; [|split].
  - intros x I. destruct F2 as (_ & _ & _ & _ & _ & F2). destruct (F2 x I (S2 x I)) as (y & J & E & _). rewrite <- E. auto.
  - intros i. destruct (T2 i) as [->| ->]; auto.
  - congruence.
Qed.
Lemma good_bind p q s s1 f : Inv p s1 -> Fr s s1 -> (q = true -> Sh s s1) -> good p q s1 f -> good p q s f.
Proof.
  intros I F S. unfold good. destruct f as [s'|r]; [|easy]. intros (I' & F' & S'). split; [easy|]. split; [eapply fr_trans; eauto|].
  intros Q. eapply sh_trans; eauto.
Qed.
Lemma good_ok p q s s' : Inv p s' -> Fr s s' -> (q = true -> Sh s s') -> good p q s (Ok s').
Proof. easy. Qed.

(** effects that concern no stream *)
Definition plain (e : beff) : bool :=
  match e with BConnect _ _ _ _ | BClose _ | BFree _ | BSend _ _ _ | BIdResp _ _ | BIdAck _ => false | _ => true end.
Lemma plain_phase c p e : plain e = true -> advance c p e = Some p.
Proof. now destruct e. Qed.
Lemma phase_emit c p l e : plain e = true -> phase c p (l ++ [e]) = phase c p l.
Proof. intros P. rewrite phase_app. destruct (phase c p l); [|easy]. cbn [phase]. now rewrite plain_phase. Qed.
Lemma w_emit s e : plain e = true -> W s -> W (emit s e).
Proof.
  intros P w. destruct w. constructor; bsg; auto.
  - intros x I. rewrite phase_emit by easy. auto.
  - intros c I. rewrite phase_emit by easy. auto.
  - intros c I. rewrite phase_emit by easy. auto.
  - eapply named_le; [exact w_nm0|apply silent_one; now destruct e|eauto].
Qed.
Lemma inv_emit p s e : plain e = true -> Inv p s -> Inv p (emit s e).
Proof. intros P [w t]. split; [now apply w_emit|exact t]. Qed.
Lemma fr_emit s e : Fr s (emit s e).
Proof. split; [bsg; lia|]. do 3 (split; [easy|]). split; [now exists [e]|]. eauto. Qed.
Lemma sh_emit s e : W s -> Sh s (emit s e).
Proof. intros w. split; [apply w|]. auto. Qed.
#[global] Hint Resolve fr_refl fr_emit sh_emit sh_refl : core.
Lemma inv_w p s : Inv p s -> W s. Proof. now intros [w _]. Qed.
#[global] Hint Resolve inv_w : core.

(** changes of a timeslot that keep the keepalive machine and configure at most more *)
Lemma w_set_ts s t x : W s -> b_ka x = b_ka (tss s t) -> (b_sign (tss s t) = true -> b_sign x = true) -> W (set_ts s t x).
Proof.
  intros w K S. destruct w. constructor; bsg; auto.
  - intros i k. unfold upd. destruct (Nat.eqb_spec i t) as [->|]; [rewrite K|]; auto.
  - intros k c E. destruct (w_kas0 k c E) as (L & y & I & E1 & O & B). split; [easy|]. exists y. do 3 (split; [easy|]).
    unfold upd. destruct (Nat.eqb_spec (c_ts y) t) as [Et|]; [rewrite K, <- Et|]; easy.
  - intros y I. destruct (w_cli0 y I) as (L & B & A). split; [easy|]. split; [|easy]. unfold upd. destruct (Nat.eqb_spec (c_ts y) t) as [Et|]; [|easy]. apply S. now rewrite <- Et.
  - intros k I. destruct (w_lk0 k I) as (A & L & B & N). split; [easy|]. split; [easy|]. split; [|easy]. unfold upd. destruct (Nat.eqb_spec (l_ts k) t) as [Et|]; [|easy]. apply S. now rewrite <- Et.
Qed.
Lemma inv_set_ts p s t x : Inv p s -> b_ka x = b_ka (tss s t) -> (b_sign (tss s t) = true -> b_sign x = true) -> Inv p (set_ts s t x).
Proof. intros [w t0] K S. split; [now apply w_set_ts|exact t0]. Qed.
Lemma fr_set_ts s t x : Fr s (set_ts s t x).
Proof. split; [bsg; lia|]. do 3 (split; [easy|]). split; [exists []; bsg; now rewrite app_nil_r|]. eauto. Qed.
Lemma sh_set_ts s t x : W s -> Sh s (set_ts s t x).
Proof. intros w. split; [apply w|]. auto. Qed.
Lemma inv_il p s : Inv p s -> Inv p (set_il s).
Proof. intros [w t]. split; [|exact t]. destruct w. constructor; bsg; auto. intros x I. destruct (w_cli0 x I) as (? & ? & ?). auto. Qed.
Lemma fr_il s : Fr s (set_il s).
Proof. split; [bsg; lia|]. do 3 (split; [easy|]). split; [exists []; bsg; now rewrite app_nil_r|]. eauto. Qed.
#[global] Hint Resolve fr_set_ts sh_set_ts fr_il : core.

(** the machine of a timeslot ends *)
Lemma cleanup_ok p s t : Inv p s -> exists s', ka_cleanup s t = Ok s' /\ Inv p s' /\ Fr s s' /\ Sh s s' /\ clis s' = clis s /\ tab s' = tab s /\
  b_ka (tss s' t) = None /\ lks s' = lks s /\ (forall i, b_sign (tss s' i) = b_sign (tss s i)) /\ il s' = il s /\
  out s' = out s ++ match b_ka (tss s t) with Some k => [BKaTerm k] | None => [] end.
Proof.
  intros [w t0]. unfold ka_cleanup. destruct (b_ka (tss s t)) as [k|] eqn:K.
  2:{ exists s. split; [easy|]. split; [easy|]. repeat (split; auto). now rewrite app_nil_r. }
  destruct (w_ka s w t k K) as (x & E & I & Et). rewrite E. eexists. split; [reflexivity|]. split; [|split; [|split; [|bsg; repeat (split; auto)]]].
  - split; [|exact t0]. apply w_emit; [easy|]. pose proof (w_kas s w k _ E) as (KL & x' & I' & E' & O' & B').
    assert (x' = x) as -> by (apply (id_inj c_id (clis s)); auto; apply w). destruct w. constructor; bsg; auto.
    + intros i k'. unfold upd. destruct (Nat.eqb_spec i t); [discriminate|]. intros B. destruct (w_ka0 i k' B) as (y & Ey & Iy & Ety).
      exists y. split; [|easy]. unfold upd. destruct (Nat.eqb_spec k' k) as [->|]; [|easy]. rewrite E in Ey. injection Ey as Ey.
      assert (x = y) as <- by (apply (id_inj c_id (clis s)); auto). congruence.
    + intros k' c. unfold upd. destruct (Nat.eqb_spec k' k); [discriminate|]. intros Ec. destruct (w_kas0 k' c Ec) as (L & y & Iy & Ey & Oy & By).
      split; [easy|]. exists y. do 3 (split; [easy|]). destruct (Nat.eqb_spec (c_ts y) t) as [Ey'|]; [|easy]. congruence.
    + intros y Iy. destruct (w_cli0 y Iy) as (? & ? & ?). split; [easy|]. split; [|easy]. unfold upd. destruct (Nat.eqb_spec (c_ts y) t) as [<-|]; easy.
    + intros y Iy. destruct (w_lk0 y Iy) as (? & ? & ? & ?). split; [easy|]. split; [easy|]. split; [|easy]. unfold upd. destruct (Nat.eqb_spec (l_ts y) t) as [<-|]; easy.
  - split; [bsg; lia|]. do 3 (split; [easy|]). split; [now eexists|]. eauto.
  - split; [apply w|]. auto.
  - unfold upd. now rewrite Nat.eqb_refl.
  - intros i. unfold upd. destruct (Nat.eqb_spec i t) as [->|]; easy.
Qed.

Lemma find_cli_in s x : W s -> In x (clis s) -> find_cli s (c_id x) = Some x.
Proof. intros w I. apply (find_id c_id); [apply w|easy]. Qed.
Lemma find_cli_some s c x : find_cli s c = Some x -> In x (clis s) /\ c_id x = c.
Proof. apply (find_id_some c_id). Qed.
Lemma not_in_find s c : find_cli s c = None -> ~ In c (map c_id (clis s)).
Proof. intros F I. apply in_map_iff in I as (x & E & I). pose proof (find_none _ _ F x I) as N. cbn in N. rewrite E, Nat.eqb_refl in N. discriminate. Qed.
Lemma down_ok p f s t : cb p f -> Inv p s -> good p p s (down_cb f s t).
Proof.
  intros C I. unfold down_cb. destruct (cleanup_ok p s t I) as (s1 & -> & I1 & F1 & S1 & _).
  eapply good_bind; [exact I1|exact F1|auto|]. eapply good_bind; [apply (inv_emit p s1 (BDown t) eq_refl I1)|auto|intros _; apply sh_emit; eauto|].
  apply C. now apply inv_emit.
Qed.
(** the state in which the disconnect callback finds a client *)
Definition shut (s : bst) (c : nat) : bst := emit (set_clis s (map (fun y => if Nat.eqb (c_id y) c then mkCli c (c_ts y) false else y) (clis s))) (BClose c).
Lemma shut_rep s c : clis (shut s c) = rep c_id c (fun y => mkCli (c_id y) (c_ts y) false) (clis s).
Proof. unfold shut; bsg. unfold rep. apply map_ext. intros y. destruct (Nat.eqb_spec (c_id y) c) as [->|]; easy. Qed.
Definition set_out (s : bst) (o : list beff) : bst := mkBst (il s) (tab s) (tss s) (clis s) (kas s) (lks s) (unit_trx s) (kap s) (logs s) (nxt s) o.
Lemma w_set_out s o : W s -> (forall c, phase c 0 o = phase c 0 (out s)) -> named (clis s) o -> W (set_out s o).
Proof. intros w E NM. destruct w. constructor; unfold set_out; bsg; auto; intros; rewrite E; auto. Qed.
Lemma w_shut s x : W s -> In x (clis s) -> c_open x = true -> (forall k, kas s k <> Some (c_id x)) -> W (shut s (c_id x)).
Proof.
  intros w I O NK. pose proof (shut_rep s (c_id x)) as R.
  assert (IN : forall y, In y (clis s) -> exists z, In z (clis (shut s (c_id x))) /\ c_id z = c_id y /\ c_ts z = c_ts y /\ (c_id y <> c_id x -> z = y)).
  { intros y J. rewrite R. destruct (Nat.eq_dec (c_id y) (c_id x)) as [E|N].
    - exists (mkCli (c_id y) (c_ts y) false). split; [|easy]. rewrite <- E. apply (in_rep_same c_id (fun y => mkCli (c_id y) (c_ts y) false) (clis s) y J).
    - exists y. split; [now apply in_rep_other|easy]. }
  assert (INV : forall z, In z (clis (shut s (c_id x))) -> exists y, In y (clis s) /\ c_id z = c_id y /\ c_ts z = c_ts y /\ (if Nat.eqb (c_id y) (c_id x) then c_open z = false else z = y)).
  { intros z J. rewrite R in J. apply in_rep in J as (y & J & ->). exists y. destruct (Nat.eqb (c_id y) (c_id x)); easy. }
  assert (ID : map c_id (clis (shut s (c_id x))) = map c_id (clis s)) by (rewrite R; now apply rep_ids).
  assert (EO : out (shut s (c_id x)) = out s ++ [BClose (c_id x)]) by reflexivity.
  assert (PN : forall c, c <> c_id x -> phase c 0 (out (shut s (c_id x))) = phase c 0 (out s)).
  { intros c N. rewrite EO, phase_app. destruct (phase c 0 (out s)); [|easy]. cbn [phase advance]. destruct (Nat.eqb_spec (c_id x) c); [congruence|easy]. }
  destruct w. constructor.
  - now rewrite ID.
  - intros z J. destruct (INV z J) as (y & Jy & -> & _). exact (w_lt0 y Jy).
  - intros i c E. destruct (w_tab0 i c E) as (y & J & E1 & E2). destruct (IN y J) as (z & Jz & Z1 & Z2 & _). exists z. split; [easy|]. split; congruence.
  - intros i k E. destruct (w_ka0 i k E) as (y & K & J & E2). destruct (IN y J) as (z & Jz & Z1 & Z2 & _). exists z. split; [rewrite Z1; exact K|]. split; [easy|congruence].
  - intros k c E. destruct (w_kas0 k c E) as (L & y & J & E1 & O1 & B). split; [easy|]. destruct (IN y J) as (z & Jz & Z1 & Z2 & Z3).
    assert (c_id y <> c_id x) as N by (intros Q; apply (NK k); change (kas s k = Some (c_id x)); rewrite <- Q, E1; exact E). rewrite (Z3 N) in Jz. eauto.
  - intros z J. destruct (INV z J) as (y & Jy & _ & -> & _). exact (w_cli0 y Jy).
  - exact w_lk0.
  - exact w_lnd0.
  - exact w_q0.
  - intros z J. destruct (INV z J) as (y & Jy & Ei & _ & OZ). destruct (Nat.eqb_spec (c_id y) (c_id x)) as [E|N].
    + rewrite OZ, EO, phase_app, Ei, E, (w_in0 x I), O. cbn [phase advance]. now rewrite Nat.eqb_refl.
    + rewrite Ei, PN by easy. subst z. apply w_in0, Jy.
  - intros c N. rewrite ID in N. rewrite PN; [auto|]. intros ->. apply N. now apply in_map.
  - intros c L. rewrite PN; [auto|]. intros ->. pose proof (w_lt0 x I). change (nxt (shut s (c_id x))) with (nxt s) in L. lia.
  - rewrite EO. eapply named_le; [exact w_nm0|now apply silent_one|]. intros z J. destruct (INV z J) as (y & ? & -> & -> & _). eauto.
Qed.
Lemma t_shut s c : T s -> T (shut s c).
Proof. intros t z J. rewrite shut_rep in J. apply in_rep in J as (y & J & ->). change (tab (shut s c)) with (tab s). pose proof (t y J). destruct (Nat.eqb (c_id y) c); easy. Qed.
Definition closed (s : bst) (c : nat) : Prop := forall x, In x (clis s) -> c_id x = c -> c_open x = false.
Lemma closed_fr s s' c : Fr s s' -> (c < nxt s)%nat -> closed s c -> closed s' c.
Proof.
  intros (_ & _ & _ & _ & _ & F) L C x I E. destruct (F x I) as (y & J & E1 & _ & O); [lia|]. destruct (c_open x); [|easy].
  rewrite (C y J) in O; [|congruence]. discriminate (O eq_refl).
Qed.
Lemma shut_ok p s x : Inv p s -> In x (clis s) -> c_open x = true ->
  exists s', ka_cleanup (shut s (c_id x)) (c_ts x) = Ok s' /\ Inv p s' /\ Fr s s' /\ Sh s s' /\ closed s' (c_id x) /\ tab s' = tab s /\ lks s' = lks s /\
   out s' = out s ++ BClose (c_id x) :: match b_ka (tss s (c_ts x)) with Some k => [BKaTerm k] | None => [] end.
Proof.
  intros [w t0] I O. destruct (cleanup_ok p s (c_ts x) (conj w t0)) as (s1 & E1 & [w1 t1] & F1 & S1 & C1 & T1 & K1 & L1 & _ & _ & O1).
  assert (NK : forall k, kas s1 k <> Some (c_id x)).
  { intros k E. destruct (w_kas s1 w1 k _ E) as (_ & y & J & Ey & _ & B). rewrite C1 in J. assert (y = x) as -> by (apply (id_inj c_id (clis s)); auto; apply w). congruence. }
  assert (I1 : In x (clis s1)) by now rewrite C1.
  pose proof (w_shut s1 x w1 I1 O NK) as w2. set (term := match b_ka (tss s (c_ts x)) with Some k => [BKaTerm k] | None => [] end) in *.
  exists (set_out (shut s1 (c_id x)) (out s ++ BClose (c_id x) :: term)).
  assert (CL : closed (set_out (shut s1 (c_id x)) (out s ++ BClose (c_id x) :: term)) (c_id x)).
  { intros z J E. change (In z (clis (shut s1 (c_id x)))) in J. rewrite shut_rep in J. apply in_rep in J as (y & J & ->). destruct (Nat.eqb_spec (c_id y) (c_id x)); easy. }
  split; [|split; [split|split; [|split; [|split; [exact CL|split; [exact T1|split; [exact L1|reflexivity]]]]]]].
  - unfold ka_cleanup in *. change (tss (shut s (c_id x))) with (tss s). change (kas (shut s (c_id x))) with (kas s). subst term.
    destruct (b_ka (tss s (c_ts x))) as [k|].
    + destruct (kas s k); [|discriminate]. injection E1 as <-. unfold shut, set_out, emit, set_ts, set_kas, set_clis; bsg. now rewrite <- app_assoc.
    + injection E1 as <-. reflexivity.
  - apply w_set_out; [exact w2| |change (named (clis (shut s1 (c_id x))) (out s ++ BClose (c_id x) :: term)); apply (named_le (clis s) (out s));
      [exact (w_nm s w)|subst term; intros c m [Q|Q]; [discriminate|destruct (b_ka (tss s (c_ts x))); [destruct Q as [Q|[]]; discriminate|destruct Q]]|
       intros z J; rewrite shut_rep, C1 in J; apply in_rep in J as (y & J & ->); exists y; destruct (Nat.eqb (c_id y) (c_id x)); easy]].
    intros c. unfold shut; bsg. rewrite O1, !phase_app. destruct (phase c 0 (out s)) as [q|]; [|easy]. subst term.
    destruct (b_ka (tss s (c_ts x))); cbn [phase advance]; [|easy]. destruct (Nat.eqb (c_id x) c); [|easy]. destruct (Nat.eqb q 1); easy.
  - intros P. exact (t_shut s1 (c_id x) (t1 P)).
  - destruct F1 as (N & K & G & U & _ & F). split; [exact N|]. do 3 (split; [easy|]). split; [eexists; reflexivity|].
    intros z J. change (In z (clis (shut s1 (c_id x)))) in J. rewrite shut_rep, C1 in J. apply in_rep in J as (y & J & ->). intros _. exists y. destruct (Nat.eqb (c_id y) (c_id x)); easy.
  - split; [|rewrite <- T1; split; [now left|easy]]. intros z J. change (In z (clis (shut s1 (c_id x)))) in J. rewrite shut_rep, C1 in J. apply in_rep in J as (y & J & ->).
    pose proof (w_lt s w y J). destruct (Nat.eqb (c_id y) (c_id x)); easy.
Qed.
(** osmo_stream_cli_close *)
Lemma close_ok p f s x : cb p f -> Inv p s -> In x (clis s) ->
  good p p s (cli_close f s (c_id x)) /\ (forall s', cli_close f s (c_id x) = Ok s' -> closed s' (c_id x)).
Proof.
  intros C G I. unfold cli_close. rewrite (find_cli_in s x) by eauto. destruct (c_open x) eqn:O.
  2:{ split; [apply good_ok; eauto|]. intros s' E. injection E as <-. intros y J E. assert (y = x) as -> by (apply (id_inj c_id (clis s)); auto; apply (inv_w p s G)). easy. }
  fold (shut s (c_id x)). unfold down_cb. destruct (shut_ok p s x G I O) as (s1 & -> & G1 & F1 & S1 & C1 & _).
  pose proof (inv_emit p s1 (BDown (c_ts x)) eq_refl G1) as G2. pose proof (C _ G2) as C2. split.
  - eapply good_bind; [exact G1|exact F1|auto|]. eapply good_bind; [exact G2|auto|intros _; apply sh_emit; eauto|exact C2].
  - intros s' E. rewrite E in C2. destruct C2 as (_ & F2 & _). apply (closed_fr s1); [eapply fr_trans; [apply fr_emit|exact F2]| |exact C1].
    pose proof (w_lt s (inv_w p s G) x I). destruct F1. lia.
Qed.
(** a closed client leaves, with its entry in the table *)
Definition gone (s : bst) (c t : nat) : bst := set_tab (cli_free s c) t None.
Lemma gone_ok p s c t : Inv p s -> closed s c -> (forall x, In x (clis s) -> c_id x = c -> c_ts x = t) -> (tab s t = Some c \/ tab s t = None \/ p = false) ->
  Inv p (gone s c t) /\ Fr s (gone s c t) /\ Sh (set_tab s t None) (gone s c t) /\ ~ In c (map c_id (clis (gone s c t))) /\
  (forall x, In x (clis (gone s c t)) <-> In x (clis s) /\ c_id x <> c) /\ b_ka (tss (gone s c t) t) = b_ka (tss s t) /\ lks (gone s c t) = lks s.
Proof.
  intros [w t0] CL TS TB. unfold gone, cli_free. destruct (find_cli s c) as [x|] eqn:FC.
  - apply find_cli_some in FC as [I <-].
    assert (NK : forall k, kas s k <> Some (c_id x)).
    { intros k E. destruct (w_kas s w k _ E) as (_ & y & J & Ey & O & _). rewrite (CL y J Ey) in O. discriminate. }
    fold (rm c_id (c_id x) (clis s)). set (s' := set_tab _ t None).
    assert (CI : forall y, In y (clis s') <-> In y (clis s) /\ c_id y <> c_id x) by (intros y; subst s'; bsg; apply in_rm).
    assert (KE : forall k, kas s' k = kas s k).
    { intros k. subst s'; bsg. destruct (kas s k) as [c'|] eqn:E; [|easy]. destruct (Nat.eqb_spec c' (c_id x)) as [->|]; [now apply NK in E|easy]. }
    assert (PN : forall c, c <> c_id x -> phase c 0 (out s') = phase c 0 (out s)).
    { intros c N. subst s'; bsg. rewrite phase_app. destruct (phase c 0 (out s)); [|easy]. cbn [phase advance]. destruct (Nat.eqb_spec (c_id x) c); [congruence|easy]. }
    assert (NI : ~ In (c_id x) (map c_id (clis s'))). { intros J. apply in_map_iff in J as (y & E & J). apply CI in J. easy. }
    split; [|split; [|split; [|split; [exact NI|split; [exact CI|easy]]]]].
    + split.
      * destruct w. constructor.
        -- subst s'; bsg. now apply nodup_rm.
        -- intros y J. apply CI in J as [J _]. exact (w_lt0 y J).
        -- intros i c E. subst s'; bs. unfold upd in E. destruct (Nat.eqb_spec i t) as [|Ni]; [discriminate|].
           destruct (w_tab0 i c E) as (y & J & E1 & E2). exists y. split; [|easy]. apply in_rm. split; [easy|]. intros Q. apply Ni. rewrite <- E2. now apply TS.
        -- intros i k E. destruct (w_ka0 i k E) as (y & Ky & J & E2). exists y. rewrite KE. split; [easy|]. split; [|easy]. apply CI. split; [easy|]. intros Q. rewrite Q in Ky. now apply NK in Ky.
        -- intros k c E. rewrite KE in E. destruct (w_kas0 k c E) as (L & y & J & E1 & Oy & B). split; [easy|]. exists y. split; [|easy]. apply CI. split; [easy|].
           intros Q. apply (NK k). congruence.
        -- intros y J. apply CI in J as [J _]. exact (w_cli0 y J).
        -- exact w_lk0.
        -- exact w_lnd0.
        -- exact w_q0.
        -- intros y J. apply CI in J as [J N]. rewrite PN by easy. auto.
        -- intros c N. destruct (Nat.eq_dec c (c_id x)) as [->|Nc].
           ++ right. subst s'; bsg. rewrite phase_app, (w_in0 x I), (CL x I eq_refl). cbn [phase advance]. now rewrite Nat.eqb_refl.
           ++ rewrite PN by easy. apply w_out0. intros J. apply N. apply in_map_iff in J as (y & E & J). rewrite <- E in *. apply in_map. apply CI. easy.
        -- intros c L. rewrite PN; [apply w_new0; exact L|]. pose proof (w_lt0 x I). intros ->. change (nxt s') with (nxt s) in L. lia.
        -- apply (named_le (clis s) (out s) (clis s') [BFree (c_id x)]); [exact w_nm0|now apply silent_one|]. intros y J. apply CI in J as [J _]. eauto.
      * intros P y J. apply CI in J as [J N]. specialize (t0 P). subst s'; bsg. unfold upd. pose proof (t0 y J) as E. destruct (Nat.eqb_spec (c_ts y) t) as [Q|]; [|easy].
        rewrite Q in E. destruct TB as [B|[B|B]]; congruence.
    + split; [subst s'; bsg; lia|]. do 3 (split; [easy|]). split; [eexists; subst s'; bsg; reflexivity|]. intros y J _. apply CI in J as [J _]. eauto.
    + split; [|auto]. intros y J. apply CI in J as [J _]. exact (w_lt s w y J).
  - apply not_in_find in FC as NF. split; [split|split; [|split; [|split; [|split; [|easy]]]]].
    + destruct w. constructor; bsg; auto. intros i c' E. unfold upd in E. destruct (Nat.eqb i t); [discriminate|auto].
    + intros P y J. bsg. unfold upd. pose proof (t0 P y J) as E. destruct (Nat.eqb_spec (c_ts y) t) as [Q|]; [|easy]. rewrite Q in E. exfalso.
      destruct TB as [B|[B|B]]; [|congruence|congruence]. apply NF. rewrite B in E. injection E as E. rewrite E. now apply in_map.
    + split; [bsg; lia|]. do 3 (split; [easy|]). split; [exists []; bsg; now rewrite app_nil_r|]. eauto.
    + split; [|auto]. apply w.
    + exact NF.
    + intros x. bsg. split; [|easy]. intros J. split; [easy|]. intros <-. apply NF. now apply in_map.
Qed.
Lemma good_weaken p q s r : good p p s r -> (q = true -> p = true) -> good p q s r.
Proof. unfold good. destruct r; [|easy]. intros (? & ? & ?) Q. split; [easy|]. split; auto. Qed.
Lemma tab_none_ka s t : Inv true s -> tab s t = None -> b_ka (tss s t) = None.
Proof.
  intros [w t0] E. destruct (b_ka (tss s t)) as [k|] eqn:K; [|easy]. destruct (w_ka s w t k K) as (x & _ & I & Et). pose proof (t0 eq_refl x I). congruence.
Qed.
Lemma destroy_ok p f s x : cb p f -> Inv p s -> In x (clis s) -> tab s (c_ts x) = Some (c_id x) ->
  match cli_destroy f s (c_id x) with
  | Ok s1 => Inv p (set_tab s1 (c_ts x) None) /\ Fr s (set_tab s1 (c_ts x) None) /\ ~ In (c_id x) (map c_id (clis s1)) /\
     (p = true -> (forall y, In y (clis s1) -> (c_id y < nxt s)%nat) /\ (forall i, tab s1 i = tab s i \/ tab s1 i = None) /\ tab s1 0 = tab s 0)
  | Bad r => fine p r
  end.
Proof.
  intros C G I TB. unfold cli_destroy. destruct (close_ok p f s x C G I) as [G1 CL]. destruct (cli_close f s (c_id x)) as [s1|r]; [|exact G1].
  destruct G1 as (G1 & F1 & S1). specialize (CL s1 eq_refl).
  assert (TS : forall y, In y (clis s1) -> c_id y = c_id x -> c_ts y = c_ts x).
  { intros y J E. destruct F1 as (_ & _ & _ & _ & _ & F1). destruct (F1 y J) as (z & Jz & E1 & E2 & _); [rewrite E; apply (w_lt s (inv_w p s G)); easy|].
    rewrite <- E2. f_equal. apply (id_inj c_id (clis s)); [apply (inv_w p s G)|easy|easy|congruence]. }
  assert (TB1 : tab s1 (c_ts x) = Some (c_id x) \/ tab s1 (c_ts x) = None \/ p = false).
  { destruct p; [|auto]. destruct (S1 eq_refl) as (_ & T1 & _). destruct (T1 (c_ts x)) as [-> | ->]; auto. }
  destruct (gone_ok p s1 (c_id x) (c_ts x) G1 CL TS TB1) as (G2 & F2 & S2 & N2 & CI & _). fold (gone s1 (c_id x) (c_ts x)).
  split; [exact G2|]. split; [eapply fr_trans; eauto|]. split; [exact N2|]. intros P. destruct (S1 P) as (A & B & Z).
  assert (TT : tab (cli_free s1 (c_id x)) = tab s1) by (unfold cli_free; destruct (find_cli s1 (c_id x)); reflexivity). rewrite TT.
  split; [|split; [exact B|exact Z]]. intros y J. destruct (proj1 (CI y) J) as [J1 _]. now apply A.
Qed.
Lemma rsl_drop_ok p f s t : cb p f -> Inv p s -> t <> 0%nat -> good p p s (rsl_drop f s t) /\
  (forall s', rsl_drop f s t = Ok s' -> tab s' t = None).
Proof.
  intros C G N0. unfold rsl_drop. destruct (il s) eqn:IL; cbn [negb].
  2:{ split; [apply good_ok; eauto|]. intros s' E. injection E as <-. destruct (tab s t) as [c|] eqn:E; [|easy]. destruct (w_tab s (inv_w p s G) t c E) as (x & I & _).
      destruct (w_cli s (inv_w p s G) x I) as (_ & _ & Q). congruence. }
  destruct (cleanup_ok p s t G) as (s1 & -> & G1 & F1 & S1 & C1 & T1 & K1 & L1 & _). set (s2 := set_ts s1 t _).
  assert (G2 : Inv p s2) by (apply inv_set_ts; auto). assert (F2 : Fr s s2) by (eapply fr_trans; [exact F1|apply fr_set_ts]).
  assert (S2 : Sh s s2) by (eapply sh_trans; [exact F1|exact S1|apply fr_set_ts|apply sh_set_ts; eauto]).
  destruct (tab s2 t) as [c|] eqn:TB.
  2:{ split; [apply good_ok; auto|]. intros s' E. injection E as <-. exact TB. }
  destruct (w_tab s2 (inv_w p s2 G2) t c TB) as (x & I & <- & <-).
  pose proof (destroy_ok p f s2 x C G2 I TB) as D. destruct (cli_destroy f s2 (c_id x)) as [s3|r]; [|split; [exact D|discriminate]].
  destruct D as (G3 & F3 & _ & D3). split.
  - split; [exact G3|]. split; [eapply fr_trans; eauto|]. intros P. destruct (D3 P) as (A & B & Z). eapply sh_trans; [exact F2|exact S2|exact F3|].
    split; [exact A|]. split; [|bsg; unfold upd; destruct (Nat.eqb_spec 0 (c_ts x)); [congruence|exact Z]]. intros i. bsg. unfold upd. destruct (Nat.eqb i (c_ts x)); auto.
  - intros s' E. injection E as <-. bsg. unfold upd. now rewrite Nat.eqb_refl.
Qed.
(** a new client *)
Lemma start_ok p s t addr port ok : Inv p s -> (t < 32)%nat -> b_sign (tss s t) = true -> il s = true -> tab s t = None ->
  good p false s (cli_start s t addr port ok) /\
  (p = true -> exists s', cli_start s t addr port ok = Ok s' /\
     if ok then out s' = out s ++ [BConnect (nxt s) t addr port; BRet 0] /\ clis s' = clis s ++ [mkCli (nxt s) t true] /\ tab s' t = Some (nxt s) /\ lks s' = lks s /\ (kap s = true -> exists k, b_ka (tss s' t) = Some k /\ kas s' k = Some (nxt s))
     else out s' = out s ++ [BRet (-5)] /\ clis s' = clis s /\ tab s' t = None /\ lks s' = lks s).
Proof.
  intros [w t0] L SG IL TN. unfold cli_start. destruct ok.
  2:{ split; [apply good_ok; [apply inv_emit; [easy|split; easy]|auto|easy]|]. intros _. eexists. split; [reflexivity|easy]. }
  set (s1 := set_ts _ t _).
  assert (NI : ~ In (nxt s) (map c_id (clis s))). { intros J. apply in_map_iff in J as (x & E & J). pose proof (w_lt s w x J). lia. }
  assert (PN : forall c, c <> nxt s -> phase c 0 (out s1) = phase c 0 (out s)).
  { intros c N. subst s1; bsg. rewrite phase_app. destruct (phase c 0 (out s)); [|easy]. cbn [phase advance]. destruct (Nat.eqb_spec (nxt s) c); [congruence|easy]. }
  assert (PS : phase (nxt s) 0 (out s1) = Some 1%nat).
  { subst s1; bsg. rewrite phase_app, (w_new s w (nxt s)) by lia. cbn [phase advance]. now rewrite Nat.eqb_refl. }
  assert (CI : forall x, In x (clis s1) <-> In x (clis s) \/ x = mkCli (nxt s) t true).
  { intros x. subst s1; bsg. rewrite in_app_iff. cbn [In]. intuition congruence. }
  assert (KA : forall i, b_ka (tss s1 i) = b_ka (tss s i)). { intros i. subst s1; bsg. unfold upd. now destruct (Nat.eqb_spec i t) as [->|]. }
  assert (SI : forall i, b_sign (tss s1 i) = b_sign (tss s i)). { intros i. subst s1; bsg. unfold upd. now destruct (Nat.eqb_spec i t) as [->|]. }
  assert (W1 : W s1).
  { destruct w. constructor.
    - subst s1; bsg. rewrite map_app. now apply nodup_snoc.
    - intros x J. apply CI in J as [J| ->]; [pose proof (w_lt0 x J)|]; subst s1; bsg; lia.
    - intros i c E. destruct (w_tab0 i c E) as (x & J & ?). exists x. split; [apply CI; auto|easy].
    - intros i k E. rewrite KA in E. destruct (w_ka0 i k E) as (x & K & J & ?). exists x. split; [easy|]. split; [apply CI; auto|easy].
    - intros k c E. destruct (w_kas0 k c E) as (KL & x & J & ? & ? & B). split; [subst s1; bsg; lia|]. exists x. split; [apply CI; auto|]. rewrite KA. easy.
    - intros x J. rewrite SI. apply CI in J as [J| ->]; [exact (w_cli0 x J)|]. easy.
    - intros k J. rewrite SI. destruct (w_lk0 k J) as (? & ? & ? & ?). repeat split; auto. subst s1; bsg. lia.
    - exact w_lnd0.
    - exact w_q0.
    - intros x J. apply CI in J as [J| ->]; [|exact PS]. rewrite PN; [auto|]. pose proof (w_lt0 x J). lia.
    - intros c N. rewrite PN.
      + apply w_out0. intros J. apply N. apply in_map_iff in J as (x & <- & J). apply in_map. apply CI. auto.
      + intros ->. apply N. apply in_map_iff. exists (mkCli (nxt s) t true). split; [easy|]. apply CI. auto.
    - intros c LC. assert (S (nxt s) <= c)%nat by (subst s1; bs; lia). rewrite PN by lia. apply w_new0. lia.
    - change (out s1) with (out s ++ [BConnect (nxt s) t addr port]). split.
      + intros x J. apply CI in J as [J| ->]; [apply told_app; now apply w_nm0|]. exists addr, port. apply in_app_iff. right. now left.
      + intros c m J. apply in_app_iff in J as [J|[J|[]]]; [|discriminate]. destruct (proj2 w_nm0 c m J) as (u & ? & ?). exists u. split; [now apply told_app|easy]. }
  assert (F1 : Fr s s1).
  { split; [subst s1; bsg; lia|]. do 3 (split; [easy|]). split; [eexists; subst s1; bsg; reflexivity|]. intros x J LX. apply CI in J as [J| ->]; [eauto|]. bs. lia. }
  unfold ka_alloc. destruct (b_ka (tss s1 t)) as [k|] eqn:K1.
  { split.
    - split; [easy|]. split; [easy|]. intros P. split; [easy|]. intros t' _. rewrite KA in K1. subst p. rewrite (tab_none_ka s t) in K1; easy.
    - intros P. rewrite KA in K1. subst p. rewrite (tab_none_ka s t) in K1; easy. }
  assert (T2 : forall s2, tab s2 = tab s1 -> clis s2 = clis s1 -> p = true -> T (set_tab s2 t (Some (nxt s)))).
  { intros s2 E1 E2 P x J. bs. rewrite E2 in J. rewrite E1. unfold upd. apply CI in J as [J| ->]; [|bsg; now rewrite Nat.eqb_refl].
    pose proof (t0 P x J) as E. destruct (Nat.eqb_spec (c_ts x) t) as [Q|]; [|exact E]. congruence. }
  assert (W2 : forall s2, W s2 -> tab s2 = tab s1 -> clis s2 = clis s1 -> W (set_tab s2 t (Some (nxt s)))).
  { intros s2 w2 E1 E2. destruct w2. constructor; bsg; auto. intros i c. unfold upd. destruct (Nat.eqb_spec i t) as [->|]; [|auto]. intros E. injection E as <-.
    exists (mkCli (nxt s) t true). split; [rewrite E2; apply CI; auto|easy]. }
  change (kap s1) with (kap s). destruct (kap s) eqn:KP.
  - set (s2 := fresh _).
    assert (W3 : W s2).
    { pose proof W1 as w1. destruct w1. constructor; subst s2; bsg; auto.
      - intros x J. pose proof (w_lt0 x J). lia.
      - intros i k. unfold upd. destruct (Nat.eqb_spec i t) as [->|N].
        + intros E. injection E as <-. exists (mkCli (nxt s) t true). rewrite Nat.eqb_refl. split; [easy|]. split; [apply CI; auto|easy].
        + intros E. destruct (w_ka0 i k E) as (x & K & J & Ex). exists x. destruct (Nat.eqb_spec k (nxt s1)) as [->|]; [|easy]. apply w_kas0 in K as [KL _]. lia.
      - intros k c. unfold upd. destruct (Nat.eqb_spec k (nxt s1)) as [->|N].
        + intros E. injection E as <-. split; [lia|]. exists (mkCli (nxt s) t true). split; [apply CI; auto|]. bsg. now rewrite Nat.eqb_refl.
        + intros E. destruct (w_kas0 k c E) as (KL & x & J & Ex & Ox & B). split; [lia|]. exists x. do 3 (split; [easy|]). destruct (Nat.eqb_spec (c_ts x) t) as [Q|]; [|easy]. congruence.
      - intros x J. destruct (w_cli0 x J) as (? & ? & ?). split; [easy|]. split; [|easy]. unfold upd. now destruct (Nat.eqb_spec (c_ts x) t) as [<-|].
      - intros k J. destruct (w_lk0 k J) as (? & ? & ? & ?). split; [easy|]. split; [easy|]. split; [|lia]. unfold upd. now destruct (Nat.eqb_spec (l_ts k) t) as [<-|].
      - intros c LC. apply w_new0. lia. }
    split.
    + apply good_ok; [apply inv_emit; [easy|]; split; [apply W2; try easy|intros P; apply T2; easy]| |easy].
      destruct F1 as (N & A & B & D & (es & O) & F). split; [subst s2; bsg; bs; lia|]. do 3 (split; [easy|]). split; [exists (es ++ [BRet 0]); bsg; change (out s2) with (out s1); rewrite O; now rewrite app_assoc|]. exact F.
    + intros _. eexists. split; [reflexivity|]. bsg. change (out s2) with (out s ++ [BConnect (nxt s) t addr port]). rewrite <- app_assoc. split; [easy|]. split; [easy|].
      unfold upd at 1. rewrite Nat.eqb_refl. split; [easy|]. split; [easy|]. intros _. exists (nxt s1). subst s2; bsg. unfold upd. now rewrite !Nat.eqb_refl.
  - split.
    + apply good_ok; [apply inv_emit; [easy|]; split; [apply W2; try easy|intros P; apply T2; easy]| |easy].
      destruct F1 as (N & A & B & D & (es & O) & F). split; [bsg; bs; lia|]. do 3 (split; [easy|]). split; [exists (es ++ [BRet 0]); bsg; rewrite O; now rewrite app_assoc|]. exact F.
    + intros _. eexists. split; [reflexivity|]. bsg. change (out s1) with (out s ++ [BConnect (nxt s) t addr port]). rewrite <- app_assoc. split; [easy|]. split; [easy|].
      unfold upd at 1. rewrite Nat.eqb_refl. easy.
Qed.
Lemma in_range_spec trx : in_range trx = true <-> (trx < 31)%nat.
Proof. unfold in_range, RSL, NUM_E1_TS. rewrite negb_true_iff. rewrite Z.geb_leb, Z.leb_gt. lia. Qed.
Lemma close_n_ok p f s trx : cb p f -> Inv p s -> good p p s (rsl_close_n f s trx).
Proof.
  intros C G. unfold rsl_close_n. destruct (in_range trx).
  - destruct (rsl_drop_ok p f s (1 + trx) C G) as [D _]; [lia|]. destruct (rsl_drop f s (1 + trx)) as [s1|r]; [|exact D].
    destruct D as (G1 & F1 & S1). eapply good_bind; [exact G1|exact F1|exact S1|]. apply good_ok; [now apply inv_emit|auto|intros _; apply sh_emit; eauto].
  - apply good_ok; [now apply inv_emit|auto|intros _; apply sh_emit; eauto].
Qed.
Lemma config_ok p s t : Inv p s -> Inv p (config_sign s t) /\ Fr s (config_sign s t) /\ Sh s (config_sign s t) /\ b_sign (tss (config_sign s t) t) = true /\ tab (config_sign s t) = tab s.
Proof.
  intros G. unfold config_sign. split; [apply inv_set_ts; auto|]. split; [auto|]. split; [apply sh_set_ts; eauto|]. split; [|easy]. bsg. unfold upd. now rewrite Nat.eqb_refl.
Qed.
Lemma connect_ok p f s trx a q ok : cb p f -> Inv p s -> good p false s (rsl_connect_n f s trx a q ok).
Proof.
  intros C G. unfold rsl_connect_n. destruct (in_range trx) eqn:R.
  - apply in_range_spec in R. unfold rsl_ts. destruct (Nat.ltb_spec (1 + trx) NUM_E1_TS) as [L|L]; [|unfold NUM_E1_TS in L; lia].
    destruct (rsl_drop_ok p f s (1 + trx) C G) as [D TN]; [lia|]. destruct (rsl_drop f s (1 + trx)) as [s1|r]; [|exact D].
    destruct D as (G1 & F1 & S1). eapply good_bind; [exact G1|exact F1|easy|]. destruct (config_ok p s1 (1 + trx) G1) as (G2 & F2 & _ & SG & TB).
    eapply good_bind; [exact G2|exact F2|easy|]. eapply good_bind; [apply inv_il, G2|auto|easy|].
    apply start_ok; [apply inv_il, G2|unfold NUM_E1_TS in L; lia|exact SG|easy|]. change (tab (config_sign s1 (1 + trx)) (1 + trx) = None). rewrite TB. auto.
  - unfold rsl_ts. destruct (Nat.ltb (1 + trx) NUM_E1_TS); [apply good_ok; [now apply inv_emit|auto|easy]|].
    destruct (logs s); [easy|]. apply good_ok; [now apply inv_emit|auto|easy].
Qed.
Lemma update_ok p f s a ok : cb p f -> Inv p s -> good p false s (line_update f s a ok).
Proof.
  intros C G. unfold line_update. eapply good_bind; [apply inv_il, G|auto|easy|]. assert (IL : il (set_il s) = true) by reflexivity.
  pose proof (inv_il p s G) as G0. set (s0 := set_il s) in *. clearbody s0. clear G s.
  assert (K : forall s1, Inv p s1 -> tab s1 oml_ts = None -> il s1 = true -> good p false s1 (cli_start (config_sign s1 oml_ts) oml_ts a IPA_TCP_PORT_OML ok)).
  { intros s1 G1 T1 I1. destruct (config_ok p s1 oml_ts G1) as (G2 & F2 & _ & SG & TB). eapply good_bind; [exact G2|exact F2|easy|].
    apply start_ok; [exact G2|unfold oml_ts; lia|exact SG|exact I1|congruence]. }
  destruct (tab s0 oml_ts) as [c|] eqn:T0; [|now apply K].
  destruct (w_tab s0 (inv_w p s0 G0) _ _ T0) as (x & I & <- & Ex).
  destruct (close_ok p f s0 x C G0 I) as [G1 CL]. destruct (cli_close f s0 (c_id x)) as [s1|r]; [|exact G1]. destruct G1 as (G1 & F1 & S1).
  destruct (cleanup_ok p s1 oml_ts G1) as (s2 & -> & G2 & F2 & S2 & C2 & T2 & K2 & L2 & _). set (s3 := set_ts s2 oml_ts _).
  assert (G3 : Inv p s3) by (apply inv_set_ts; auto).
  assert (F3 : Fr s0 s3) by (eapply fr_trans; [exact F1|eapply fr_trans; [exact F2|apply fr_set_ts]]).
  destruct (tab s3 oml_ts) as [c|] eqn:T3.
  2:{ unfold good. split; [easy|]. split; [easy|]. intros P. exfalso. destruct (S1 P) as (_ & _ & Z). assert (tab s3 oml_ts = tab s1 0) as Q by (subst s3; bsg; now rewrite T2). 
      rewrite Z in Q. change 0%nat with oml_ts in Q. congruence. }
  destruct (w_tab s3 (inv_w p s3 G3) _ _ T3) as (y & J & <- & Ey). rewrite <- Ey in T3.
  pose proof (destroy_ok p f s3 y C G3 J T3) as D. destruct (cli_destroy f s3 (c_id y)) as [s4|r]; [|exact D]. rewrite Ey in D. destruct D as (G4 & F4 & _).
  eapply good_bind; [exact G4|eapply fr_trans; eauto|easy|].
  apply K; [exact G4|bsg; unfold upd; now rewrite Nat.eqb_refl|]. eapply (proj2 (proj1 (proj2 (proj2 (fr_trans _ _ _ F3 F4))))). exact IL.
Qed.
(** links *)
Lemma fr_lks s k : Fr s (set_lks s k).
Proof. split; [bsg; lia|]. do 3 (split; [easy|]). split; [exists []; bsg; now rewrite app_nil_r|]. eauto. Qed.
Lemma sh_lks s k : W s -> Sh s (set_lks s k).
Proof. intros w. split; [apply w|]. auto. Qed.
Lemma unlink_ok p s id : Inv p s -> Inv p (set_lks s (filter (fun x => negb (Nat.eqb (l_id x) id)) (lks s))).
Proof.
  intros [w t]. split; [|exact t]. fold (rm l_id id (lks s)). destruct w. constructor; bsg; auto.
  - intros k I. apply in_rm in I as [I _]. auto.
  - now apply nodup_rm.
  - intros k I. apply in_rm in I as [I _]. auto.
Qed.
Lemma ipaccess_close_ok p f s t : cb p f -> Inv p s -> good p p s (ipaccess_close f s t).
Proof.
  intros C G. unfold ipaccess_close.
  assert (exists s1, (match b_ka (tss s t) with Some k => match kas s k with Some _ => Ok (emit s (BKaStop k)) | None => Bad Freed end | None => Ok s end) = Ok s1 /\ Inv p s1 /\ Fr s s1 /\ Sh s s1) as (s1 & -> & G1 & F1 & S1).
  { destruct (b_ka (tss s t)) as [k|] eqn:K; [|exists s; eauto 6]. destruct (w_ka s (inv_w p s G) t k K) as (x & -> & _). eexists. split; [reflexivity|]. split; [now apply inv_emit|]. split; [auto|apply sh_emit; eauto]. }
  unfold stream_cli. destruct (tab s1 t) as [c|] eqn:TB; [|split; [easy|]; split; [easy|]; intros _; split; easy].
  destruct (w_tab s1 (inv_w p s1 G1) t c TB) as (x & I & <- & Ex). destruct (close_ok p f s1 x C G1 I) as [G2 _].
  destruct (cli_close f s1 (c_id x)) as [s2|r]; [|exact G2]. destruct G2 as (G2 & F2 & S2).
  eapply good_bind; [exact G1|exact F1|auto|]. eapply good_bind; [exact G2|exact F2|exact S2|]. apply good_ok; [apply inv_set_ts; auto|auto|intros _; apply sh_set_ts; eauto].
Qed.
Lemma link_destroy_ok p f s id : cb p f -> Inv p s -> good p p s (link_destroy f s id).
Proof.
  intros C G. unfold link_destroy. destruct (find_lk s id) as [k|]; [|apply good_ok; eauto].
  pose proof (unlink_ok p s id G) as G1. eapply good_bind; [exact G1|apply fr_lks|intros _; apply sh_lks; eauto|]. now apply ipaccess_close_ok.
Qed.
Lemma create_ok p s t ty tei sapi : Inv p s -> good p p s (Ok (link_create s t ty tei sapi)).
Proof.
  intros [w t0]. unfold link_create. destruct (Nat.ltb_spec t NUM_E1_TS) as [L|]; [|apply good_ok; [split; easy|auto|auto]].
  destruct (b_sign (tss s t)) eqn:SG; cbn [andb]; [|apply good_ok; [split; easy|auto|auto]]. unfold NUM_E1_TS in L. apply good_ok.
  - split; [|exact t0]. destruct w. constructor; bsg; auto.
    + intros x I. pose proof (w_lt0 x I). lia.
    + intros k c E. destruct (w_kas0 k c E) as (? & ?). split; [lia|easy].
    + intros k I. rewrite in_app_iff in I. destruct I as [I|[<-|[]]].
      * destruct (w_lk0 k I) as (? & ? & ? & ?). repeat split; auto. 
      * cbn [l_line l_ts l_id]. repeat split; auto.
    + rewrite map_app. apply nodup_snoc; [easy|]. intros J. apply in_map_iff in J as (k & E & J). destruct (w_lk0 k J) as (_ & _ & _ & B). cbn [l_id] in E. lia.
    + intros k I. rewrite in_app_iff in I. destruct I as [I|[<-|[]]]; [auto|easy].
    + intros c LC. apply w_new0. lia.
  - split; [bsg; lia|]. do 3 (split; [easy|]). split; [exists []; bsg; now rewrite app_nil_r|]. eauto.
  - intros _. split; [bsg; apply w|]. auto.
Qed.
Definition addm (m : list Z) (x : lk) : lk := mkL (l_id x) (l_line x) (l_ts x) (l_type x) (l_tei x) (l_sapi x) (l_tx x ++ [m]).
Lemma addm_nil t c ks m id : (forall k, In k ks -> l_tx k = []) -> ~ In id (map l_id ks) ->
  sent 0 t c (rep l_id id (addm m) ks) = [] /\ map (clr 0 t) (rep l_id id (addm m) ks) = ks.
Proof.
  intros Q N. rewrite rep_none by easy. unfold sent. split; induction ks as [|k r IH]; try easy; cbn [flat_map map].
  - rewrite (Q k) by now left. rewrite IH; [now destruct (here 0 t k)|intros; apply Q; now right|intros J; apply N; now right].
  - rewrite IH; [|intros; apply Q; now right|intros J; apply N; now right]. f_equal. unfold clr. destruct (here 0 t k); [|easy]. pose proof (Q k (or_introl eq_refl)). destruct k; cbn in *. now subst.
Qed.
Lemma addm_one t c ks m k : (forall k, In k ks -> l_tx k = []) -> NoDup (map l_id ks) -> In k ks -> l_line k = 0%nat -> l_ts k = t ->
  sent 0 t c (rep l_id (l_id k) (addm m) ks) = [send_msg k c m] /\ map (clr 0 t) (rep l_id (l_id k) (addm m) ks) = ks.
Proof.
  intros Q N I L E. induction ks as [|y r IH]; [easy|]. cbn [map] in N. apply NoDup_cons_iff in N as [N1 N2].
  assert (Qr : forall x, In x r -> l_tx x = []) by (intros; apply Q; now right). pose proof (Q y (or_introl eq_refl)) as Qy.
  unfold rep, sent in *. cbn [map flat_map]. destruct I as [->|I].
  - rewrite Nat.eqb_refl. assert (here 0 t (addm m k) = true) as H. { unfold here, addm. cbn [l_line l_ts]. rewrite L, E, !Nat.eqb_refl. easy. }
    destruct (addm_nil t c r m (l_id k) Qr N1) as [A B]. unfold rep, sent in A, B. rewrite A, B. unfold clr at 1. rewrite H. cbn [addm l_tx l_id l_line l_ts l_type l_tei l_sapi].
    rewrite Qy. cbn [app map]. split; [easy|]. f_equal. destruct k; cbn in *. now subst.
  - destruct (IH Qr N2 I) as [A B]. rewrite A, B. destruct (Nat.eqb_spec (l_id y) (l_id k)) as [X|X].
    + exfalso. apply N1. rewrite X. now apply in_map.
    + unfold clr at 1. rewrite Qy. cbn [map]. split; [now destruct (here 0 t y)|]. f_equal. destruct (here 0 t y); [|easy]. destruct y; cbn in *. now subst.
Qed.
(** what is handed over for one message *)
Definition handed (k : lk) (c : nat) (m : list Z) : beff :=
  if known_type (l_type k) then BSend (l_id k) c (ipa_header (l_tei k) (Z.of_nat (length m)) ++ m) else BDrop (l_id k) m.
Lemma send_is s id m k : W s -> find_lk s id = Some k ->
  link_send s id m = match tab s (l_ts k) with
                     | Some c => Ok (set_out s (out s ++ [BQueue id m; handed k c m]))
                     | None => Bad (NoClient (l_ts k)) end.
Proof.
  intros w F. pose proof F as F'. apply (find_id_some l_id) in F' as [I <-]. unfold link_send. rewrite F. unfold write_cb, stream_cli.
  change (tab (set_lks (emit s (BQueue (l_id k) m)) _)) with (tab s). destruct (tab s (l_ts k)) as [c|] eqn:TB; [|easy].
  destruct (w_tab s w _ _ TB) as (x & J & <- & Ex). change (find_cli (set_lks _ _) (c_id x)) with (find_cli s (c_id x)). rewrite (find_cli_in s x w J).
  destruct (w_lk s w k I) as (L0 & _ & SG & _). change (tss (set_lks _ _)) with (tss s). rewrite SG. cbn [negb].
  cbn zeta. bsg. match goal with |- context[write_loop (pending 0 ?t ?L) 0 ?t ?c ?S0] => rewrite (write_all 0 t c S0 : write_loop (pending 0 t L) 0 t c S0 = _) end. cbn [IpaccessModel.lks IpaccessModel.out].
  fold (addm m). change (map (fun x0 => if Nat.eqb (l_id x0) (l_id k) then mkL (l_id x0) (l_line x0) (l_ts x0) (l_type x0) (l_tei x0) (l_sapi x0) (l_tx x0 ++ [m]) else x0) (lks s)) with (rep l_id (l_id k) (addm m) (lks s)).
  destruct (addm_one (l_ts k) (c_id x) (lks s) m k (w_q s w) (w_lnd s w) I L0 eq_refl) as [-> ->].
  cbn [app flat_map]. rewrite <- app_assoc. unfold handed, send_msg, set_out. destruct (known_type (l_type k)); reflexivity.
Qed.
Lemma w_set_out_ph s es : W s -> named (clis s) (out s ++ es) -> (forall c q, phase c 0 (out s) = Some q -> phase c q es = Some q) -> W (set_out s (out s ++ es)).
Proof.
  intros w NM E. apply w_set_out; [easy| |easy]. intros c. rewrite phase_app. destruct (phase c 0 (out s)) as [q|] eqn:P; [|easy]. auto.
Qed.
Lemma send_ok p s id m : Inv p s -> good p p s (link_send s id m).
Proof.
  intros G. destruct (find_lk s id) as [k|] eqn:F; [|unfold link_send; rewrite F; apply good_ok; eauto].
  rewrite (send_is s id m k (inv_w p s G) F). destruct (tab s (l_ts k)) as [c|] eqn:TB; [|split; [easy|]; split; [easy|]; intros _; split; easy].
  destruct G as [w t0]. destruct (w_tab s w _ _ TB) as (x & J & <- & Ex). apply good_ok.
  - split; [|exact t0]. apply w_set_out_ph; [easy| |].
    { eapply named_le; [exact (w_nm s w)| |eauto]. intros c m' [Q|[Q|[]]]; [discriminate|]. unfold handed in Q. destruct (known_type (l_type k)); discriminate. }
    intros c q P. cbn [phase advance]. unfold handed. destruct (known_type (l_type k)); [|easy]. cbn [advance].
    destruct (Nat.eqb_spec (c_id x) c) as [<-|]; [|easy]. rewrite (w_in s w x J) in P. injection P as <-. now destruct (c_open x).
  - split; [unfold set_out; bsg; lia|]. do 3 (split; [easy|]). split; [eexists; reflexivity|]. eauto.
  - intros _. split; [apply w|]. unfold set_out; bsg. auto.
Qed.
(** ** Commands *)
Fixpoint usize (c : ucmd) : nat :=
  match c with
  | UDestroy _ d | UConnect _ _ _ _ d | UClose _ d | UUpdate _ _ d => S (list_sum (map usize d))
  | _ => 1
  end.
Definition allowed (p q : bool) (c : ucmd) : Prop := p = true -> orderly c = true /\ (q = true -> calm c = true).
Lemma exec_ok_n : forall n c p q, (usize c <= n)%nat -> allowed p q c -> (q = true -> p = true) -> forall s, Inv p s -> good p q s (exec c s).
Proof.
  induction n as [|n IH]; intros c p q LE A QP s G; [destruct c; cbn in LE; lia|].
  assert (CB : forall d, (list_sum (map usize d) <= n)%nat -> (p = true -> forallb calm d = true) -> cb p (execs d)).
  { induction d as [|c' d IHd]; intros L K s' G'; [cbn [execs]; apply good_ok; eauto|]. cbn [execs]. cbn [map list_sum] in L. unfold list_sum in L. cbn [fold_right] in L. fold (list_sum (map usize d)) in L.
    assert (G1 : good p p s' (exec c' s')).
    { apply IH; auto; [lia|]. intros P. specialize (K P). cbn [forallb] in K. apply andb_true_iff in K as [K _]. split; [|easy]. destruct c'; easy. }
    destruct (exec c' s') as [s1|r]; [|exact G1]. destruct G1 as (G1 & F1 & S1). eapply good_bind; [exact G1|exact F1|exact S1|]. apply IHd; auto; [lia|].
    intros P. specialize (K P). cbn [forallb] in K. now apply andb_true_iff in K as [_ K]. }
  destruct c as [t|t ty tei sapi|k m|k d|trx a pt ok d|trx d|a ok d]; cbn [exec]; cbn [usize] in LE.
  - destruct (Nat.ltb t NUM_E1_TS); [|apply good_ok; eauto]. destruct (config_ok p s t G) as (? & ? & ? & _). now apply good_ok.
  - eapply good_weaken; [now apply create_ok|easy].
  - eapply good_weaken; [now apply send_ok|easy].
  - eapply good_weaken; [|exact QP]. apply link_destroy_ok; [|easy]. apply CB; [lia|]. intros P. exact (proj1 (A P)).
  - destruct q; [|apply connect_ok; [|easy]; apply CB; [lia|]; intros P; exact (proj1 (A P))]. destruct (A (QP eq_refl)) as [_ B]. discriminate (B eq_refl).
  - eapply good_weaken; [|exact QP]. apply close_n_ok; [|easy]. apply CB; [lia|]. intros P. exact (proj1 (A P)).
  - destruct q; [|apply update_ok; [|easy]; apply CB; [lia|]; intros P; exact (proj1 (A P))]. destruct (A (QP eq_refl)) as [_ B]. discriminate (B eq_refl).
Qed.
Lemma calm_orderly c : calm c = true -> orderly c = true.
Proof. destruct c; easy. Qed.
Lemma exec_ok p c s : (p = true -> orderly c = true) -> Inv p s -> good p false s (exec c s).
Proof. intros A G. apply (exec_ok_n (usize c)); [lia| |easy|easy]. intros P. split; [auto|easy]. Qed.
Lemma execs_down p d : (p = true -> forallb calm d = true) -> cb p (execs d).
Proof.
  induction d as [|c d IH]; intros K s G; cbn [execs]; [apply good_ok; eauto|].
  assert (G1 : good p p s (exec c s)).
  { apply (exec_ok_n (usize c)); auto. intros P. specialize (K P). cbn [forallb] in K. apply andb_true_iff in K as [K _]. split; [now apply calm_orderly|easy]. }
  destruct (exec c s) as [s1|r]; [|exact G1]. destruct G1 as (G1 & F1 & S1). eapply good_bind; [exact G1|exact F1|exact S1|]. apply IH; [|easy].
  intros P. specialize (K P). cbn [forallb] in K. now apply andb_true_iff in K as [_ K].
Qed.
Lemma execs_ok p d : (p = true -> forallb orderly d = true) -> forall s, Inv p s -> good p false s (execs d s).
Proof.
  induction d as [|c d IH]; intros K s G; cbn [execs]; [apply good_ok; eauto|].
  assert (G1 : good p false s (exec c s)).
  { apply exec_ok; [|easy]. intros P. specialize (K P). cbn [forallb] in K. now apply andb_true_iff in K as [K _]. }
  destruct (exec c s) as [s1|r]; [|exact G1]. destruct G1 as (G1 & F1 & S1). eapply good_bind; [exact G1|exact F1|exact S1|]. apply IH; [|easy].
  intros P. specialize (K P). cbn [forallb] in K. now apply andb_true_iff in K as [_ K].
Qed.
(** ** Events *)
Lemma close_running_ok p f s c : cb p f -> Inv p s -> good p p s (close_running f s c).
Proof.
  intros C G. unfold close_running. destruct (find_cli s c) as [x|] eqn:F; [|apply good_ok; eauto]. apply find_cli_some in F as [I <-]. now apply close_ok.
Qed.
Lemma ccm_ok p e s x d : Inv p s -> In x (clis s) -> c_open x = true ->
  match handle_ccm e s x d with Ok (s', _) => Inv p s' /\ Fr s s' /\ Sh s s' | Bad r => d = [] /\ r = EmptyCcm end.
Proof.
  intros G I O. unfold handle_ccm. destruct d as [|mt d]; [easy|].
  assert (exists s1, (match b_ka (tss s (c_ts x)) with
             | Some k => if mt =? MSGT_PONG then match kas s k with Some _ => Ok (emit s (BKaPong k)) | None => Bad Freed end else Ok s
             | None => Ok s end) = Ok s1 /\ Inv p s1 /\ Fr s s1 /\ Sh s s1 /\ clis s1 = clis s) as (s1 & -> & G1 & F1 & S1 & C1).
  { assert (Inv p s /\ Fr s s /\ Sh s s /\ clis s = clis s) by eauto 6. destruct (b_ka (tss s (c_ts x))) as [k|] eqn:K; [|eauto]. destruct (mt =? MSGT_PONG); [|eauto].
    destruct (w_ka s (inv_w p s G) _ k K) as (y & -> & _). eexists. split; [reflexivity|]. split; [now apply inv_emit|]. split; [auto|]. split; [apply sh_emit; eauto|easy]. }
  destruct (negb (e_base e)); [easy|]. destruct (mt =? MSGT_ID_GET); [|easy].
  assert (E : set_unit (set_unit s1 (ts_trx_nr (ts_num (c_ts x)))) (unit_trx s1) = s1) by now destruct s1. rewrite E. destruct (e_id e); [|easy]. bsg.
  set (trx := ts_trx_nr (ts_num (c_ts x))). assert (emit (emit s1 (BIdResp (c_id x) trx)) (BIdAck (c_id x)) = set_out s1 (out s1 ++ [BIdResp (c_id x) trx; BIdAck (c_id x)])) as ->
    by (unfold emit, set_out; bsg; now rewrite <- app_assoc).
  destruct G1 as [w1 t1]. split; [split; [|exact t1]|].
  - apply w_set_out_ph; [easy| |].
    { destruct (w_nm s1 w1) as [A B]. split.
      - intros y J. apply told_app. auto.
      - intros c m J. apply in_app_iff in J as [J|[J|[J|[]]]]; [|injection J as <- <-|discriminate].
        + destruct (B c m J) as (u & ? & ?). exists u. split; [now apply told_app|easy].
        + exists (c_ts x). split; [apply told_app, A; now rewrite C1|]. subst trx. unfold ts_trx_nr, ts_sign_type, ts_num, trx_of. destruct (c_ts x) as [|n]; [easy|].
          destruct (Z.eqb_spec (Z.of_nat (S n) + 1) 1); [lia|]. change (RSL =? OML) with false. cbv beta match. lia. }
    intros c q P. cbn [phase advance]. destruct (Nat.eqb_spec (c_id x) c) as [<-|]; [|easy].
    rewrite (w_in s1 w1 x) in P by now rewrite C1. rewrite O in P. injection P as <-. easy.
  - destruct F1 as (N & A & B & D & (es & OE) & F). split.
    + split; [exact N|]. do 3 (split; [easy|]). split; [|exact F]. eexists. unfold set_out; bsg. rewrite OE, <- app_assoc. reflexivity.
    + exact S1.
Qed.
Ltac gk := apply good_ok; [assumption|auto|easy].
Lemma step_ok p s v : (p = true -> orderly_ev v = true) -> Inv p s -> good p false s (step s v).
Proof.
  intros A G. destruct v as [c|c|c d|e c m|k d]; cbn [step orderly_ev] in *.
  - now apply exec_ok.
  - unfold if_open. destruct (find_cli s c) as [x|] eqn:F; [|gk]. destruct (c_open x); [|gk]. unfold connect_cb.
    destruct (b_ka (tss s (c_ts x))) as [k|] eqn:K; [|gk]. destruct (kap s); [|gk].
    destruct (w_ka s (inv_w p s G) _ k K) as (y & -> & _). apply good_ok; [now apply inv_emit|auto|easy].
  - unfold if_open. destruct (find_cli s c) as [x|] eqn:F; [|gk]. destruct (c_open x); [|gk].
    apply find_cli_some in F as [I <-]. eapply good_weaken; [apply close_ok; auto; now apply execs_down|easy].
  - unfold if_open. destruct (find_cli s c) as [x|] eqn:F; [|gk]. destruct (c_open x) eqn:O; [|gk].
    apply find_cli_some in F as [I <-].
    assert (ER : forall s1, Inv p s1 -> Fr s s1 -> good p false s (close_running (execs (e_down e)) s1 (c_id x))).
    { intros s1 G1 F1. eapply good_bind; [exact G1|exact F1|easy|]. eapply good_weaken; [apply close_running_ok; [|easy]|easy]. apply execs_down.
      intros P. specialize (A P). apply andb_true_iff in A as [_ A]. exact A. }
    unfold read_cb. destruct m as [[proto d]|]; [|now apply ER]. destruct (proto =? PROTO_IPACCESS).
    + pose proof (ccm_ok p e s x d G I O) as H. destruct (handle_ccm e s x d) as [[s1 ok]|r].
      * destruct H as (G1 & F1 & S1). destruct ok; cbn [negb]; [|now apply ER]. destruct (hd 0 d =? MSGT_ID_GET); [|now apply good_ok].
        pose proof (inv_emit p s1 (BUp (ts_sign_type (ts_num (c_ts x)) + ts_trx_nr (ts_num (c_ts x)))) eq_refl G1) as G2.
        assert (U : p = true -> forallb orderly (e_up e) = true). { intros P. specialize (A P). now apply andb_true_iff in A as [A _]; apply andb_true_iff in A as [A _]. }
        pose proof (execs_ok p (e_up e) U _ G2) as G3. destruct (execs (e_up e) _) as [s3|r]; [|exact G3]. destruct G3 as (G3 & F3 & _).
        assert (F : Fr s s3) by (eapply fr_trans; [exact F1|eapply fr_trans; [apply fr_emit|exact F3]]). destruct (e_ret e); [now apply good_ok|now apply ER].
      * destruct H as [_ ->]. split; [easy|]. split; [easy|]. intros _. split; easy.
    + destruct (w_cli s (inv_w p s G) x I) as (_ & -> & _). cbn [negb]. destruct (lookup_link s (c_ts x) proto 0) as [k|]; [|now apply ER].
      eapply good_bind; [apply (inv_emit p s (BDeliver (l_id k) d) eq_refl G)|auto|easy|]. apply execs_ok; [|now apply inv_emit].
      intros P. specialize (A P). apply andb_true_iff in A as [A _]. now apply andb_true_iff in A as [_ A].
  - unfold ka_timeout. destruct (kas s k) as [c|] eqn:K; [|gk]. destruct (w_kas s (inv_w p s G) k c K) as (_ & x & I & <- & _).
    rewrite (find_cli_in s x) by eauto. eapply good_weaken; [apply down_ok; [now apply execs_down|easy]|easy].
Qed.
Lemma init_ok p k g trx : Inv p (bst_init k g trx).
Proof. split; [|easy]. constructor; cbn; try easy; try constructor; auto. Qed.
Lemma run_ok p vs : (p = true -> forallb orderly_ev vs = true) -> forall s, Inv p s -> good p false s (run s vs).
Proof.
  induction vs as [|v vs IH]; intros A s G; cbn [run]; [gk|].
  assert (G1 : good p false s (step s v)). { apply step_ok; [|easy]. intros P. specialize (A P). cbn [forallb] in A. now apply andb_true_iff in A as [A _]. }
  destruct (step s v) as [s1|r]; [|exact G1]. destruct G1 as (G1 & F1 & _). eapply good_bind; [exact G1|exact F1|easy|]. apply IH; [|easy].
  intros P. specialize (A P). cbn [forallb] in A. now apply andb_true_iff in A as [_ A].
Qed.

(** ** Where the other reasons come from *)
Definition usual (nb : bool) (r : why) : Prop := r <> EmptyCcm /\ (nb = true -> r <> NullTs).
Definition ub (nb : bool) (r : res bst) : Prop := match r with Ok _ => True | Bad r => usual nb r end.
Definition cbu (nb : bool) (f : bst -> res bst) : Prop := forall s, ub nb (f s).
Ltac uu := match goal with
  | |- ub _ (match ?x with _ => _ end) => let E := fresh "E" in destruct x eqn:E
  | |- ub _ (Ok _) => exact I
  | |- ub _ (Bad _) => split; [discriminate|intros _; discriminate]
  end.
Lemma cleanup_u nb s t : ub nb (ka_cleanup s t).
Proof. unfold ka_cleanup. repeat uu. Qed.
Lemma bind_u nb (r : res bst) f : ub nb r -> (forall s, ub nb (f s)) -> ub nb (try s <- r; f s).
Proof. intros A B. destruct r; [apply B|exact A]. Qed.
Lemma down_u nb f s t : cbu nb f -> ub nb (down_cb f s t).
Proof. intros C. unfold down_cb. apply bind_u; [apply cleanup_u|]. intros s1. apply C. Qed.
Lemma close_u nb f s c : cbu nb f -> ub nb (cli_close f s c).
Proof. intros C. unfold cli_close. repeat uu. now apply down_u. Qed.
Lemma destroy_u nb f s c : cbu nb f -> ub nb (cli_destroy f s c).
Proof. intros C. unfold cli_destroy. apply bind_u; [now apply close_u|]. intros s1. uu. Qed.
Lemma drop_u nb f s t : cbu nb f -> ub nb (rsl_drop f s t).
Proof.
  intros C. unfold rsl_drop. destruct (negb (il s)); [uu|]. apply bind_u; [apply cleanup_u|]. intros s1. bsg. destruct (tab s1 t); [|uu].
  apply bind_u; [now apply destroy_u|]. intros s2. uu.
Qed.
Lemma start_u nb s t a q ok : ub nb (cli_start s t a q ok).
Proof. unfold cli_start. destruct ok; [|uu]. apply bind_u; [unfold ka_alloc; repeat uu|]. intros s1. uu. Qed.
Lemma exec_u_n : forall n c nb, (usize c <= n)%nat -> (nb = true -> no_big c = true) -> forall s, ub nb (exec c s).
Proof.
  induction n as [|n IH]; intros c nb LE A s; [destruct c; cbn in LE; lia|].
  assert (CB : forall d, (list_sum (map usize d) <= n)%nat -> (nb = true -> forallb no_big d = true) -> cbu nb (execs d)).
  { induction d as [|c' d IHd]; intros L K s'; [exact I|]. cbn [execs]. cbn [map list_sum] in L. unfold list_sum in L. cbn [fold_right] in L. fold (list_sum (map usize d)) in L.
    apply bind_u.
    - apply IH; [lia|]. intros P. specialize (K P). cbn [forallb] in K. now apply andb_true_iff in K as [K _].
    - intros s1. apply IHd; [lia|]. intros P. specialize (K P). cbn [forallb] in K. now apply andb_true_iff in K as [_ K]. }
  destruct c as [t|t ty tei sapi|k m|k d|trx a pt ok d|trx d|a ok d]; cbn [exec]; cbn [usize] in LE; cbn [no_big] in A; try exact I.
  - unfold link_send, write_cb, stream_cli. destruct (find_lk s k) as [l|]; [|exact I]. repeat uu; destruct (tab _ (l_ts l)) in *; try discriminate; congruence || (injection E as <-; split; [discriminate|intros _; discriminate]).
  - assert (C : cbu nb (execs d)) by (apply CB; [lia|exact A]). unfold link_destroy, ipaccess_close, stream_cli. destruct (find_lk s k) as [l|]; [|exact I].
    apply bind_u; [repeat uu|]. intros s1. destruct (tab s1 (l_ts l)); [|uu]. apply bind_u; [now apply close_u|]. intros s2. uu.
  - assert (A' : nb = true -> (trx < 31)%nat /\ forallb no_big d = true). { intros P. specialize (A P). apply andb_true_iff in A as [A1 A2]. apply Nat.ltb_lt in A1. auto. }
    assert (C : cbu nb (execs d)) by (apply CB; [lia|intros P; now apply A']). unfold rsl_connect_n, rsl_ts, NUM_E1_TS.
    destruct (in_range trx) eqn:IR.
    + apply in_range_spec in IR. destruct (Nat.ltb_spec (1 + trx) 32); [|lia]. apply bind_u; [now apply drop_u|]. intros s1. apply start_u.
    + assert (N : ~ (trx < 31)%nat) by (intros Q; apply in_range_spec in Q; congruence). destruct (Nat.ltb_spec (1 + trx) 32); [lia|].
      destruct (logs s); [|uu]. split; [discriminate|]. intros P. now apply A' in P.
  - assert (C : cbu nb (execs d)) by (apply CB; [lia|exact A]). unfold rsl_close_n. destruct (in_range trx); [|uu]. apply bind_u; [now apply drop_u|]. intros s1. uu.
  - assert (C : cbu nb (execs d)) by (apply CB; [lia|exact A]). unfold line_update. apply bind_u; [|intros s1; apply start_u].
    destruct (tab (set_il s) oml_ts); [|uu]. apply bind_u; [now apply close_u|]. intros s1. apply bind_u; [apply cleanup_u|]. intros s2. bsg.
    destruct (tab s2 oml_ts); [|uu]. apply bind_u; [now apply destroy_u|]. intros s3. uu.
Qed.
Lemma execs_u d nb : (nb = true -> forallb no_big d = true) -> cbu nb (execs d).
Proof.
  induction d as [|c d IH]; intros A s; [exact I|]. cbn [execs]. apply bind_u.
  - apply (exec_u_n (usize c)); [lia|]. intros P. specialize (A P). cbn [forallb] in A. now apply andb_true_iff in A as [A _].
  - apply IH. intros P. specialize (A P). cbn [forallb] in A. now apply andb_true_iff in A as [_ A].
Qed.
Lemma calm_no_big_n : forall n c, (usize c <= n)%nat -> calm c = true -> no_big c = true.
Proof.
  induction n as [|n IH]; intros c LE; [destruct c; cbn in LE; lia|].
  assert (L : forall d, (list_sum (map usize d) <= n)%nat -> forallb calm d = true -> forallb no_big d = true).
  { intros d. induction d as [|c' d IHd]; intros LD; [easy|]. cbn [map list_sum] in LD. unfold list_sum in LD. cbn [fold_right] in LD. fold (list_sum (map usize d)) in LD.
    cbn [forallb]. rewrite !andb_true_iff. intros [X Y]. split; [apply IH; [lia|easy]|apply IHd; [lia|easy]]. }
  destruct c; cbn [calm no_big usize] in *; try easy; apply L; lia.
Qed.
Lemma calms_no_big d : forallb calm d = true -> forallb no_big d = true.
Proof. rewrite !forallb_forall. intros A c I. apply (calm_no_big_n (usize c)); [lia|auto]. Qed.
