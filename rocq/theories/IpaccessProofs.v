(** The invariant of the BSC side of the ip.access driver (IpaccessModel.v). *)
From Coq Require Import List Arith Lia Bool ZArith.
From Verif Require Import Base ProxyProofs IpaccessModel.
Import ListNotations.
Open Scope Z_scope.

(** ** Counting *)
Definition b2 (b : bool) : Z := if b then 1 else 0.
Fixpoint cnt {A} (f : A -> bool) (l : list A) : Z := match l with [] => 0 | x :: r => b2 (f x) + cnt f r end.
Lemma b2_nn b : 0 <= b2 b. Proof. now destruct b. Qed.
Lemma cnt_nn {A} (f : A -> bool) l : 0 <= cnt f l.
Proof. induction l as [|x l IH]; cbn [cnt]; [lia|]. pose proof (b2_nn (f x)). lia. Qed.
Lemma cnt_in {A} (f : A -> bool) l x : In x l -> f x = true -> 0 < cnt f l.
Proof.
  induction l as [|y l IH]; [easy|]. cbn [cnt]. pose proof (b2_nn (f y)). intros [->|I] F.
  - rewrite F. cbn [b2]. pose proof (cnt_nn f l). lia.
  - specialize (IH I F). lia.
Qed.
Lemma cnt_zero {A} (f : A -> bool) l : cnt f l = 0 -> forall x, In x l -> f x = false.
Proof. intros C x I. destruct (f x) eqn:F; [|easy]. pose proof (cnt_in f l x I F). lia. Qed.
Lemma cnt_app {A} (f : A -> bool) l r : cnt f (l ++ r) = cnt f l + cnt f r.
Proof. induction l as [|x l IH]; cbn [app cnt]; lia. Qed.
Lemma cnt_ext {A} (f g : A -> bool) l : (forall x, In x l -> f x = g x) -> cnt f l = cnt g l.
Proof. induction l as [|x l IH]; [easy|]. intros H. cbn [cnt]. rewrite IH by (intros; apply H; now right). now rewrite (H x) by now left. Qed.
(** replacing the element with a given number *)
Definition rep {A} (id : A -> nat) (c : nat) (g : A -> A) (l : list A) : list A := map (fun x => if Nat.eqb (id x) c then g x else x) l.
Definition rm {A} (id : A -> nat) (c : nat) (l : list A) : list A := filter (fun x => negb (Nat.eqb (id x) c)) l.
Lemma rep_none {A} (id : A -> nat) c g l : ~ In c (map id l) -> rep id c g l = l.
Proof.
  induction l as [|y l IH]; [easy|]. unfold rep in *. cbn [map]. intros N. rewrite IH by (intros J; apply N; now right).
  destruct (Nat.eqb_spec (id y) c) as [E|]; [|easy]. exfalso. apply N. now left.
Qed.
Lemma rm_none {A} (id : A -> nat) c l : ~ In c (map id l) -> rm id c l = l.
Proof.
  induction l as [|y l IH]; [easy|]. unfold rm in *. cbn [map filter]. intros N. rewrite IH by (intros J; apply N; now right).
  destruct (Nat.eqb_spec (id y) c) as [E|]; [|easy]. exfalso. apply N. now left.
Qed.
Lemma cnt_rep {A} (id : A -> nat) g (f : A -> bool) l x : NoDup (map id l) -> In x l ->
  cnt f (rep id (id x) g l) = cnt f l - b2 (f x) + b2 (f (g x)).
Proof.
  induction l as [|y l IH]; [easy|]. cbn [map]. intros N I. apply NoDup_cons_iff in N as [N1 N2].
  destruct I as [->|I].
  - unfold rep. cbn [map cnt]. rewrite Nat.eqb_refl. fold (rep id (id x) g l). rewrite rep_none by easy. lia.
  - unfold rep. cbn [map cnt]. fold (rep id (id x) g l). rewrite IH by easy.
    destruct (Nat.eqb_spec (id y) (id x)) as [E|]; [|lia]. exfalso. apply N1. rewrite E. now apply in_map.
Qed.
Lemma cnt_rm {A} (id : A -> nat) (f : A -> bool) l x : NoDup (map id l) -> In x l ->
  cnt f (rm id (id x) l) = cnt f l - b2 (f x).
Proof.
  induction l as [|y l IH]; [easy|]. cbn [map]. intros N I. apply NoDup_cons_iff in N as [N1 N2].
  destruct I as [->|I].
  - unfold rm. cbn [filter cnt]. rewrite Nat.eqb_refl. cbn [negb]. fold (rm id (id x) l). rewrite rm_none by easy. lia.
  - unfold rm. cbn [filter]. fold (rm id (id x) l). destruct (Nat.eqb_spec (id y) (id x)) as [E|].
    { exfalso. apply N1. rewrite E. now apply in_map. }
    cbn [negb cnt]. rewrite IH by easy. lia.
Qed.
Lemma rep_ids {A} (id : A -> nat) c g l : (forall x, id (g x) = id x) -> map id (rep id c g l) = map id l.
Proof. intros H. unfold rep. rewrite map_map. apply map_ext. intros x. destruct (Nat.eqb (id x) c); [apply H|easy]. Qed.
Lemma in_rep {A} (id : A -> nat) c g l x : In x (rep id c g l) -> exists y, In y l /\ x = if Nat.eqb (id y) c then g y else y.
Proof. unfold rep. rewrite in_map_iff. intros (y & E & I). exists y. now rewrite E. Qed.
Lemma in_rep_other {A} (id : A -> nat) c g l x : In x l -> id x <> c -> In x (rep id c g l).
Proof. intros I N. unfold rep. rewrite in_map_iff. exists x. split; [|easy]. destruct (Nat.eqb_spec (id x) c); congruence. Qed.
Lemma in_rep_same {A} (id : A -> nat) g l x : In x l -> In (g x) (rep id (id x) g l).
Proof. intros I. unfold rep. rewrite in_map_iff. exists x. now rewrite Nat.eqb_refl. Qed.
Lemma in_rm {A} (id : A -> nat) c l x : In x (rm id c l) <-> In x l /\ id x <> c.
Proof. unfold rm. rewrite filter_In, negb_true_iff, Nat.eqb_neq. easy. Qed.
Lemma nodup_rm {A} (id : A -> nat) c l : NoDup (map id l) -> NoDup (map id (rm id c l)).
Proof.
  induction l as [|y l IH]; [easy|]. cbn [map]. intros N. apply NoDup_cons_iff in N as [N1 N2]. unfold rm. cbn [filter].
  fold (rm id c l). destruct (negb (Nat.eqb (id y) c)); [|now apply IH]. cbn [map]. constructor; [|now apply IH].
  intros J. apply N1. apply in_map_iff in J as (z & E & J). apply in_rm in J. rewrite <- E. now apply in_map.
Qed.

(** ** The invariant *)
Definition atl (l : nat) (x : conn) : bool := match c_at x with Some (l', _) => Nat.eqb l' l | None => false end.
Definition onl (l : nat) (k : lk) : bool := Nat.eqb (l_line k) l.
(** what link [i] was given to send, and what left its queue *)
Definition queued (i : nat) (o : list eff) : list (list Z) :=
  flat_map (fun e => match e with EQueue j m => if Nat.eqb j i then [m] else [] | _ => [] end) o.
Definition left_ (i : nat) (o : list eff) : list (list Z) :=
  flat_map (fun e => match e with ESend j _ b => if Nat.eqb j i then [b] else [] | ETxDrop j b => if Nat.eqb j i then [b] else [] | _ => [] end) o.
Definition wire (k : lk) (m : list Z) : list Z :=
  if known_type (l_type k) then ipa_header (l_tei k) (Z.of_nat (length m)) ++ m else m.

(** [El], [Et]: use counts held by callers further up the stack; [D]: connections being
    closed further up the stack *)
Record Core (El Et : nat -> Z) (D : nat -> Prop) (s : st) : Prop := {
  g_cn : NoDup (map c_id (conns s));
  g_cf : forall x, In x (conns s) -> (c_id x < nxt s)%nat;
  g_kn : NoDup (map l_id (lks s));
  g_kf : forall k, In k (lks s) -> (l_id k < nxt s)%nat;
  g_at : forall x l t, In x (conns s) -> c_at x = Some (l, t) ->
         (t < NUM_E1_TS)%nat /\ exists n, lines s l = Some n /\ t_data (n_ts n t) = Some (c_id x);
  g_da : forall l n t c, lines s l = Some n -> t_data (n_ts n t) = Some c -> In (mkC c (Some (l, t))) (conns s);
  g_de : forall x, In x (conns s) -> c_at x = None -> D (c_id x);
  g_us : forall l n, lines s l = Some n ->
         n_bfd n = cnt (atl l) (conns s) /\ n_lnk n = cnt (onl l) (lks s) + El l /\ n_tmp n = Et l /\ 0 < n_bfd n + n_lnk n + n_tmp n;
  g_lk : forall k, In k (lks s) -> l_line k <> 0%nat /\ (l_ts k < NUM_E1_TS)%nat /\
         exists n, lines s (l_line k) = Some n /\ t_sign (n_ts n (l_ts k)) = true;
  g_ex : forall l, 0 <= El l /\ 0 <= Et l /\ (0 < El l + Et l -> lines s l <> None);
  g_ka : forall l n t k, lines s l = Some n -> t_ka (n_ts n t) = Some k -> exists c, kas s k = Some c /\ t_data (n_ts n t) = Some c;
  g_ko : forall k c, kas s k = Some c -> exists l n t, lines s l = Some n /\ t_ka (n_ts n t) = Some k;
  g_lf : forall l, lines s l <> None -> (l < nxt s)%nat;
  g_kx : forall k, kas s k <> None -> (k < nxt s)%nat;
  g_cl : forall x, In x (conns s) -> c_at x <> None -> ~ In (EClose (c_id x)) (out s);
  g_c1 : forall c, cnt (fun e => match e with EClose c' => Nat.eqb c' c | _ => false end) (out s) <= 1;
  g_cx : forall c, In (EClose c) (out s) -> (c < nxt s)%nat;
  g_fl : forall l, lines s l <> None -> ~ In (EFreeLine l) (out s);
  g_f1 : forall l, cnt (fun e => match e with EFreeLine l' => Nat.eqb l' l | _ => false end) (out s) <= 1;
  g_fx : forall l, In (EFreeLine l) (out s) -> (l < nxt s)%nat;
  g_tx : forall k, In k (lks s) -> map (wire k) (queued (l_id k) (out s)) = left_ (l_id k) (out s) ++ map (wire k) (l_tx k);
  g_qx : forall i, (nxt s <= i)%nat -> queued i (out s) = [] /\ left_ i (out s) = []
}.
(** nothing is queued on a timeslot that has a connection, except perhaps on [ex] *)
Definition Td (ex : option (nat * nat)) (s : st) : Prop :=
  forall k n c, In k (lks s) -> lines s (l_line k) = Some n -> t_data (n_ts n (l_ts k)) = Some c ->
  l_tx k = [] \/ ex = Some (l_line k, l_ts k).
Definition Good El Et D s : Prop := Core El Et D s /\ Td None s.

Definition bump (E : nat -> Z) (l : nat) : nat -> Z := fun i => E i + b2 (Nat.eqb i l).
Definition addD (D : nat -> Prop) (c : nat) : nat -> Prop := fun d => d = c \/ D d.
Definition quiet (e : eff) : bool :=
  match e with EQueue _ _ | ESend _ _ _ | ETxDrop _ _ | EClose _ | EFreeLine _ => false | _ => true end.

Ltac ul := unfold upd in *; repeat match goal with
  | |- context [Nat.eqb ?a ?b] => destruct (Nat.eqb_spec a b); subst
  | H : context [Nat.eqb ?a ?b] |- _ => destruct (Nat.eqb_spec a b); subst
  end.
Ltac fs := cbn [lines conns kas lks kap nxt out n_bfd n_lnk n_tmp n_ts t_data t_priv t_ka t_sign c_id c_at] in *.
Ltac fsg := cbn [lines conns kas lks kap nxt out n_bfd n_lnk n_tmp n_ts t_data t_priv t_ka t_sign c_id c_at].

Lemma queued_app i a b : queued i (a ++ b) = queued i a ++ queued i b. Proof. apply flat_map_app. Qed.
Lemma left_app i a b : left_ i (a ++ b) = left_ i a ++ left_ i b. Proof. apply flat_map_app. Qed.
Lemma in_snoc {A} (l : list A) x y : In y (l ++ [x]) -> In y l \/ y = x.
Proof. rewrite in_app_iff. cbn. intuition. Qed.

Lemma core_emit El Et D s e : quiet e = true -> Core El Et D s -> Core El Et D (emit s e).
Proof.
  intros Q [H]. unfold emit. constructor; fsg; try assumption.
  - intros x I A J. apply in_snoc in J as [J|J]; [now apply (g_cl0 x)|subst; discriminate].
  - intros c. rewrite cnt_app. cbn [cnt]. specialize (g_c2 c). destruct e; cbn [b2]; try lia; discriminate.
  - intros c J. apply in_snoc in J as [J|J]; [now apply g_cx0|subst; discriminate].
  - intros l A J. apply in_snoc in J as [J|J]; [now apply (g_fl0 l)|subst; discriminate].
  - intros c. rewrite cnt_app. cbn [cnt]. specialize (g_f2 c). destruct e; cbn [b2]; try lia; discriminate.
  - intros c J. apply in_snoc in J as [J|J]; [now apply g_fx0|subst; discriminate].
  - intros k I. rewrite queued_app, left_app. specialize (g_tx0 k I).
    assert (queued (l_id k) [e] = [] /\ left_ (l_id k) [e] = []) as [-> ->] by (destruct e; easy).
    now rewrite !app_nil_r.
  - intros i L. rewrite queued_app, left_app. destruct (g_qx0 i L) as [-> ->]. destruct e; easy.
Qed.

Lemma core_tokens El Et El' Et' D s l n n' : Core El Et D s -> lines s l = Some n ->
  n_ts n' = n_ts n -> n_bfd n' = n_bfd n -> n_lnk n' = cnt (onl l) (lks s) + El' l -> n_tmp n' = Et' l ->
  0 <= El' l -> 0 <= Et' l -> 0 < n_bfd n' + n_lnk n' + n_tmp n' ->
  (forall i, i <> l -> El' i = El i /\ Et' i = Et i) ->
  Core El' Et' D (set_line s l (Some n')).
Proof.
  intros [H] L T B K M P1 P2 P3 O. unfold set_line. constructor; fsg; try assumption.
  - intros x l' t I A. destruct (g_at0 x l' t I A) as (B1 & m & B2 & B3). split; [easy|]. ul; [|eauto].
    exists n'. rewrite T. rewrite L in B2. injection B2 as <-. easy.
  - intros l' m t c. ul; [|now apply g_da0]. intros E F. injection E as <-. rewrite T in F. eapply g_da0; eauto.
  - intros l' m. ul.
    + intros E. injection E as <-. destruct (g_us0 l n L) as (A1 & _ & _ & _). repeat split; lia.
    + intros E. destruct (O l') as [-> ->]; [easy|]. now apply g_us0.
  - intros k I. destruct (g_lk0 k I) as (A & A' & m & A2 & A3). split; [easy|]. split; [easy|]. ul; [|eauto].
    exists n'. rewrite T. rewrite L in A2. injection A2 as <-. easy.
  - intros l'. ul.
    + repeat split; try easy.
    + destruct (O l') as [-> ->]; [easy|]. apply g_ex0.
  - intros l' m t k. ul; [|now apply g_ka0]. intros E F. injection E as <-. rewrite T in F |- *. eapply g_ka0; eauto.
  - intros k c E. destruct (g_ko0 k c E) as (l' & m & t & A & F). destruct (Nat.eq_dec l' l) as [->|N].
    + exists l, n', t. unfold upd. rewrite Nat.eqb_refl, T. rewrite L in A. injection A as <-. easy.
    + exists l', m, t. ul; easy.
  - intros l'. ul; intros A; [|now apply g_lf0]. apply g_lf0. congruence.
  - intros l'. ul; intros A; [|now apply g_fl0]. apply g_fl0. congruence.
Qed.
Lemma core_free El Et El' Et' D s l n : Core El Et D s -> lines s l = Some n ->
  n_bfd n = 0 -> cnt (onl l) (lks s) = 0 -> El' l = 0 -> Et' l = 0 ->
  (forall i, i <> l -> El' i = El i /\ Et' i = Et i) ->
  Core El' Et' D (emit (set_line s l None) (EFreeLine l)).
Proof.
  intros [H] L B K P1 P2 O. unfold set_line, emit.
  assert (C0 : forall x t, In x (conns s) -> c_at x <> Some (l, t)).
  { intros x t I A. destruct (g_us0 l n L) as (A1 & _). assert (atl l x = false) as F.
    { apply (cnt_zero (atl l) (conns s)); [lia|easy]. }
    unfold atl in F. rewrite A, Nat.eqb_refl in F. discriminate. }
  assert (K0 : forall k, In k (lks s) -> l_line k <> l).
  { intros k I E. pose proof (cnt_zero (onl l) (lks s) K k I) as F. unfold onl in F. rewrite E, Nat.eqb_refl in F. discriminate. }
  constructor; fsg; try assumption.
  - intros x l' t I A. destruct (g_at0 x l' t I A) as (B1 & m & B2 & B3). split; [easy|]. ul; [|eauto].
    exfalso. now apply (C0 x t).
  - intros l' m t c. ul; [easy|now apply g_da0].
  - intros l' m. ul; [easy|]. intros E. destruct (O l') as [-> ->]; [easy|]. now apply g_us0.
  - intros k I. destruct (g_lk0 k I) as (A & A' & m & A2 & A3). split; [easy|]. split; [easy|]. ul; [|eauto].
    exfalso. now apply (K0 k).
  - intros l'. ul.
    + rewrite P1, P2. repeat split; lia.
    + destruct (O l') as [-> ->]; [easy|]. apply g_ex0.
  - intros l' m t k. ul; [easy|now apply g_ka0].
  - intros k c E. destruct (g_ko0 k c E) as (l' & m & t & A & F). destruct (Nat.eq_dec l' l) as [->|N].
    + exfalso. destruct (g_ka0 l m t k A F) as (c' & _ & F2). apply (g_da0 l m t c' A) in F2. now apply (C0 _ t F2).
    + exists l', m, t. ul; easy.
  - intros l'. ul; [easy|]. apply g_lf0.
  - intros x I A J. apply in_snoc in J as [J|J]; [now apply (g_cl0 x)|discriminate].
  - intros c. rewrite cnt_app. cbn [cnt b2]. specialize (g_c2 c). lia.
  - intros c J. apply in_snoc in J as [J|J]; [now apply g_cx0|discriminate].
  - intros l'. ul; [easy|]. intros A J. apply in_snoc in J as [J|J]; [now apply (g_fl0 l')|congruence].
  - intros c. rewrite cnt_app. cbn [cnt]. destruct (Nat.eqb_spec l c) as [<-|N]; cbn [b2]; [|specialize (g_f2 c); lia].
    enough (cnt (fun e => match e with EFreeLine l' => Nat.eqb l' l | _ => false end) (out s) = 0) by lia.
    pose proof (cnt_nn (fun e => match e with EFreeLine l' => Nat.eqb l' l | _ => false end) (out s)) as P.
    destruct (Z.eq_dec (cnt (fun e => match e with EFreeLine l' => Nat.eqb l' l | _ => false end) (out s)) 0) as [|Q]; [easy|]. exfalso.
    apply (g_fl0 l); [congruence|].
    assert (Ex : forall o, 0 < cnt (fun e => match e with EFreeLine l' => Nat.eqb l' l | _ => false end) o -> In (EFreeLine l) o).
    { clear. induction o as [|e o IH]; cbn [cnt]; [lia|]. intros P. destruct e; cbn [b2] in P; try (right; apply IH; lia).
      destruct (Nat.eqb_spec ln l) as [->|]; [now left|right; apply IH; cbn [b2] in P; lia]. }
    apply Ex. lia.
  - intros c J. apply in_snoc in J as [J|J]; [now apply g_fx0|]. injection J as ->. apply g_lf0. congruence.
  - intros k I. rewrite queued_app, left_app. cbn. rewrite !app_nil_r. now apply g_tx0.
  - intros i J. rewrite queued_app, left_app. destruct (g_qx0 i J) as [-> ->]. easy.
Qed.

(** releasing a use count held by a caller *)
Lemma td_line s l n n' ex : lines s l = Some n -> n_ts n' = n_ts n -> Td ex s -> Td ex (set_line s l (Some n')).
Proof.
  intros L T H k m c I A B. unfold set_line in *; fs. ul; [|now apply (H k m c)].
  injection A as <-. rewrite T in B. now apply (H k n c).
Qed.
Lemma td_free s l ex : Td ex s -> Td ex (emit (set_line s l None) (EFreeLine l)).
Proof. intros H k m c I A B. unfold set_line, emit in *; fs. ul; [easy|]. now apply (H k m c). Qed.

(** the part of the state nobody but the owner changes *)
Definition frame (s s' : st) : Prop :=
  (nxt s <= nxt s')%nat /\ kap s' = kap s /\ exists es, out s' = out s ++ es /\
  (forall x, In x (conns s') -> In x (conns s)) /\
  (forall x, In x (conns s) -> In x (conns s') \/ In (EClose (c_id x)) es).
Lemma frame_refl s : frame s s.
Proof. repeat split; [lia|]. exists []. rewrite app_nil_r. intuition. Qed.
Lemma frame_trans a b c : frame a b -> frame b c -> frame a c.
Proof.
  intros (N1 & P1 & e1 & O1 & S1 & R1) (N2 & P2 & e2 & O2 & S2 & R2). split; [lia|]. split; [congruence|]. exists (e1 ++ e2).
  rewrite O2, O1, app_assoc. repeat split; [intros x I; auto|]. intros x I. rewrite in_app_iff. destruct (R1 x I) as [J|J]; [|auto].
  destruct (R2 x J); auto.
Qed.
Lemma put_tmp El Et D s l : Good El (bump Et l) D s -> 0 <= Et l ->
  exists s', line_put s l Ttmp = Some s' /\ Good El Et D s' /\ frame s s'.
Proof.
  intros [C T] P. pose proof (g_ex _ _ _ _ C l) as (E1 & E2 & E3).
  assert (lines s l <> None) as L. { apply E3. unfold bump. rewrite Nat.eqb_refl. cbn [b2]. lia. }
  destruct (lines s l) as [n|] eqn:Ln; [|easy]. destruct (g_us _ _ _ _ C l n Ln) as (U1 & U2 & U3 & U4).
  unfold bump in U3. rewrite Nat.eqb_refl in U3. cbn [b2] in U3.
  unfold line_put. rewrite Ln. cbn [use_of]. destruct (Z.leb_spec (n_tmp n) 0) as [|]; [lia|]. cbn [use_add n_bfd n_lnk n_tmp].
  pose proof (cnt_nn (onl l) (lks s)) as Q. pose proof (cnt_nn (atl l) (conns s)) as Q'.
  assert (O : forall i, i <> l -> El i = El i /\ Et i = bump Et l i).
  { intros i N. split; [easy|]. unfold bump. apply Nat.eqb_neq in N. rewrite N. cbn [b2]. lia. }
  destruct (Z.eqb_spec (n_bfd n + n_lnk n + (n_tmp n + -1)) 0) as [Z0|Z0]; eexists; (split; [reflexivity|]).
  - split.
    + split; [|now apply td_free]. apply (core_free El (bump Et l) El Et D s l n C Ln); try lia. exact O.
    + unfold emit, set_line, frame; fsg. split; [lia|]. split; [easy|]. exists [EFreeLine l]. intuition.
  - split.
    + split; [|now apply (td_line s l n)]. eapply (core_tokens El (bump Et l) El Et D s l n); fsg; eauto; lia.
    + unfold set_line, frame; fsg. split; [lia|]. split; [easy|]. exists []. rewrite app_nil_r. intuition.
Qed.
Lemma put_lnk El Et D s l : Good (bump El l) Et D s -> 0 <= El l ->
  exists s', line_put s l Tlnk = Some s' /\ Good El Et D s' /\ frame s s'.
Proof.
  intros [C T] P. pose proof (g_ex _ _ _ _ C l) as (E1 & E2 & E3).
  assert (lines s l <> None) as L. { apply E3. unfold bump. rewrite Nat.eqb_refl. cbn [b2]. lia. }
  destruct (lines s l) as [n|] eqn:Ln; [|easy]. destruct (g_us _ _ _ _ C l n Ln) as (U1 & U2 & U3 & U4).
  unfold bump in U2. rewrite Nat.eqb_refl in U2. cbn [b2] in U2.
  pose proof (cnt_nn (onl l) (lks s)) as Q. pose proof (cnt_nn (atl l) (conns s)) as Q'.
  unfold line_put. rewrite Ln. cbn [use_of]. destruct (Z.leb_spec (n_lnk n) 0) as [|]; [lia|]. cbn [use_add n_bfd n_lnk n_tmp].
  assert (O : forall i, i <> l -> El i = bump El l i /\ Et i = Et i).
  { intros i N. split; [|easy]. unfold bump. apply Nat.eqb_neq in N. rewrite N. cbn [b2]. lia. }
  destruct (Z.eqb_spec (n_bfd n + (n_lnk n + -1) + n_tmp n) 0) as [Z0|Z0]; eexists; (split; [reflexivity|]).
  - split.
    + split; [|now apply td_free]. apply (core_free (bump El l) Et El Et D s l n C Ln); try lia. exact O.
    + unfold emit, set_line, frame; fsg. split; [lia|]. split; [easy|]. exists [EFreeLine l]. intuition.
  - split.
    + split; [|now apply (td_line s l n)]. eapply (core_tokens (bump El l) Et El Et D s l n); fsg; eauto; lia.
    + unfold set_line, frame; fsg. split; [lia|]. split; [easy|]. exists []. rewrite app_nil_r. intuition.
Qed.

Definition isclose (c : nat) (e : eff) : bool := match e with EClose c' => Nat.eqb c' c | _ => false end.
Lemma close_zero c o : ~ In (EClose c) o -> cnt (isclose c) o = 0.
Proof.
  induction o as [|e o IH]; [easy|]. cbn [cnt]. intros N. rewrite IH by (intros J; apply N; now right).
  destruct e; try easy. cbn [isclose]. destruct (Nat.eqb_spec c0 c) as [->|]; [|easy]. exfalso. apply N. now left.
Qed.
Lemma c_at_in El Et D s c l t l' t' : Core El Et D s -> In (mkC c (Some (l, t))) (conns s) -> In (mkC c (Some (l', t'))) (conns s) -> l = l' /\ t = t'.
Proof. intros C I J. pose proof (id_inj c_id (conns s) _ _ (g_cn _ _ _ _ C) I J eq_refl) as E. injection E as -> ->. easy. Qed.
Definition term_of (k : option nat) : list eff := match k with Some k => [EKaTerm k] | None => [] end.

(** a connection leaves its timeslot *)
Lemma core_detach El Et D s c l t n s' n' p sg :
  Core El Et D s -> In (mkC c (Some (l, t))) (conns s) -> lines s l = Some n ->
  (forall i, lines s' i = if Nat.eqb i l then Some n' else lines s i) ->
  (forall u, n_ts n' u = if Nat.eqb u t then mkT None p None sg else n_ts n u) -> sg = t_sign (n_ts n t) ->
  n_bfd n' = n_bfd n - 1 -> n_lnk n' = n_lnk n -> n_tmp n' = n_tmp n + 1 ->
  conns s' = rep c_id c (fun x => mkC (c_id x) None) (conns s) ->
  (forall k, kas s' k = match t_ka (n_ts n t) with Some k0 => if Nat.eqb k k0 then None else kas s k | None => kas s k end) ->
  lks s' = lks s -> nxt s' = nxt s -> out s' = out s ++ [EClose c] ++ term_of (t_ka (n_ts n t)) ++ [EDown l] ->
  Core El (bump Et l) (addD D c) s'.
Proof.
  intros C I L HL HT SG B1 B2 B3 HC HK HLK HN HO. destruct C as [G].
  assert (C : Core El Et D s) by now constructor.
  destruct (g_us0 l n L) as (U1 & U2 & U3 & U4).
  assert (DA : t_data (n_ts n t) = Some c).
  { destruct (g_at0 _ l t I eq_refl) as (_ & m & E & F). rewrite L in E. now injection E as ->. }
  assert (NC : ~ In (EClose c) (out s)). { apply (g_cl0 _ I). easy. }
  assert (OI : forall e, In e (out s') -> In e (out s) \/ e = EClose c \/ (exists k, e = EKaTerm k) \/ e = EDown l).
  { intros e. rewrite HO, !in_app_iff. cbn. intros [J|[[J|[]]|[J|[J|[]]]]]; auto. destruct (t_ka (n_ts n t)); cbn in J; [|easy].
    destruct J as [<-|[]]. eauto. }
  constructor; rewrite ?HLK, ?HN; try assumption.
  - rewrite HC, rep_ids by easy. easy.
  - intros x J. rewrite HC in J. apply in_rep in J as (y & J & ->). destruct (Nat.eqb (c_id y) c); cbn [c_id]; now apply g_cf0.
  - intros x l' u J A. rewrite HC in J. apply in_rep in J as (y & J & ->).
    destruct (Nat.eqb_spec (c_id y) c) as [E|E]; [discriminate|]. destruct (g_at0 y l' u J A) as (P & m & M & Q). split; [easy|].
    rewrite HL. destruct (Nat.eqb_spec l' l) as [->|]; [|eauto]. exists n'. split; [easy|]. rewrite HT. rewrite L in M. injection M as <-.
    destruct (Nat.eqb_spec u t) as [->|]; [|easy]. exfalso. apply E. rewrite DA in Q. congruence.
  - intros l' m u d. rewrite HL. rewrite HC. destruct (Nat.eqb_spec l' l) as [->|N].
    + intros E. injection E as <-. rewrite HT. destruct (Nat.eqb_spec u t) as [->|N]; [easy|]. intros F. pose proof (g_da0 l n u d L F) as J.
      apply in_rep_other; [easy|]. cbn [c_id]. intros ->. destruct (c_at_in _ _ _ _ _ _ _ _ _ C I J). congruence.
    + intros M F. pose proof (g_da0 l' m u d M F) as J. apply in_rep_other; [easy|]. cbn [c_id]. intros ->.
      destruct (c_at_in _ _ _ _ _ _ _ _ _ C I J). congruence.
  - intros x J A. rewrite HC in J. apply in_rep in J as (y & J & ->). destruct (Nat.eqb_spec (c_id y) c) as [E|E]; cbn [c_id]; [now left|].
    right. now apply g_de0.
  - intros l' m. rewrite HL, HC. intros M.
    assert (CN : cnt (atl l') (rep c_id c (fun x => mkC (c_id x) None) (conns s)) = cnt (atl l') (conns s) - b2 (Nat.eqb l l')).
    { change c with (c_id (mkC c (Some (l, t)))) at 1. rewrite cnt_rep by easy. cbn [atl c_at b2]. lia. }
    rewrite CN. clear CN. unfold bump. destruct (Nat.eqb_spec l' l) as [->|N].
    + injection M as <-. rewrite Nat.eqb_refl. cbn [b2]. repeat split; lia.
    + replace (Nat.eqb l l') with false by (symmetry; apply Nat.eqb_neq; congruence). cbn [b2].
      destruct (g_us0 l' m M) as (V1 & V2 & V3 & V4). repeat split; lia.
  - intros k J. destruct (g_lk0 k J) as (A & A' & m & A2 & A3). split; [easy|]. split; [easy|]. rewrite HL.
    destruct (Nat.eqb_spec (l_line k) l) as [E|]; [|eauto]. exists n'. split; [easy|]. rewrite HT.
    rewrite E, L in A2. injection A2 as <-. destruct (Nat.eqb_spec (l_ts k) t) as [F|]; [|easy]. cbn [t_sign]. now rewrite SG, <- F.
  - intros l'. destruct (g_ex0 l') as (A1 & A2 & A3). rewrite HL. unfold bump. destruct (Nat.eqb_spec l' l) as [->|N]; cbn [b2].
    + repeat split; lia || easy.
    + repeat split; try lia. intros P. apply A3. lia.
  - intros l' m u k. rewrite HL. intros M F. rewrite HK.
    assert (KK : forall k0, t_ka (n_ts n t) = Some k0 -> k = k0 -> (l' = l /\ u = t) \/ (l' = l -> n_ts n' u <> n_ts n u)).
    { intros k0 T0 ->. destruct (g_ka0 l n t k0 L T0) as (d & Kd & Dd). destruct (Nat.eqb_spec l' l) as [->|N].
      - injection M as <-. rewrite HT in F. destruct (Nat.eqb_spec u t) as [->|N]; [now left|]. exfalso.
        destruct (g_ka0 l n u k0 L F) as (d' & Kd' & Dd'). assert (d' = d) as -> by congruence.
        destruct (c_at_in _ _ _ _ _ _ _ _ _ C (g_da0 l n t d L Dd) (g_da0 l n u d L Dd')). congruence.
      - right. congruence. }
    destruct (Nat.eqb_spec l' l) as [->|N].
    + injection M as <-. rewrite HT in F |- *. destruct (Nat.eqb_spec u t) as [->|N]; [discriminate|].
      destruct (g_ka0 l n u k L F) as (d & Kd & Dd). exists d. split; [|easy].
      destruct (t_ka (n_ts n t)) as [k0|] eqn:T0; [|easy]. destruct (Nat.eqb_spec k k0) as [->|]; [|easy]. exfalso.
      destruct (g_ka0 l n t k0 L T0) as (d' & Kd' & Dd'). assert (d' = d) as -> by congruence.
      destruct (c_at_in _ _ _ _ _ _ _ _ _ C (g_da0 l n t d L Dd') (g_da0 l n u d L Dd)). congruence.
    + destruct (g_ka0 l' m u k M F) as (d & Kd & Dd). exists d. split; [|easy].
      destruct (t_ka (n_ts n t)) as [k0|] eqn:T0; [|easy]. destruct (Nat.eqb_spec k k0) as [->|]; [|easy]. exfalso.
      destruct (g_ka0 l n t k0 L T0) as (d' & Kd' & Dd'). assert (d' = d) as -> by congruence.
      destruct (c_at_in _ _ _ _ _ _ _ _ _ C (g_da0 l n t d L Dd') (g_da0 l' m u d M Dd)). congruence.
  - intros k d. rewrite HK. intros E.
    assert (kas s k = Some d /\ t_ka (n_ts n t) <> Some k) as [E' NE].
    { destruct (t_ka (n_ts n t)) as [k0|]; [|easy]. destruct (Nat.eqb_spec k k0); [discriminate|]. split; [easy|congruence]. }
    destruct (g_ko0 k d E') as (l' & m & u & M & F). destruct (Nat.eq_dec l' l) as [->|N].
    + exists l, n', u. rewrite HL, Nat.eqb_refl, HT. split; [easy|]. rewrite L in M. injection M as <-.
      destruct (Nat.eqb_spec u t) as [->|]; [contradiction|easy].
    + exists l', m, u. rewrite HL. destruct (Nat.eqb_spec l' l); easy.
  - intros l'. rewrite HL. destruct (Nat.eqb_spec l' l) as [->|]; [|apply g_lf0]. intros _. apply g_lf0. congruence.
  - intros k. rewrite HK. intros E. apply g_kx0. destruct (t_ka (n_ts n t)) as [k0|]; [|easy]. destruct (Nat.eqb k k0); easy.
  - intros x J A Q. rewrite HC in J. apply in_rep in J as (y & J & ->). destruct (Nat.eqb_spec (c_id y) c) as [E|E]; [easy|].
    destruct (OI _ Q) as [Q'|[Q'|[(k & Q')|Q']]]; try discriminate; [now apply (g_cl0 y)|congruence].
  - intros d. rewrite HO, !cnt_app. cbn [cnt]. specialize (g_c2 d). fold (isclose d) in *.
    assert (cnt (isclose d) (term_of (t_ka (n_ts n t))) = 0) as -> by now destruct (t_ka (n_ts n t)).
    destruct (Nat.eqb_spec c d) as [<-|]; cbn [b2]; [|lia]. rewrite close_zero by easy. lia.
  - intros d Q. destruct (OI _ Q) as [Q'|[Q'|[(k & Q')|Q']]]; try discriminate; [now apply g_cx0|]. injection Q' as ->. now apply (g_cf0 _ I).
  - intros l' A Q. destruct (OI _ Q) as [Q'|[Q'|[(k & Q')|Q']]]; try discriminate. apply (g_fl0 l'); [|easy]. revert A. rewrite HL.
    destruct (Nat.eqb_spec l' l) as [->|]; [congruence|easy].
  - intros d. rewrite HO, !cnt_app. cbn [cnt b2]. specialize (g_f2 d).
    enough (cnt (fun e => match e with EFreeLine l' => Nat.eqb l' d | _ => false end) (term_of (t_ka (n_ts n t))) = 0) by lia. now destruct (t_ka (n_ts n t)).
  - intros d Q. destruct (OI _ Q) as [Q'|[Q'|[(k & Q')|Q']]]; try discriminate; now apply g_fx0.
  - intros k J. rewrite HO, !queued_app, !left_app.
    assert (queued (l_id k) (term_of (t_ka (n_ts n t))) = [] /\ left_ (l_id k) (term_of (t_ka (n_ts n t))) = []) as [-> ->] by now destruct (t_ka (n_ts n t)).
    cbn. rewrite !app_nil_r. now apply g_tx0.
  - intros i J. rewrite HO, !queued_app, !left_app.
    assert (queued i (term_of (t_ka (n_ts n t))) = [] /\ left_ i (term_of (t_ka (n_ts n t))) = []) as [-> ->] by now destruct (t_ka (n_ts n t)).
    destruct (g_qx0 i J) as [-> ->]. easy.
Qed.
Lemma td_detach s s' l t n n' ex : lines s l = Some n -> (forall i, lines s' i = if Nat.eqb i l then Some n' else lines s i) ->
  (forall u, t_data (n_ts n' u) = if Nat.eqb u t then None else t_data (n_ts n u)) -> lks s' = lks s -> Td ex s -> Td ex s'.
Proof.
  intros L HL HT HK H k m c I A B. rewrite HK in I. rewrite HL in A. destruct (Nat.eqb_spec (l_line k) l) as [E|].
  - injection A as <-. rewrite HT in B. destruct (Nat.eqb_spec (l_ts k) t); [discriminate|]. apply (H k n c); try easy. now rewrite E.
  - now apply (H k m c).
Qed.

Lemma core_forget El Et D s c s' : Core El Et (addD D c) s -> (forall x, In x (conns s) -> c_id x = c -> c_at x = None) ->
  lines s' = lines s -> conns s' = rm c_id c (conns s) -> (forall k, kas s' k = match kas s k with Some c' => if Nat.eqb c' c then None else Some c' | None => None end) ->
  lks s' = lks s -> nxt s' = nxt s -> out s' = out s -> Core El Et D s'.
Proof.
  intros C A HL HC HK HLK HN HO.
  assert (K0 : forall k, kas s' k = kas s k).
  { intros k. rewrite HK. destruct (kas s k) as [d|] eqn:E; [|easy]. destruct (Nat.eqb_spec d c) as [->|]; [|easy]. exfalso.
    destruct (g_ko _ _ _ _ C k c E) as (l & n & t & L & F). destruct (g_ka _ _ _ _ C l n t k L F) as (d & E' & F'). rewrite E in E'. injection E' as <-.
    pose proof (A _ (g_da _ _ _ _ C l n t c L F') eq_refl). discriminate. }
  destruct C as [G]. constructor; rewrite ?HL, ?HC, ?HLK, ?HN, ?HO; try assumption.
  - now apply nodup_rm.
  - intros x J. apply in_rm in J as [J _]. now apply g_cf0.
  - intros x l t J. apply in_rm in J as [J _]. now apply g_at0.
  - intros l n t d L F. apply in_rm. pose proof (g_da0 l n t d L F) as J. split; [easy|]. cbn [c_id]. intros ->. pose proof (A _ J eq_refl). discriminate.
  - intros x J B. apply in_rm in J as [J N]. destruct (g_de0 x J B); easy.
  - intros l n L. destruct (g_us0 l n L) as (U1 & U). split; [|easy]. rewrite U1. clear - A G. revert A.
    induction (conns s) as [|y r IH]; [easy|]. intros A. cbn [map] in G. apply NoDup_cons_iff in G as [N1 N2]. unfold rm. cbn [filter cnt].
    fold (rm c_id c r). rewrite IH by (easy || (intros z Z1 Z2; apply A; [now right|easy])).
    destruct (Nat.eqb_spec (c_id y) c) as [E|]; cbn [negb cnt]; [|easy]. unfold atl at 1. rewrite (A y) by (easy || now left). cbn [b2]. lia.
  - intros l n t k L F. rewrite K0. eauto.
  - intros k d. rewrite K0. eauto.
  - intros k. rewrite K0. eauto.
  - intros x J. apply in_rm in J as [J _]. now apply g_cl0.
Qed.

Definition downok (down : st -> option st) : Prop :=
  forall El Et D s, Good El Et D s -> exists s', down s = Some s' /\ Good El Et D s' /\ frame s s'.
Lemma find_in El Et D s x : Core El Et D s -> In x (conns s) -> find_conn s (c_id x) = Some x.
Proof. intros C I. unfold find_conn. apply (find_id c_id); [apply (g_cn _ _ _ _ C)|easy]. Qed.
Lemma nn_bump E l : (forall i, 0 <= E i) -> forall i, 0 <= bump E l i.
Proof. intros H i. unfold bump. pose proof (b2_nn (Nat.eqb i l)). specialize (H i). lia. Qed.

Lemma destroy_ok down El Et D s c l t : downok down -> Good El Et D s -> In (mkC c (Some (l, t))) (conns s) ->
  exists s', srv_destroy down s c = Some s' /\ Good El Et D s' /\ frame s s' /\ ~ In c (map c_id (conns s')) /\
  exists n, lines s l = Some n /\ exists es, out s' = out s ++ [EClose c] ++ term_of (t_ka (n_ts n t)) ++ [EDown l] ++ es.
Proof.
  intros OK [C T] I. destruct (g_at _ _ _ _ C _ l t I eq_refl) as (TT & n & L & DA). cbn [c_id] in DA.
  destruct (g_us _ _ _ _ C l n L) as (U1 & U2 & U3 & U4). destruct (g_ex _ _ _ _ C l) as (E1 & E2 & E3).
  assert (B : 0 < n_bfd n). { rewrite U1. apply (cnt_in _ _ _ I). cbn [atl c_at]. apply Nat.eqb_refl. }
  pose proof (cnt_nn (onl l) (lks s)) as Q.
  assert (FI : find_conn s c = Some (mkC c (Some (l, t)))) by exact (find_in _ _ _ _ _ C I).
  unfold srv_destroy. rewrite FI. unfold closed_cb.
  change (find_conn (emit s (EClose c)) c) with (find_conn s c). rewrite FI. cbn [c_at].
  unfold line_get at 1. cbn [emit lines]. rewrite L. unfold line_put at 1. cbn [set_line lines]. unfold upd at 1. rewrite Nat.eqb_refl.
  cbn [use_of use_add n_bfd n_lnk n_tmp]. destruct (Z.leb_spec (n_bfd n) 0) as [|_]; [lia|].
  destruct (Z.eqb_spec (n_bfd n + -1 + n_lnk n + (n_tmp n + 1)) 0) as [|_]; [lia|].
  unfold ka_cleanup. cbn [set_line emit lines]. unfold upd at 1. rewrite Nat.eqb_refl. cbn [n_ts].
  set (n1 := mkN (n_bfd n + -1) (n_lnk n) (n_tmp n + 1) (n_ts n)).
  assert (exists s1, (match t_ka (n_ts n t) with
      | Some k => do _c <- kas s k; Some (emit (set_line (set_kas (set_line (set_line (emit s (EClose c)) l (Some (mkN (n_bfd n) (n_lnk n) (n_tmp n + 1) (n_ts n)))) l (Some n1)) (upd (kas s) k None)) l
             (Some (set_ts n1 t (mkT (t_data (n_ts n t)) (t_priv (n_ts n t)) None (t_sign (n_ts n t)))))) (EKaTerm k))
      | None => Some (set_line (set_line (emit s (EClose c)) l (Some (mkN (n_bfd n) (n_lnk n) (n_tmp n + 1) (n_ts n)))) l (Some n1)) end) = Some s1 /\
      (exists m, (forall i, lines s1 i = if Nat.eqb i l then Some m else lines s i) /\ (forall u, n_ts m u = if Nat.eqb u t then mkT (t_data (n_ts n t)) (t_priv (n_ts n t)) None (t_sign (n_ts n t)) else n_ts n u) /\
         n_bfd m = n_bfd n - 1 /\ n_lnk m = n_lnk n /\ n_tmp m = n_tmp n + 1) /\ conns s1 = conns s /\
      (forall k, kas s1 k = match t_ka (n_ts n t) with Some k0 => if Nat.eqb k k0 then None else kas s k | None => kas s k end) /\
      lks s1 = lks s /\ nxt s1 = nxt s /\ kap s1 = kap s /\ out s1 = out s ++ [EClose c] ++ term_of (t_ka (n_ts n t))) as (s1 & S1 & (m & M1 & M2 & M3 & M4 & M5) & CC & KK & LK & NX & KP & OO).
  { destruct (t_ka (n_ts n t)) as [k|] eqn:TK.
    - destruct (g_ka _ _ _ _ C l n t k L TK) as (d & K1 & K2). rewrite K1. eexists. split; [reflexivity|].
      unfold emit, set_line, set_kas, set_ts; fsg. repeat split; try reflexivity.
      + eexists. split; [intros i; unfold upd; destruct (Nat.eqb i l); reflexivity|]. fsg. subst n1; fsg. repeat split; try lia.
      + rewrite <- app_assoc. reflexivity.
    - eexists. split; [reflexivity|]. unfold emit, set_line; fsg. repeat split; try reflexivity.
      eexists. split; [intros i; unfold upd; destruct (Nat.eqb i l); reflexivity|]. subst n1; fsg. repeat split; try lia.
      intros u. destruct (Nat.eqb_spec u t) as [->|]; [|reflexivity]. rewrite <- TK. now destruct (n_ts n t). }
  cbn [set_line emit kas] in S1 |- *. subst n1. rewrite S1. clear S1.
  unfold set_at, set_conns. cbn [lines]. rewrite M1, Nat.eqb_refl. unfold set_line, emit; fsg.
  set (s2 := mkSt _ _ _ _ _ _ _).
  assert (G2 : Good El (bump Et l) (addD D c) s2).
  { split.
    - eapply (core_detach El Et D s c l t n s2 (set_ts m t (mkT None (t_priv (n_ts m t)) (t_ka (n_ts m t)) (t_sign (n_ts m t))))
         (t_priv (n_ts n t)) (t_sign (n_ts n t))); subst s2; unfold set_ts; fsg; eauto; try lia.
      + intros i. unfold upd. rewrite M1. now destruct (Nat.eqb i l).
      + intros u. unfold upd. destruct (Nat.eqb_spec u t) as [->|]; [|rewrite M2; now apply Nat.eqb_neq in n0; rewrite n0]. rewrite M2, Nat.eqb_refl. reflexivity.
      + rewrite CC. reflexivity.
      + rewrite OO, <- !app_assoc. reflexivity.
    - eapply (td_detach s s2 l t n (set_ts m t (mkT None (t_priv (n_ts m t)) (t_ka (n_ts m t)) (t_sign (n_ts m t))))); subst s2; unfold set_ts; fsg; eauto.
      + intros i. unfold upd. rewrite M1. now destruct (Nat.eqb i l).
      + intros u. unfold upd. destruct (Nat.eqb_spec u t) as [->|]; [easy|]. rewrite M2. apply Nat.eqb_neq in n0. now rewrite n0. }
  assert (X2 : forall x, In x (conns s2) -> c_id x = c -> c_at x = None).
  { subst s2; fsg. rewrite CC. intros x J. fold (rep c_id c (fun x => mkC (c_id x) None) (conns s)) in J. apply in_rep in J as (y & J & ->).
    destruct (Nat.eqb_spec (c_id y) c); [easy|]. congruence. }
  destruct (OK _ _ _ _ G2) as (s3 & S3 & G3 & F3). rewrite S3.
  destruct (put_tmp _ _ _ _ _ G3 E2) as (s4 & S4 & G4 & F4). rewrite S4. eexists. split; [reflexivity|].
  pose proof (frame_trans _ _ _ F3 F4) as F. destruct F as (NF & PF & es & OF & SF & RF).
  assert (X4 : forall x, In x (conns s4) -> c_id x = c -> c_at x = None) by (intros x J; apply X2; auto).
  unfold set_conns, set_kas; fsg. fold (rm c_id c (conns s4)). split; [|split; [|split]].
  - destruct G4 as [C4 T4]. split; [|exact T4]. eapply (core_forget _ _ _ s4 c); fsg; eauto.
  - subst s2; fs. unfold frame; fsg. split; [lia|]. split; [congruence|]. exists ([EClose c] ++ term_of (t_ka (n_ts n t)) ++ [EDown l] ++ es).
    rewrite OF. rewrite OO, <- !app_assoc. split; [reflexivity|]. split.
    + intros x J. apply in_rm in J as [J N]. apply SF in J. rewrite CC in J. fold (rep c_id c (fun x => mkC (c_id x) None) (conns s)) in J.
      apply in_rep in J as (y & J & ->). destruct (Nat.eqb_spec (c_id y) c); [contradiction|easy].
    + intros x J. destruct (Nat.eq_dec (c_id x) c) as [->|N]; [right; now left|].
      destruct (RF x) as [J'|J'].
      * rewrite CC. now apply in_rep_other.
      * left. apply in_rm. easy.
      * right. rewrite !in_app_iff. auto.
  - intros J. apply in_map_iff in J as (x & E & J). apply in_rm in J. easy.
  - exists n. split; [easy|]. exists es. subst s2; fs. rewrite OF. rewrite OO, <- !app_assoc. reflexivity.
Qed.

(** ** Transmission *)
Definition here (l t : nat) (k : lk) : bool := Nat.eqb (l_line k) l && Nat.eqb (l_ts k) t.
Definition clr (l t : nat) (k : lk) : lk := if here l t k then mkL (l_id k) (l_line k) (l_ts k) (l_type k) (l_tei k) (l_sapi k) [] else k.
Definition sent (l t c : nat) (ks : list lk) : list eff :=
  flat_map (fun k => if here l t k then map (send_msg k c) (l_tx k) else []) ks.
Lemma tx_spec l t c ks n : pending l t ks = S n -> exists k m ks',
  tx_ts l t ks = Some (k, m, ks') /\ pending l t ks' = n /\ sent l t c ks = send_msg k c m :: sent l t c ks' /\ map (clr l t) ks' = map (clr l t) ks.
Proof.
  induction ks as [|k r IH]; [discriminate|]. unfold pending, sent in *. cbn [flat_map tx_ts map]. fold (here l t k).
  destruct (here l t k) eqn:H.
  - destruct (l_tx k) as [|m q] eqn:Q.
    + cbn [app]. intros P. destruct (IH P) as (k' & m & ks' & -> & P1 & P2 & P3). exists k', m, (k :: ks'). split; [easy|].
      cbn [flat_map map]. fold (here l t k). rewrite H, Q. cbn [app map]. split; [easy|]. split; [easy|]. now rewrite P3.
    + cbn [app length]. intros P. injection P as P. exists k, m. eexists. split; [reflexivity|]. cbn [flat_map map app].
      unfold here in H |- *. cbn [l_line l_ts l_tx]. rewrite H. split; [easy|]. split; [reflexivity|]. f_equal. unfold clr, here. cbn [l_line l_ts]. rewrite H. reflexivity.
  - cbn [app]. intros P. destruct (IH P) as (k' & m & ks' & -> & P1 & P2 & P3). exists k', m, (k :: ks'). split; [easy|].
    cbn [flat_map map]. fold (here l t k). rewrite H. cbn [app map]. split; [easy|]. split; [easy|]. now rewrite P3.
Qed.
Lemma tx_none l t c ks : pending l t ks = 0%nat -> sent l t c ks = [] /\ map (clr l t) ks = ks.
Proof.
  induction ks as [|k r IH]; [easy|]. unfold pending, sent in *. cbn [flat_map map]. fold (here l t k). rewrite app_length. intros P.
  destruct IH as [-> ->]; [lia|]. unfold clr. destruct (here l t k) eqn:H; [|easy]. destruct (l_tx k) eqn:Q; [|cbn in P; lia].
  split; [easy|]. rewrite <- Q. now destruct k.
Qed.
Lemma write_all l t c s : write_loop (pending l t (lks s)) l t c s =
  mkSt (lines s) (conns s) (kas s) (map (clr l t) (lks s)) (kap s) (nxt s) (out s ++ sent l t c (lks s)).
Proof.
  remember (pending l t (lks s)) as n eqn:P. symmetry in P. revert s P. induction n as [|n IH]; intros s P; cbn [write_loop].
  - destruct (tx_none l t c _ P) as [-> ->]. rewrite app_nil_r. now destruct s.
  - destruct (tx_spec l t c _ _ P) as (k & m & ks' & -> & P1 & P2 & P3). rewrite IH by exact P1.
    unfold emit, set_lks; fsg. rewrite P2, P3, <- app_assoc. reflexivity.
Qed.
Lemma left_send k c i m : left_ i [send_msg k c m] = if Nat.eqb (l_id k) i then [wire k m] else [].
Proof. unfold send_msg, wire. destruct (known_type (l_type k)); cbn; now destruct (Nat.eqb (l_id k) i). Qed.
Lemma sent_left l t c ks : NoDup (map l_id ks) -> forall k, In k ks -> left_ (l_id k) (sent l t c ks) = if here l t k then map (wire k) (l_tx k) else [].
Proof.
  assert (Q : forall k c ms i, left_ i (map (send_msg k c) ms) = if Nat.eqb (l_id k) i then map (wire k) ms else []).
  { intros k c0 ms i. induction ms as [|m ms IH]; [now destruct (Nat.eqb (l_id k) i)|]. cbn [map].
    change (send_msg k c0 m :: map (send_msg k c0) ms) with ([send_msg k c0 m] ++ map (send_msg k c0) ms).
    rewrite left_app, IH, left_send. now destruct (Nat.eqb (l_id k) i). }
  assert (O : forall i ks, ~ In i (map l_id ks) -> left_ i (sent l t c ks) = []).
  { intros i. clear ks. induction ks as [|k r IH]; [easy|]. unfold sent in *. cbn [flat_map map]. intros N. rewrite left_app, IH by (intros J; apply N; now right).
    destruct (here l t k); [|easy]. rewrite Q. destruct (Nat.eqb_spec (l_id k) i) as [E|]; [|easy]. exfalso. apply N. now left. }
  induction ks as [|y r IH]; [easy|]. cbn [map]. intros N k I. apply NoDup_cons_iff in N as [N1 N2].
  unfold sent. cbn [flat_map]. fold (sent l t c r). rewrite left_app. destruct I as [->|I].
  - rewrite O by easy. rewrite app_nil_r. destruct (here l t k); [|easy]. rewrite Q, Nat.eqb_refl. reflexivity.
  - rewrite IH by easy. destruct (here l t y); [|easy]. rewrite Q. destruct (Nat.eqb_spec (l_id y) (l_id k)) as [E|]; [|easy].
    exfalso. apply N1. rewrite E. now apply in_map.
Qed.
Lemma sent_in l t c ks e : In e (sent l t c ks) -> exists k m, In k ks /\ e = send_msg k c m.
Proof.
  unfold sent. rewrite in_flat_map. intros (k & I & J). destruct (here l t k); [|easy]. apply in_map_iff in J as (m & <- & J). eauto.
Qed.
Lemma sent_queued l t c ks i : queued i (sent l t c ks) = [].
Proof.
  unfold queued. induction (sent l t c ks) as [|e r IH] eqn:E in ks |- *; [easy|].
  assert (forall e, In e (sent l t c ks) -> exists k m, e = send_msg k c m) as H by (intros x X; destruct (sent_in _ _ _ _ _ X) as (k & m & _ & ->); eauto).
  rewrite E in H. clear E IH. induction (e :: r) as [|x q IH]; [easy|]. cbn [flat_map]. rewrite IH by (intros; apply H; now right).
  destruct (H x) as (k & m & ->); [now left|]. unfold send_msg. now destruct (known_type (l_type k)).
Qed.
Lemma sent_cnt l t c ks f : (forall k m, f (send_msg k c m) = false) -> cnt f (sent l t c ks) = 0.
Proof.
  intros H. assert (forall x, In x (sent l t c ks) -> f x = false) as Q by (intros x X; destruct (sent_in _ _ _ _ _ X) as (k & m & _ & ->); apply H).
  induction (sent l t c ks) as [|x q IH]; [easy|]. cbn [cnt]. rewrite IH by (intros; apply Q; now right). rewrite Q by now left. reflexivity.
Qed.
Lemma clr_id l t k : l_id (clr l t k) = l_id k. Proof. unfold clr. now destruct (here l t k). Qed.
Lemma clr_line l t k : l_line (clr l t k) = l_line k. Proof. unfold clr. now destruct (here l t k). Qed.
Lemma clr_ts l t k : l_ts (clr l t k) = l_ts k. Proof. unfold clr. now destruct (here l t k). Qed.
Lemma clr_wire l t k m : wire (clr l t k) m = wire k m. Proof. unfold clr. now destruct (here l t k). Qed.

Lemma core_write El Et D s l t c : Core El Et D s -> Td (Some (l, t)) s ->
  Good El Et D (write_loop (pending l t (lks s)) l t c s).
Proof.
  intros C T. rewrite write_all. split.
  - destruct C as [G]. constructor; fsg; try assumption.
    + rewrite map_map. erewrite map_ext; [eassumption|]. intros k. apply clr_id.
    + intros k J. apply in_map_iff in J as (y & <- & J). rewrite clr_id. now apply g_kf0.
    + intros l' n L. destruct (g_us0 l' n L) as (U1 & U2 & U). split; [easy|]. split; [|easy]. rewrite U2. f_equal.
      clear. induction (lks s) as [|k r IH]; [easy|]. cbn [map cnt]. rewrite IH. f_equal. unfold onl. now rewrite clr_line.
    + intros k J. apply in_map_iff in J as (y & <- & J). rewrite clr_line, clr_ts. now apply g_lk0.
    + intros x I A J. apply in_app_iff in J as [J|J]; [now apply (g_cl0 x)|]. apply sent_in in J as (k & m & _ & E).
      unfold send_msg in E. destruct (known_type (l_type k)); discriminate.
    + intros d. rewrite cnt_app, sent_cnt; [specialize (g_c2 d); lia|]. intros k m. unfold send_msg. now destruct (known_type (l_type k)).
    + intros d J. apply in_app_iff in J as [J|J]; [now apply g_cx0|]. apply sent_in in J as (k & m & _ & E).
      unfold send_msg in E. destruct (known_type (l_type k)); discriminate.
    + intros l' A J. apply in_app_iff in J as [J|J]; [now apply (g_fl0 l')|]. apply sent_in in J as (k & m & _ & E).
      unfold send_msg in E. destruct (known_type (l_type k)); discriminate.
    + intros d. rewrite cnt_app, sent_cnt; [specialize (g_f2 d); lia|]. intros k m. unfold send_msg. now destruct (known_type (l_type k)).
    + intros d J. apply in_app_iff in J as [J|J]; [now apply g_fx0|]. apply sent_in in J as (k & m & _ & E).
      unfold send_msg in E. destruct (known_type (l_type k)); discriminate.
    + intros k J. apply in_map_iff in J as (y & <- & J). rewrite clr_id, queued_app, left_app, sent_queued, app_nil_r.
      rewrite (map_ext _ _ (clr_wire l t y)), (g_tx0 y J), <- app_assoc. f_equal. rewrite sent_left by easy.
      rewrite (map_ext _ _ (clr_wire l t y)). unfold clr. destruct (here l t y); cbn [l_tx map]; now rewrite ?app_nil_r.
    + intros i J. rewrite queued_app, left_app, sent_queued. destruct (g_qx0 i J) as [-> ->]. split; [easy|]. cbn [app].
      assert (forall e, In e (sent l t c (lks s)) -> exists k m, In k (lks s) /\ e = send_msg k c m) as H by (intros e; apply sent_in).
      induction (sent l t c (lks s)) as [|e r IH]; [easy|]. change (e :: r) with ([e] ++ r). rewrite left_app, IH by (intros; apply H; now right).
      destruct (H e) as (k & m & I & ->); [now left|]. rewrite left_send. apply g_kf0 in I. destruct (Nat.eqb_spec (l_id k) i); [lia|easy].
  - intros k n d. fsg. intros J L F. left. apply in_map_iff in J as (y & <- & J). rewrite clr_line in L. rewrite clr_ts in F.
    unfold clr. destruct (here l t y) eqn:H; [easy|]. destruct (T y n d J L F) as [E|E]; [easy|]. injection E as -> ->.
    unfold here in H. rewrite !Nat.eqb_refl in H. discriminate.
Qed.
Lemma write_frame s l t c : frame s (write_loop (pending l t (lks s)) l t c s).
Proof. rewrite write_all. unfold frame; fsg. split; [lia|]. split; [easy|]. eexists. split; [reflexivity|]. auto. Qed.

Definition addq (m : list Z) (x : lk) : lk := mkL (l_id x) (l_line x) (l_ts x) (l_type x) (l_tei x) (l_sapi x) (l_tx x ++ [m]).
Definition enq (s : st) (id : nat) (m : list Z) : st := set_lks (emit s (EQueue id m)) (rep l_id id (addq m) (lks s)).
Lemma core_enq El Et D s k m : Core El Et D s -> In k (lks s) -> Core El Et D (enq s (l_id k) m).
Proof.
  intros [G] I. unfold enq, set_lks, emit. constructor; fsg; try assumption.
  - now rewrite rep_ids.
  - intros x J. apply in_rep in J as (y & J & ->). destruct (Nat.eqb (l_id y) (l_id k)); now apply (g_kf0 y).
  - intros l n L. destruct (g_us0 l n L) as (U1 & U2 & U). split; [easy|]. split; [|easy]. rewrite cnt_rep by easy. unfold onl at 2 3. cbn [addq l_line]. lia.
  - intros x J. apply in_rep in J as (y & J & ->). destruct (Nat.eqb (l_id y) (l_id k)); now apply (g_lk0 y).
  - intros x J A Q. apply in_snoc in Q as [Q|Q]; [now apply (g_cl0 x)|discriminate].
  - intros c. rewrite cnt_app. cbn [cnt b2]. specialize (g_c2 c). lia.
  - intros c J. apply in_snoc in J as [J|J]; [now apply g_cx0|discriminate].
  - intros l A J. apply in_snoc in J as [J|J]; [now apply (g_fl0 l)|discriminate].
  - intros c. rewrite cnt_app. cbn [cnt b2]. specialize (g_f2 c). lia.
  - intros c J. apply in_snoc in J as [J|J]; [now apply g_fx0|discriminate].
  - intros x J. rewrite queued_app, left_app. apply in_rep in J as (y & J & ->). destruct (Nat.eqb_spec (l_id y) (l_id k)) as [E|N].
    + cbn [addq l_id l_tx]. change (wire (addq m y)) with (wire y). rewrite map_app, (g_tx0 y J). cbn [queued left_ flat_map].
      rewrite <- E, Nat.eqb_refl, !app_nil_r, map_app, app_assoc. reflexivity.
    + cbn. destruct (Nat.eqb_spec (l_id k) (l_id y)); [congruence|]. rewrite !app_nil_r. now apply g_tx0.
  - intros i J. rewrite queued_app, left_app. destruct (g_qx0 i J) as [-> ->]. cbn. pose proof (g_kf0 k I). destruct (Nat.eqb_spec (l_id k) i); [lia|easy].
Qed.
Lemma td_enq s k m : NoDup (map l_id (lks s)) -> In k (lks s) -> Td None s -> Td (Some (l_line k, l_ts k)) (enq s (l_id k) m).
Proof.
  intros N I T x n c. unfold enq, set_lks, emit; fsg. intros J L F. apply in_rep in J as (y & J & ->).
  destruct (Nat.eqb_spec (l_id y) (l_id k)) as [E|E].
  - right. assert (y = k) as -> by now apply (id_inj l_id (lks s)). reflexivity.
  - destruct (T y n c J L F) as [|Q]; [now left|discriminate].
Qed.
Lemma find_lk_in El Et D s k : Core El Et D s -> In k (lks s) -> find_lk s (l_id k) = Some k.
Proof. intros C I. unfold find_lk. apply (find_id l_id); [apply (g_kn _ _ _ _ C)|easy]. Qed.

(** sending on a link whose timeslot has a connection, and on one that has none *)
Lemma send_now El Et D s k m n c : Good El Et D s -> In k (lks s) -> lines s (l_line k) = Some n -> t_data (n_ts n (l_ts k)) = Some c ->
  exists s', link_send s (l_id k) m = Some s' /\ lines s' = lines s /\ conns s' = conns s /\ lks s' = lks s /\
  out s' = out s ++ [EQueue (l_id k) m; send_msg k c m].
Proof.
  intros [C T] I L F. unfold link_send. rewrite (find_lk_in _ _ _ _ _ C I). cbn zeta. fold (addq m).
  change (set_lks (emit s (EQueue (l_id k) m)) _) with (enq s (l_id k) m). unfold write_cb. cbn [enq set_lks emit lines]. rewrite L, F.
  change (find_conn (enq s (l_id k) m) c) with (find_conn s c). pose proof (find_in _ _ _ _ _ C (g_da _ _ _ _ C _ _ _ _ L F)) as FC. cbn [c_id] in FC. rewrite FC.
  destruct (g_lk _ _ _ _ C k I) as (_ & _ & n' & L' & SG). rewrite L in L'. injection L' as <-. rewrite SG. cbn [negb].
  eexists. split; [reflexivity|]. rewrite write_all. fsg. cbn [enq set_lks emit lks lines conns out]. split; [easy|]. split; [easy|].
  assert (Q : forall r, (forall y, In y r -> In y (lks s)) -> NoDup (map l_id r) -> map (clr (l_line k) (l_ts k)) (rep l_id (l_id k) (addq m) r) = r /\
     sent (l_line k) (l_ts k) c (rep l_id (l_id k) (addq m) r) = if existsb (fun y => Nat.eqb (l_id y) (l_id k)) r then [send_msg k c m] else []).
  { pose proof (g_kn _ _ _ _ C) as NK. induction r as [|y r IH]; [easy|]. intros S N. cbn [map] in N. apply NoDup_cons_iff in N as [N1 N2].
    destruct IH as [I1 I2]; [intros; apply S; now right|easy|]. unfold rep, sent in *. cbn [map flat_map existsb]. rewrite I1, I2.
    assert (Iy : In y (lks s)) by (apply S; now left). destruct (Nat.eqb_spec (l_id y) (l_id k)) as [E|E].
    - assert (y = k) as -> by now apply (id_inj l_id (lks s)).
      assert (l_tx k = []) as TX by (destruct (T k n c I L F); [easy|discriminate]).
      unfold clr, here. cbn [addq l_line l_ts l_tx]. rewrite !Nat.eqb_refl, TX. cbn [andb app map orb]. split; [f_equal; rewrite <- TX; now destruct k|].
      change (send_msg (addq m k) c m) with (send_msg k c m).
      assert (existsb (fun y => Nat.eqb (l_id y) (l_id k)) r = false) as ->; [|easy].
      destruct (existsb (fun y => Nat.eqb (l_id y) (l_id k)) r) eqn:X; [|easy]. apply existsb_exists in X as (z & Z1 & Z2). apply Nat.eqb_eq in Z2.
      exfalso. apply N1. rewrite <- Z2. now apply in_map.
    - cbn [orb]. unfold clr. destruct (here (l_line k) (l_ts k) y) eqn:H; [|easy]. unfold here in H. apply andb_prop in H as [H1 H2].
      apply Nat.eqb_eq in H1, H2. assert (l_tx y = []) as TX. { destruct (T y n c Iy); [now rewrite H1|now rewrite H2|easy|discriminate]. }
      rewrite TX. cbn [map app]. split; [f_equal; rewrite <- TX; now destruct y|easy]. }
  destruct (Q (lks s)) as [-> ->]; [easy|apply (g_kn _ _ _ _ C)|]. split; [easy|].
  assert (existsb (fun y => Nat.eqb (l_id y) (l_id k)) (lks s) = true) as -> by (apply existsb_exists; exists k; now rewrite Nat.eqb_refl).
  rewrite <- app_assoc. reflexivity.
Qed.
Lemma send_later El Et D s k m n : Good El Et D s -> In k (lks s) -> lines s (l_line k) = Some n -> t_data (n_ts n (l_ts k)) = None ->
  link_send s (l_id k) m = Some (enq s (l_id k) m).
Proof.
  intros [C T] I L F. unfold link_send. rewrite (find_lk_in _ _ _ _ _ C I). cbn zeta. fold (addq m).
  change (set_lks (emit s (EQueue (l_id k) m)) _) with (enq s (l_id k) m). unfold write_cb. cbn [enq set_lks emit lines]. rewrite L, F. reflexivity.
Qed.
Lemma send_ok El Et D s id m : Good El Et D s -> exists s', link_send s id m = Some s' /\ Good El Et D s' /\ frame s s'.
Proof.
  intros G. destruct (find_lk s id) as [k|] eqn:F.
  2:{ exists s. unfold link_send. rewrite F. split; [easy|]. split; [easy|]. apply frame_refl. }
  apply (find_id_some l_id) in F as [I <-]. pose proof G as [C T]. destruct (g_lk _ _ _ _ C k I) as (_ & TT & n & L & SG).
  pose proof (core_enq El Et D s k m C I) as CE. pose proof (td_enq s k m (g_kn _ _ _ _ C) I T) as TE.
  assert (FE : frame s (enq s (l_id k) m)). { unfold frame, enq, set_lks, emit; fsg. split; [lia|]. split; [easy|]. eexists. split; [reflexivity|]. auto. }
  destruct (t_data (n_ts n (l_ts k))) as [c|] eqn:DT.
  - unfold link_send. rewrite (find_lk_in _ _ _ _ _ C I). cbn zeta. fold (addq m). change (set_lks (emit s (EQueue (l_id k) m)) _) with (enq s (l_id k) m).
    unfold write_cb. assert (lines (enq s (l_id k) m) = lines s) as -> by reflexivity. rewrite L, DT, SG.
    change (find_conn (enq s (l_id k) m) c) with (find_conn s c). pose proof (find_in _ _ _ _ _ C (g_da _ _ _ _ C _ _ _ _ L DT)) as FC. cbn [c_id] in FC. rewrite FC. cbn [negb].
    eexists. split; [reflexivity|]. split; [now apply core_write|]. eapply frame_trans; [exact FE|]. apply write_frame.
  - rewrite (send_later _ _ _ _ _ m _ G I L DT). eexists. split; [reflexivity|]. split; [|exact FE]. split; [easy|].
    intros x nn c J L' F'. destruct (TE x nn c J L' F') as [|E]; [now left|]. injection E as E1 E2. rewrite <- E1 in L'. cbn [enq set_lks emit lines] in L'. rewrite L in L'. injection L' as <-.
    rewrite <- E2, DT in F'. discriminate.
Qed.

Lemma core_unlink El Et D s k : Core El Et D s -> In k (lks s) ->
  Core (bump El (l_line k)) Et D (set_lks s (rm l_id (l_id k) (lks s))).
Proof.
  intros [G] I. unfold set_lks. constructor; fsg; try assumption.
  - now apply nodup_rm.
  - intros x J. apply in_rm in J as [J _]. now apply g_kf0.
  - intros l n L. destruct (g_us0 l n L) as (U1 & U2 & U3 & U4). split; [easy|]. split; [|easy]. rewrite cnt_rm by easy. unfold onl at 2, bump.
    rewrite (Nat.eqb_sym l). lia.
  - intros x J. apply in_rm in J as [J _]. now apply g_lk0.
  - intros l. destruct (g_ex0 l) as (A1 & A2 & A3). unfold bump. pose proof (b2_nn (Nat.eqb l (l_line k))). repeat split; try lia. intros P.
    destruct (Nat.eqb_spec l (l_line k)) as [->|]; [destruct (g_lk0 k I) as (_ & _ & n & -> & _); easy|]. apply A3. cbn [b2] in P. lia.
  - intros x J. apply in_rm in J as [J _]. now apply g_tx0.
Qed.
Lemma sign_destroy_ok down El Et D s id : downok down -> Good El Et D s ->
  exists s', sign_link_destroy down s id = Some s' /\ Good El Et D s' /\ frame s s'.
Proof.
  intros OK G. unfold sign_link_destroy. destruct (find_lk s id) as [k|] eqn:F.
  2:{ exists s. split; [easy|]. split; [easy|]. apply frame_refl. }
  apply (find_id_some l_id) in F as [I <-]. pose proof G as [C T]. cbn zeta. fold (rm l_id (l_id k) (lks s)).
  set (s1 := set_lks s _).
  assert (G1 : Good (bump El (l_line k)) Et D s1).
  { split; [now apply core_unlink|]. intros x n c J L' F'. subst s1. cbn [set_lks lks] in J. apply in_rm in J as [J _]. now apply (T x n c). }
  assert (F1 : frame s s1). { unfold frame, s1, set_lks; fsg. split; [lia|]. split; [easy|]. exists []. rewrite app_nil_r. auto. }
  assert (exists s2, ipaccess_close down s1 (l_line k) (l_ts k) = Some s2 /\ Good (bump El (l_line k)) Et D s2 /\ frame s1 s2) as (s2 & S2 & G2 & F2).
  { unfold ipaccess_close. destruct (g_lk _ _ _ _ C k I) as (_ & _ & n & L & _). assert (lines s1 = lines s) as -> by reflexivity. rewrite L.
    assert (kas s1 = kas s) as -> by reflexivity.
    assert ((match t_ka (n_ts n (l_ts k)) with Some k0 => do _c <- kas s k0; Some tt | None => Some tt end) = Some tt) as ->.
    { destruct (t_ka (n_ts n (l_ts k))) as [k0|] eqn:K0; [|easy]. destruct (g_ka _ _ _ _ C _ _ _ _ L K0) as (c & -> & _). easy. }
    destruct (t_data (n_ts n (l_ts k))) as [c|] eqn:DT.
    - destruct (destroy_ok down _ _ _ s1 c (l_line k) (l_ts k) OK G1) as (s2 & S2 & G2 & F2 & _); [apply (g_da _ _ _ _ C _ _ _ _ L DT)|]. eauto.
    - exists s1. split; [easy|]. split; [easy|]. apply frame_refl. }
  rewrite S2. destruct (put_lnk _ _ _ _ _ G2) as (s3 & S3 & G3 & F3); [apply (g_ex _ _ _ _ C)|]. exists s3. split; [easy|]. split; [easy|].
  eapply frame_trans; [exact F1|]. eapply frame_trans; eauto.
Qed.

Lemma config_ok El Et D s l t : Good El Et D s -> Good El Et D (config_sign s l t) /\ frame s (config_sign s l t).
Proof.
  intros G. pose proof G as [C T]. unfold config_sign. destruct (lines s l) as [n|] eqn:L; [|split; [easy|apply frame_refl]].
  destruct (Nat.ltb t NUM_E1_TS && negb (Nat.eqb l 0)); [|split; [easy|apply frame_refl]]. cbn zeta.
  set (n' := set_ts n t _). split.
  - assert (TS : forall u, t_data (n_ts n' u) = t_data (n_ts n u) /\ t_ka (n_ts n' u) = t_ka (n_ts n u) /\ (t_sign (n_ts n u) = true -> t_sign (n_ts n' u) = true)).
    { intros u. unfold n', set_ts, upd; fsg. destruct (Nat.eqb_spec u t) as [->|]; easy. }
    destruct C as [G1]. unfold set_line. split.
    + constructor; fsg; try assumption.
      * intros x l' u I A. destruct (g_at0 x l' u I A) as (B1 & m & B2 & B3). split; [easy|]. ul; [|eauto].
        exists n'. split; [easy|]. rewrite L in B2. injection B2 as <-. now rewrite (proj1 (TS u)).
      * intros l' m u c. ul; [|now apply g_da0]. intros E F. injection E as <-. rewrite (proj1 (TS u)) in F. eapply g_da0; eauto.
      * intros l' m. ul; [|now apply g_us0]. intros E. injection E as <-. exact (g_us0 _ n L).
      * intros k I. destruct (g_lk0 k I) as (A & A' & m & A2 & A3). split; [easy|]. split; [easy|]. ul; [|eauto].
        exists n'. split; [easy|]. rewrite L in A2. injection A2 as <-. now apply TS.
      * intros l'. destruct (g_ex0 l') as (A & A' & B). repeat split; try easy. intros P. ul; [easy|now apply B].
      * intros l' m u k. ul; [|now apply g_ka0]. intros E F. injection E as <-. destruct (TS u) as (-> & E2 & _). rewrite E2 in F. eapply g_ka0; eauto.
      * intros k c E. destruct (g_ko0 k c E) as (l' & m & u & A & F). destruct (Nat.eq_dec l' l) as [->|N].
        -- exists l, n', u. unfold upd. rewrite Nat.eqb_refl. split; [easy|]. rewrite L in A. injection A as <-. destruct (TS u) as (_ & -> & _). easy.
        -- exists l', m, u. ul; easy.
      * intros l'. ul; intros A; [|now apply g_lf0]. apply g_lf0. congruence.
      * intros l'. ul; intros A; [|now apply g_fl0]. apply g_fl0. congruence.
    + intros k m c I A B. fs. ul; [|now apply (T k m c)]. injection A as <-. rewrite (proj1 (TS _)) in B. now apply (T k n c).
  - unfold frame, set_line; fsg. split; [lia|]. split; [easy|]. exists []. rewrite app_nil_r. auto.
Qed.

Lemma create_ok El Et D s l t ty tei sapi : Good El Et D s -> exists s', link_create s l t ty tei sapi = Some s' /\ Good El Et D s' /\ frame s s'.
Proof.
  intros G. pose proof G as [C T]. unfold link_create. destruct (lines s l) as [n|] eqn:L; [|exists s; split; [easy|split; [easy|apply frame_refl]]].
  destruct (Nat.ltb t NUM_E1_TS && t_sign (n_ts n t) && negb (Nat.eqb l 0)) eqn:B; [|exists s; split; [easy|split; [easy|apply frame_refl]]].
  apply andb_prop in B as [B B3]. apply andb_prop in B as [B1 B2]. apply Nat.ltb_lt in B1. apply negb_true_iff, Nat.eqb_neq in B3.
  unfold line_get. rewrite L. eexists. split; [reflexivity|]. unfold fresh, set_lks, set_line, use_add; fsg. split.
  - destruct C as [G1]. split.
    + constructor; fsg; try assumption.
      * intros x I. specialize (g_cf0 x I). lia.
      * rewrite map_app. apply nodup_snoc; [easy|]. cbn [map l_id]. intros J. apply in_map_iff in J as (k & E & J). apply g_kf0 in J. lia.
      * intros k J. apply in_snoc in J as [J|J]; [specialize (g_kf0 k J); lia|subst k; cbn [l_id]; lia].
      * intros x l' u I A. destruct (g_at0 x l' u I A) as (P1 & m & P2 & P3). split; [easy|]. ul; [|eauto]. eexists. split; [reflexivity|]. fsg. congruence.
      * intros l' m u c. ul; [|now apply g_da0]. intros E F. injection E as <-. fs. eapply g_da0; eauto.
      * intros l' m. rewrite cnt_app. cbn [cnt]. unfold onl at 2. cbn [l_line]. unfold upd. rewrite (Nat.eqb_sym l). destruct (Nat.eqb_spec l' l) as [->|N]; cbn [b2].
        -- intros E. injection E as <-. fsg. destruct (g_us0 l n L) as (U1 & U2 & U3 & U4). repeat split; lia.
        -- intros E. destruct (g_us0 l' m E) as (U1 & U2 & U3 & U4). repeat split; lia || easy.
      * intros k J. apply in_snoc in J as [J|J].
        -- destruct (g_lk0 k J) as (A & A' & m & A2 & A3). split; [easy|]. split; [easy|]. ul; [|eauto]. eexists. split; [reflexivity|]. fsg. congruence.
        -- subst k. cbn [l_line l_ts]. split; [easy|]. split; [easy|]. unfold upd. rewrite Nat.eqb_refl. eexists. split; [reflexivity|]. easy.
      * intros l'. destruct (g_ex0 l') as (A & A' & B). repeat split; try easy. intros P. ul; [easy|now apply B].
      * intros l' m u k. ul; [|now apply g_ka0]. intros E F. injection E as <-. fs. eapply g_ka0; eauto.
      * intros k c E. destruct (g_ko0 k c E) as (l' & m & u & A & F). destruct (Nat.eq_dec l' l) as [->|N].
        -- eexists l, _, u. unfold upd. rewrite Nat.eqb_refl. split; [reflexivity|]. fsg. congruence.
        -- exists l', m, u. ul; easy.
      * intros l'. unfold upd. destruct (Nat.eqb_spec l' l) as [->|N]; intros A; [|specialize (g_lf0 l' A); lia]. assert (l < nxt s)%nat; [apply g_lf0; congruence|lia].
      * intros k A. specialize (g_kx0 k A). lia.
      * intros c A. specialize (g_cx0 c A). lia.
      * intros l'. ul; intros A; [|now apply g_fl0]. apply g_fl0. congruence.
      * intros c A. specialize (g_fx0 c A). lia.
      * intros k J. apply in_snoc in J as [J|J]; [now apply g_tx0|]. subst k. cbn [l_id l_tx map]. destruct (g_qx0 (nxt s)) as [-> ->]; easy.
      * intros i A. apply g_qx0. lia.
    + intros k m c J A B. fs. apply in_snoc in J as [J|J]; [|subst k; now left]. revert A. ul; intros A.
      * injection A as <-. fs. now apply (T k n c).
      * now apply (T k m c).
  - unfold frame; fsg. split; [lia|]. split; [easy|]. exists []. rewrite app_nil_r. auto.
Qed.

(** ** The application *)
Fixpoint ucmd_ind' (P : ucmd -> Prop)
  (H1 : forall l t, P (UConfig l t)) (H2 : forall l t ty tei sapi, P (UCreate l t ty tei sapi)) (H3 : forall k m, P (USend k m))
  (H4 : forall k d, Forall P d -> P (UDestroy k d)) (c : ucmd) : P c :=
  match c with
  | UConfig l t => H1 l t | UCreate l t ty tei sapi => H2 l t ty tei sapi | USend k m => H3 k m
  | UDestroy k d => H4 k d ((fix go l : Forall P l := match l with [] => Forall_nil P | x :: r => Forall_cons x (ucmd_ind' P H1 H2 H3 H4 x) (go r) end) d)
  end.
Lemma execs_of cs : Forall (fun c => downok (exec c)) cs -> downok (execs cs).
Proof.
  induction cs as [|c r IH]; intros F El Et D s G.
  - exists s. split; [easy|]. split; [easy|]. apply frame_refl.
  - apply Forall_cons_iff in F as [F1 F2]. cbn [execs]. destruct (F1 El Et D s G) as (s1 & -> & G1 & R1).
    destruct (IH F2 El Et D s1 G1) as (s2 & -> & G2 & R2). exists s2. split; [easy|]. split; [easy|]. now apply (frame_trans s s1).
Qed.
Lemma exec_ok c : downok (exec c).
Proof.
  induction c as [l t|l t ty tei sapi|k m|k d IH] using ucmd_ind'; intros El Et D s G.
  - cbn [exec]. destruct (config_ok El Et D s l t G). eauto.
  - now apply create_ok.
  - now apply send_ok.
  - cbn [exec]. apply sign_destroy_ok; [|easy]. now apply execs_of.
Qed.
Lemma execs_ok cs : downok (execs cs).
Proof. apply execs_of. apply Forall_forall. intros c _. apply exec_ok. Qed.

(** ** Attaching a connection to its final timeslot *)
Lemma core_pw El Et D s s' : Core El Et D s -> (forall i, lines s' i = lines s i) -> conns s' = conns s -> (forall k, kas s' k = kas s k) ->
  lks s' = lks s -> nxt s' = nxt s -> out s' = out s -> Core El Et D s'.
Proof.
  intros [G] HL HC HK HLK HN HO. constructor; rewrite ?HC, ?HLK, ?HN, ?HO; try assumption.
  - intros x l t I A. rewrite HL. eauto.
  - intros l n t c. rewrite HL. eauto.
  - intros l n. rewrite HL. eauto.
  - intros k I. rewrite HL. eauto.
  - intros l. rewrite HL. eauto.
  - intros l n t k. rewrite HL, HK. eauto.
  - intros k c. rewrite HK. intros E. destruct (g_ko0 k c E) as (l & n & t & A & B). exists l, n, t. now rewrite HL.
  - intros l. rewrite HL. eauto.
  - intros k. rewrite HK. eauto.
  - intros l. rewrite HL. eauto.
Qed.
Lemma td_pw ex s s' : Td ex s -> (forall i, lines s' i = lines s i) -> lks s' = lks s -> Td ex s'.
Proof. intros T HL HK k n c. rewrite HL, HK. apply T. Qed.

Lemma core_move El Et D s c l t n nl nt nn s' n' nn' p q :
  Core El Et D s -> In (mkC c (Some (l, t))) (conns s) -> lines s l = Some n -> lines s nl = Some nn -> nl <> l -> (nt < NUM_E1_TS)%nat ->
  t_data (n_ts nn nt) = None -> t_ka (n_ts n t) = None ->
  (forall i, lines s' i = if Nat.eqb i l then Some n' else if Nat.eqb i nl then Some nn' else lines s i) ->
  (forall u, n_ts n' u = if Nat.eqb u t then mkT None p None (t_sign (n_ts n t)) else n_ts n u) ->
  (forall u, n_ts nn' u = if Nat.eqb u nt then mkT (Some c) q None (t_sign (n_ts nn nt)) else n_ts nn u) ->
  n_bfd n' = n_bfd n - 1 -> n_lnk n' = n_lnk n -> n_tmp n' = n_tmp n + 1 ->
  n_bfd nn' = n_bfd nn + 1 -> n_lnk nn' = n_lnk nn -> n_tmp nn' = n_tmp nn ->
  conns s' = rep c_id c (fun x => mkC (c_id x) (Some (nl, nt))) (conns s) ->
  kas s' = kas s -> lks s' = lks s -> nxt s' = nxt s -> out s' = out s ->
  Core El (bump Et l) D s'.
Proof.
  intros C I L LN NL TT DN KN HL HT HT' B1 B2 B3 B4 B5 B6 HC HK HLK HN HO. pose proof C as [G].
  destruct (g_us0 l n L) as (U1 & U2 & U3 & U4). destruct (g_us0 nl nn LN) as (V1 & V2 & V3 & V4).
  assert (DA : t_data (n_ts n t) = Some c).
  { destruct (g_at0 _ l t I eq_refl) as (_ & m & E & F). rewrite L in E. now injection E as ->. }
  assert (KNN : t_ka (n_ts nn nt) = None).
  { destruct (t_ka (n_ts nn nt)) as [k|] eqn:E; [|easy]. destruct (g_ka0 nl nn nt k LN E) as (d & _ & F). congruence. }
  assert (Lnl : lines s' nl = Some nn').
  { rewrite HL. apply Nat.eqb_neq in NL. now rewrite NL, Nat.eqb_refl. }
  assert (Ll : lines s' l = Some n') by now rewrite HL, Nat.eqb_refl.
  assert (Lo : forall i, i <> l -> i <> nl -> lines s' i = lines s i).
  { intros i N1 N2. rewrite HL. apply Nat.eqb_neq in N1, N2. now rewrite N1, N2. }
  assert (KA : forall u, t_ka (n_ts n' u) = t_ka (n_ts n u) /\ t_ka (n_ts nn' u) = t_ka (n_ts nn u) /\
     t_sign (n_ts n' u) = t_sign (n_ts n u) /\ t_sign (n_ts nn' u) = t_sign (n_ts nn u)).
  { intros u. rewrite HT, HT'. destruct (Nat.eqb_spec u t), (Nat.eqb_spec u nt); subst; cbn [t_ka t_sign]; auto. }
  (* lines of s' against lines of s *)
  assert (LL : forall i, exists b, (lines s i = None /\ lines s' i = None /\ b = false) \/ exists m m', b = true /\ lines s i = Some m /\ lines s' i = Some m' /\
     (forall u, t_ka (n_ts m' u) = t_ka (n_ts m u) /\ t_sign (n_ts m' u) = t_sign (n_ts m u)) /\
     (forall u, t_data (n_ts m' u) = if Nat.eqb i l && Nat.eqb u t then None else if Nat.eqb i nl && Nat.eqb u nt then Some c else t_data (n_ts m u))).
  { intros i. destruct (Nat.eq_dec i l) as [->|N1]; [|destruct (Nat.eq_dec i nl) as [->|N2]].
    - exists true. right. exists n, n'. repeat split; try easy; try apply KA. intros u. rewrite Nat.eqb_refl, HT. apply not_eq_sym, Nat.eqb_neq in NL. rewrite NL.
      cbn [andb]. now destruct (Nat.eqb u t).
    - exists true. right. exists nn, nn'. repeat split; try easy; try apply KA. intros u. rewrite Nat.eqb_refl, HT'. apply Nat.eqb_neq in NL. rewrite NL.
      cbn [andb]. now destruct (Nat.eqb u nt).
    - rewrite Lo by easy. apply Nat.eqb_neq in N1, N2. rewrite N1, N2. destruct (lines s i) as [m|] eqn:M; [|exists false; left; easy].
      exists true. right. exists m, m. repeat split; easy. }
  assert (CN : forall l', cnt (atl l') (rep c_id c (fun x => mkC (c_id x) (Some (nl, nt))) (conns s)) = cnt (atl l') (conns s) - b2 (Nat.eqb l l') + b2 (Nat.eqb nl l')).
  { intros l'. change c with (c_id (mkC c (Some (l, t)))) at 1. rewrite cnt_rep by easy. reflexivity. }
  constructor; rewrite ?HLK, ?HN, ?HO; try assumption.
  - rewrite HC, rep_ids by easy. easy.
  - intros x J. rewrite HC in J. apply in_rep in J as (y & J & ->). destruct (Nat.eqb (c_id y) c); cbn [c_id]; now apply g_cf0.
  - intros x l' u J A. rewrite HC in J. apply in_rep in J as (y & J & ->).
    destruct (Nat.eqb_spec (c_id y) c) as [E|E].
    + cbn [c_at] in A. injection A as <- <-. split; [easy|]. exists nn'. split; [easy|]. rewrite HT', Nat.eqb_refl. cbn [t_data c_id]. now rewrite E.
    + destruct (g_at0 y l' u J A) as (P & m & M & Q). split; [easy|]. destruct (LL l') as (b & [(Z & _)|(m0 & m1 & _ & M0 & M1 & _ & HD)]); [congruence|].
      exists m1. split; [easy|]. rewrite HD. rewrite M in M0. injection M0 as <-.
      destruct (Nat.eqb_spec l' l) as [->|], (Nat.eqb_spec u t) as [->|]; cbn [andb].
      * exfalso. rewrite L in M. injection M as <-. congruence.
      * destruct (Nat.eqb_spec l nl); [congruence|easy].
      * destruct (Nat.eqb_spec l' nl) as [->|]; [|easy]. destruct (Nat.eqb_spec t nt) as [->|]; [|easy]. rewrite LN in M. injection M as <-. congruence.
      * destruct (Nat.eqb_spec l' nl) as [->|]; [|easy]. destruct (Nat.eqb_spec u nt) as [->|]; [|easy]. rewrite LN in M. injection M as <-. congruence.
  - intros l' m u d M F. rewrite HC. destruct (LL l') as (b & [(_ & Z & _)|(m0 & m1 & _ & M0 & M1 & _ & HD)]); [congruence|].
    rewrite M in M1. injection M1 as <-. rewrite HD in F.
    destruct (Nat.eqb l' l && Nat.eqb u t) eqn:X; [discriminate|]. destruct (Nat.eqb l' nl && Nat.eqb u nt) eqn:Y.
    + apply andb_prop in Y as [Y1 Y2]. apply Nat.eqb_eq in Y1, Y2. subst. injection F as <-.
      exact (in_rep_same c_id (fun x => mkC (c_id x) (Some (nl, nt))) (conns s) _ I).
    + pose proof (g_da0 l' m0 u d M0 F) as J. apply in_rep_other; [easy|]. cbn [c_id]. intros ->.
      destruct (c_at_in _ _ _ _ _ _ _ _ _ C I J) as [<- <-]. rewrite !Nat.eqb_refl in X. discriminate.
  - intros x J A. rewrite HC in J. apply in_rep in J as (y & J & ->). destruct (Nat.eqb_spec (c_id y) c) as [E|E]; [discriminate|now apply g_de0].
  - intros l' m M. rewrite HC, CN. destruct (Nat.eq_dec l' l) as [->|N1]; [|destruct (Nat.eq_dec l' nl) as [->|N2]].
    + rewrite Ll in M. injection M as <-. unfold bump. rewrite Nat.eqb_refl. apply Nat.eqb_neq in NL. rewrite NL. cbn [b2]. repeat split; lia.
    + rewrite Lnl in M. injection M as <-. unfold bump. rewrite Nat.eqb_refl, (Nat.eqb_sym l nl). apply Nat.eqb_neq in NL. rewrite NL. cbn [b2]. repeat split; lia.
    + rewrite Lo in M by easy. unfold bump. rewrite (Nat.eqb_sym l l'), (Nat.eqb_sym nl l'). apply Nat.eqb_neq in N1, N2. rewrite N1, N2. cbn [b2].
      destruct (g_us0 l' m M) as (W1 & W2 & W3 & W4). repeat split; lia.
  - intros k J. destruct (g_lk0 k J) as (A & A' & m & A2 & A3). split; [easy|]. split; [easy|].
    destruct (LL (l_line k)) as (b & [(Z & _)|(m0 & m1 & _ & M0 & M1 & HS & _)]); [congruence|]. exists m1. split; [easy|].
    rewrite (proj2 (HS _)). congruence.
  - intros l'. destruct (g_ex0 l') as (A1 & A2 & A3). unfold bump. pose proof (b2_nn (Nat.eqb l' l)). repeat split; try lia.
    destruct (LL l') as (b & [(Z & Z' & _)|(m0 & m1 & _ & M0 & M1 & HS & _)]); [|intros _; congruence]. intros P. exfalso.
    destruct (Nat.eqb_spec l' l) as [->|]; [congruence|]. cbn [b2] in P. apply A3; [lia|easy].
  - intros l' m u k M F. destruct (LL l') as (b & [(_ & Z & _)|(m0 & m1 & _ & M0 & M1 & HS & HD)]); [congruence|].
    rewrite M in M1. injection M1 as <-. rewrite (proj1 (HS u)) in F. destruct (g_ka0 l' m0 u k M0 F) as (d & Kd & Dd).
    exists d. rewrite HK. split; [easy|]. rewrite HD.
    destruct (Nat.eqb l' l && Nat.eqb u t) eqn:X.
    { apply andb_prop in X as [X1 X2]. apply Nat.eqb_eq in X1, X2. subst. congruence. }
    destruct (Nat.eqb l' nl && Nat.eqb u nt) eqn:Y; [|easy].
    apply andb_prop in Y as [Y1 Y2]. apply Nat.eqb_eq in Y1, Y2. subst. congruence.
  - intros k d. rewrite HK. intros E. destruct (g_ko0 k d E) as (l' & m & u & M & F).
    destruct (LL l') as (b & [(Z & _)|(m0 & m1 & _ & M0 & M1 & HS & _)]); [congruence|]. exists l', m1, u. split; [easy|]. rewrite (proj1 (HS u)). congruence.
  - intros l' A. apply g_lf0. destruct (LL l') as (b & [(Z & Z' & _)|(m0 & m1 & _ & M0 & _)]); congruence.
  - intros k. rewrite HK. apply g_kx0.
  - intros x J A Q. rewrite HC in J. apply in_rep in J as (y & J & ->). destruct (Nat.eqb_spec (c_id y) c) as [E|E]; [|now apply (g_cl0 y)].
    cbn [c_id] in Q. rewrite E in Q. now apply (g_cl0 _ I).
  - intros l' A. apply g_fl0. destruct (LL l') as (b & [(Z & Z' & _)|(m0 & m1 & _ & M0 & _)]); congruence.
Qed.

(** the keepalive machine of a timeslot with connection [c] is replaced *)
Lemma core_ka El Et D s l t n s' n' kk :
  Core El Et D s -> lines s l = Some n ->
  (forall i, lines s' i = if Nat.eqb i l then Some n' else lines s i) ->
  (forall u, n_ts n' u = if Nat.eqb u t then mkT (t_data (n_ts n t)) (t_priv (n_ts n t)) kk (t_sign (n_ts n t)) else n_ts n u) ->
  n_bfd n' = n_bfd n -> n_lnk n' = n_lnk n -> n_tmp n' = n_tmp n -> conns s' = conns s -> lks s' = lks s -> (nxt s <= nxt s')%nat -> out s' = out s ->
  (match kk with
   | Some k => k = nxt s /\ (k < nxt s')%nat /\ t_ka (n_ts n t) = None /\ exists c, t_data (n_ts n t) = Some c /\ forall i, kas s' i = if Nat.eqb i k then Some c else kas s i
   | None => forall i, kas s' i = match t_ka (n_ts n t) with Some k0 => if Nat.eqb i k0 then None else kas s i | None => kas s i end end) ->
  Core El Et D s'.
Proof.
  intros C L HL HT B1 B2 B3 HC HLK HN HO HK. pose proof C as [G].
  assert (KU : forall l1 n1 t1 l2 n2 t2 k, lines s l1 = Some n1 -> lines s l2 = Some n2 -> t_ka (n_ts n1 t1) = Some k -> t_ka (n_ts n2 t2) = Some k -> l1 = l2 /\ t1 = t2).
  { intros l1 n1 t1 l2 n2 t2 k L1 L2 K1 K2. destruct (g_ka0 _ _ _ _ L1 K1) as (c1 & E1 & F1). destruct (g_ka0 _ _ _ _ L2 K2) as (c2 & E2 & F2).
    assert (c2 = c1) as -> by congruence. exact (c_at_in _ _ _ _ _ _ _ _ _ C (g_da0 _ _ _ _ L1 F1) (g_da0 _ _ _ _ L2 F2)). }
  assert (KF : forall i, kas s i <> None -> (i < nxt s)%nat) by exact g_kx0.
  constructor; rewrite ?HC, ?HLK, ?HO; try assumption.
  - intros x J. specialize (g_cf0 x J). lia.
  - intros x J. specialize (g_kf0 x J). lia.
  - intros x l' u J A. destruct (g_at0 x l' u J A) as (P & m & M & Q). split; [easy|].
    rewrite HL. destruct (Nat.eqb_spec l' l) as [->|]; [|eauto]. exists n'. split; [easy|]. rewrite HT. rewrite L in M. injection M as <-.
    destruct (Nat.eqb_spec u t) as [->|]; easy.
  - intros l' m u d. rewrite HL. destruct (Nat.eqb_spec l' l) as [->|N]; [|apply g_da0]. intros E. injection E as <-. rewrite HT.
    destruct (Nat.eqb_spec u t) as [->|]; cbn [t_data]; intros F; eapply g_da0; eauto.
  - intros l' m. rewrite HL. destruct (Nat.eqb_spec l' l) as [->|N]; [|apply g_us0]. intros E. injection E as <-. rewrite B1, B2, B3. now apply g_us0.
  - intros k J. destruct (g_lk0 k J) as (A & A' & m & A2 & A3). split; [easy|]. split; [easy|]. rewrite HL.
    destruct (Nat.eqb_spec (l_line k) l) as [E|]; [|eauto]. exists n'. split; [easy|]. rewrite HT.
    rewrite E, L in A2. injection A2 as <-. destruct (Nat.eqb_spec (l_ts k) t) as [F|]; [|easy]. cbn [t_sign]. now rewrite <- F.
  - intros l'. destruct (g_ex0 l') as (A1 & A2 & A3). repeat split; try easy. intros P. rewrite HL. destruct (Nat.eqb_spec l' l); [easy|now apply A3].
  - intros l' m u k. rewrite HL. destruct (Nat.eqb_spec l' l) as [->|N].
    + intros E. injection E as <-. rewrite HT. destruct (Nat.eqb_spec u t) as [->|N]; cbn [t_ka t_data].
      * intros ->. destruct HK as (_ & _ & _ & c & Dc & HK). exists c. now rewrite HK, Nat.eqb_refl.
      * intros F. destruct (g_ka0 l n u k L F) as (d & Kd & Dd). exists d. split; [|easy]. destruct kk as [k1|].
        -- destruct HK as (-> & _ & _ & c & Dc & HK). rewrite HK. destruct (Nat.eqb_spec k (nxt s)) as [->|]; [|easy]. specialize (g_kx0 (nxt s)).
           rewrite Kd in g_kx0. specialize (g_kx0 ltac:(easy)). lia.
        -- rewrite HK. destruct (t_ka (n_ts n t)) as [k0|] eqn:K0; [|easy]. destruct (Nat.eqb_spec k k0) as [->|]; [|easy]. exfalso.
           destruct (KU _ _ _ _ _ _ _ L L F K0). contradiction.
    + intros M F. destruct (g_ka0 l' m u k M F) as (d & Kd & Dd). exists d. split; [|easy]. destruct kk as [k1|].
      * destruct HK as (-> & _ & _ & c & Dc & HK). rewrite HK. destruct (Nat.eqb_spec k (nxt s)) as [->|]; [|easy]. specialize (g_kx0 (nxt s)).
        rewrite Kd in g_kx0. specialize (g_kx0 ltac:(easy)). lia.
      * rewrite HK. destruct (t_ka (n_ts n t)) as [k0|] eqn:K0; [|easy]. destruct (Nat.eqb_spec k k0) as [->|]; [|easy]. exfalso.
        destruct (KU _ _ _ _ _ _ _ M L F K0). contradiction.
  - intros k d E.
    assert ((kk = Some k) \/ (kas s k = Some d /\ (t_ka (n_ts n t) <> Some k \/ False))) as [->|[E' NE]].
    { destruct kk as [k1|].
      - destruct HK as (Q & _ & K0 & c & Dc & HK). rewrite HK in E. destruct (Nat.eqb_spec k k1) as [->|]; [now left|]. right. split; [easy|]. left. congruence.
      - rewrite HK in E. right. destruct (t_ka (n_ts n t)) as [k0|]; [|split; [easy|left; easy]]. destruct (Nat.eqb_spec k k0); [discriminate|]. split; [easy|left; congruence]. }
    + exists l, n', t. rewrite HL, HT, !Nat.eqb_refl. easy.
    + destruct NE as [NE|[]]. destruct (g_ko0 k d E') as (l' & m & u & M & F). destruct (Nat.eq_dec l' l) as [->|N].
      * exists l, n', u. rewrite HL, Nat.eqb_refl, HT. split; [easy|]. rewrite L in M. injection M as <-.
        destruct (Nat.eqb_spec u t) as [->|]; [contradiction|easy].
      * exists l', m, u. rewrite HL. destruct (Nat.eqb_spec l' l); easy.
  - intros l'. rewrite HL. destruct (Nat.eqb_spec l' l) as [->|]; intros A.
    + assert (l < nxt s)%nat; [apply g_lf0; congruence|lia].
    + specialize (g_lf0 l' A). lia.
  - intros k A. destruct kk as [k1|].
    + destruct HK as (Q & Q' & _ & c & Dc & HK). rewrite HK in A. destruct (Nat.eqb_spec k k1) as [E|E]; [lia|]. specialize (g_kx0 k A). lia.
    + rewrite HK in A. assert (k < nxt s)%nat; [|lia]. apply g_kx0. destruct (t_ka (n_ts n t)) as [k0|]; [|easy]. destruct (Nat.eqb k k0); easy.
  - intros c A. specialize (g_cx0 c A). lia.
  - intros l'. rewrite HL. destruct (Nat.eqb_spec l' l) as [->|]; [|apply g_fl0]. intros _. apply g_fl0. congruence.
  - intros c A. specialize (g_fx0 c A). lia.
  - intros i A. apply g_qx0. lia.
Qed.
Lemma td_ka ex s s' l n n' : Td ex s -> lines s l = Some n -> (forall i, lines s' i = if Nat.eqb i l then Some n' else lines s i) ->
  (forall u, t_data (n_ts n' u) = t_data (n_ts n u)) -> lks s' = lks s -> Td ex s'.
Proof.
  intros T L HL HT HK k m c J A B. rewrite HK in J. rewrite HL in A. destruct (Nat.eqb_spec (l_line k) l) as [E|].
  - injection A as <-. rewrite HT in B. apply (T k n c); congruence.
  - now apply (T k m c).
Qed.
Lemma ka_alloc_ok El Et D ex s l t n c : Core El Et D s -> Td ex s -> lines s l = Some n -> t_data (n_ts n t) = Some c ->
  exists s', ka_alloc s l t c = Some s' /\ Core El Et D s' /\ Td ex s' /\ frame s s' /\ conns s' = conns s /\ lks s' = lks s /\
  (forall i, i <> l -> lines s' i = lines s i) /\
  exists n', lines s' l = Some n' /\ (forall u, t_data (n_ts n' u) = t_data (n_ts n u) /\ t_sign (n_ts n' u) = t_sign (n_ts n u) /\ t_priv (n_ts n' u) = t_priv (n_ts n u)) /\
  (if kap s then exists k, t_ka (n_ts n' t) = Some k /\ kas s' k = Some c /\ out s' = out s ++ term_of (t_ka (n_ts n t)) ++ [EKaStart k c]
   else t_ka (n_ts n' t) = None /\ out s' = out s ++ term_of (t_ka (n_ts n t))).
Proof.
  intros C T L DT. unfold ka_alloc.
  assert (exists s1 n1, ka_cleanup s l t = Some s1 /\ Core El Et D s1 /\ Td ex s1 /\ kap s1 = kap s /\ nxt s1 = nxt s /\ conns s1 = conns s /\ lks s1 = lks s /\
     out s1 = out s ++ term_of (t_ka (n_ts n t)) /\ (forall i, lines s1 i = if Nat.eqb i l then Some n1 else lines s i) /\
     (forall u, n_ts n1 u = if Nat.eqb u t then mkT (t_data (n_ts n t)) (t_priv (n_ts n t)) None (t_sign (n_ts n t)) else n_ts n u)) as
     (s1 & n1 & -> & C1 & T1 & P1 & N1 & Q1 & K1 & O1 & L1 & TS1).
  { unfold ka_cleanup. rewrite L. destruct (t_ka (n_ts n t)) as [k|] eqn:TK.
    - destruct (g_ka _ _ _ _ C l n t k L TK) as (d & -> & _). eexists _, _. split; [reflexivity|].
      unfold set_line, set_kas; fsg. split; [|split].
      + apply core_emit; [easy|]. eapply (core_ka El Et D s l t n _ _ None C L); fsg; try reflexivity; try lia. intros i. rewrite TK. reflexivity.
      + eapply (td_ka ex s _ l n _ T L); unfold emit; fsg; try reflexivity. intros u. unfold set_ts, upd; fsg. destruct (Nat.eqb_spec u t) as [->|]; reflexivity.
      + repeat split; reflexivity.
    - exists s, n. split; [reflexivity|]. split; [easy|]. split; [easy|]. repeat split; try easy.
      + cbn [term_of]. now rewrite app_nil_r.
      + intros i. destruct (Nat.eqb_spec i l) as [->|]; easy.
      + intros u. destruct (Nat.eqb_spec u t) as [->|]; [|easy]. rewrite <- TK. now destruct (n_ts n t). }
  assert (L1' : lines s1 l = Some n1) by now rewrite L1, Nat.eqb_refl.
  assert (TT1 : n_ts n1 t = mkT (t_data (n_ts n t)) (t_priv (n_ts n t)) None (t_sign (n_ts n t))) by now rewrite TS1, Nat.eqb_refl.
  rewrite P1. destruct (kap s) eqn:KP.
  - rewrite L1'. cbn zeta. eexists. split; [reflexivity|]. unfold fresh, emit, set_line, set_kas; fsg. split; [|split; [|split; [|split; [|split; [|split]]]]].
    + apply (core_emit El Et D (mkSt (upd (lines s1) l _) (conns s1) (upd (kas s1) (nxt s1) (Some c)) (lks s1) (kap s1) (S (nxt s1)) (out s1)) (EKaStart (nxt s1) c)); [easy|].
      eapply (core_ka El Et D s1 l t n1 _ _ (Some (nxt s1)) C1 L1'); fsg; try reflexivity; try lia. split; [easy|]. split; [lia|]. rewrite TT1. split; [easy|]. exists c. split; [easy|]. reflexivity.
    + eapply (td_ka ex s1 _ l n1 _ T1 L1'); fsg; try reflexivity. intros u. unfold set_ts, upd; fsg. destruct (Nat.eqb_spec u t) as [->|]; reflexivity.
    + unfold frame; fsg. split; [lia|]. split; [congruence|]. exists (term_of (t_ka (n_ts n t)) ++ [EKaStart (nxt s1) c]). rewrite O1, Q1, <- app_assoc. auto.
    + easy.
    + easy.
    + intros i N. unfold upd. rewrite L1. apply Nat.eqb_neq in N. now rewrite N.
    + eexists. unfold upd at 1. rewrite Nat.eqb_refl. split; [reflexivity|]. split.
      * intros u. unfold set_ts, upd; fsg. destruct (Nat.eqb_spec u t) as [->|]; [now rewrite TT1|]. rewrite TS1. apply Nat.eqb_neq in n0. now rewrite n0.
      * exists (nxt s1). unfold set_ts, upd; fsg. rewrite !Nat.eqb_refl. split; [easy|]. split; [easy|]. rewrite O1, <- app_assoc. reflexivity.
  - exists s1. split; [easy|]. split; [easy|]. split; [easy|]. split; [|split; [easy|split; [easy|split]]].
    + unfold frame. split; [lia|]. split; [congruence|]. exists (term_of (t_ka (n_ts n t))). rewrite O1, Q1. auto.
    + intros i N. rewrite L1. apply Nat.eqb_neq in N. now rewrite N.
    + exists n1. split; [easy|]. split; [|rewrite TT1; easy]. intros u. rewrite TS1. destruct (Nat.eqb_spec u t) as [->|]; easy.
Qed.

(** ** Events *)
Lemma core_accept El Et D s l c t n s' p sg :
  Core El Et D s -> l = nxt s -> c = S (nxt s) -> (t < NUM_E1_TS)%nat -> El l = 0 -> Et l = 0 ->
  (forall i, lines s' i = if Nat.eqb i l then Some n else lines s i) ->
  n_bfd n = 1 -> n_lnk n = 0 -> n_tmp n = 0 ->
  n_ts n t = mkT (Some c) p None sg -> (forall u, u <> t -> t_data (n_ts n u) = None /\ t_ka (n_ts n u) = None) ->
  conns s' = mkC c (Some (l, t)) :: conns s -> kas s' = kas s -> lks s' = lks s -> nxt s' = S (S (nxt s)) -> out s' = out s -> Core El Et D s'.
Proof.
  intros C -> -> TT E0 T0 HL B1 B2 B3 HT HU HC HK HLK HN HO. destruct C as [G].
  assert (LN : lines s (nxt s) = None). { destruct (lines s (nxt s)) eqn:E; [|easy]. specialize (g_lf0 (nxt s)). rewrite E in g_lf0. specialize (g_lf0 ltac:(easy)). lia. }
  assert (LK : forall k, In k (lks s) -> l_line k <> nxt s). { intros k J E. destruct (g_lk0 k J) as (_ & _ & m & A & _). congruence. }
  assert (CK : forall x u, In x (conns s) -> c_at x <> Some (nxt s, u)). { intros x u J E. destruct (g_at0 x _ _ J E) as (_ & m & A & _). congruence. }
  assert (Z1 : cnt (atl (nxt s)) (conns s) = 0).
  { clear - CK. induction (conns s) as [|x r IH]; [easy|]. cbn [cnt]. rewrite IH by (intros y u J; apply CK; now right).
    unfold atl. destruct (c_at x) as [[l' u]|] eqn:A; [|easy]. destruct (Nat.eqb_spec l' (nxt s)) as [->|]; [|easy]. exfalso. apply (CK x u); [now left|easy]. }
  assert (Z2 : cnt (onl (nxt s)) (lks s) = 0).
  { clear - LK. induction (lks s) as [|x r IH]; [easy|]. cbn [cnt]. rewrite IH by (intros y J; apply LK; now right).
    unfold onl. destruct (Nat.eqb_spec (l_line x) (nxt s)) as [E|]; [|easy]. exfalso. apply (LK x); [now left|easy]. }
  constructor; rewrite ?HLK, ?HN, ?HO; try assumption.
  - rewrite HC. cbn [map c_id]. constructor; [|easy]. intros J. apply in_map_iff in J as (x & E & J). apply g_cf0 in J. lia.
  - intros x J. rewrite HC in J. destruct J as [<-|J]; cbn [c_id]; [lia|]. apply g_cf0 in J. lia.
  - intros k J. apply g_kf0 in J. lia.
  - intros x l u J A. rewrite HC in J. destruct J as [<-|J].
    + cbn [c_at] in A. injection A as <- <-. split; [easy|]. exists n. rewrite HL, Nat.eqb_refl, HT. easy.
    + destruct (g_at0 x l u J A) as (P & m & M & Q). split; [easy|]. exists m. rewrite HL. destruct (Nat.eqb_spec l (nxt s)) as [->|]; [congruence|easy].
  - intros l m u d. rewrite HL, HC. destruct (Nat.eqb_spec l (nxt s)) as [->|].
    + intros E. injection E as <-. destruct (Nat.eq_dec u t) as [->|N]; [|destruct (HU u N) as [-> _]; easy]. rewrite HT. cbn [t_data]. intros E. injection E as <-. now left.
    + intros M F. right. eapply g_da0; eauto.
  - intros x J A. rewrite HC in J. destruct J as [<-|J]; [discriminate|now apply g_de0].
  - intros l m. rewrite HL, HC. cbn [cnt]. unfold atl at 1. cbn [c_at]. rewrite (Nat.eqb_sym (nxt s)). destruct (Nat.eqb_spec l (nxt s)) as [->|]; cbn [b2].
    + intros E. injection E as <-. rewrite Z1, Z2, E0, T0. repeat split; lia.
    + intros M. destruct (g_us0 l m M) as (U1 & U2 & U3 & U4). repeat split; lia.
  - intros k J. destruct (g_lk0 k J) as (A & A' & m & A2 & A3). split; [easy|]. split; [easy|]. rewrite HL.
    destruct (Nat.eqb_spec (l_line k) (nxt s)) as [E|]; [congruence|eauto].
  - intros l. destruct (g_ex0 l) as (A1 & A2 & A3). repeat split; try easy. intros P. rewrite HL. destruct (Nat.eqb_spec l (nxt s)); [easy|now apply A3].
  - intros l m u k. rewrite HL, HK. destruct (Nat.eqb_spec l (nxt s)) as [->|]; [|apply g_ka0].
    intros E. injection E as <-. destruct (Nat.eq_dec u t) as [->|N]; [now rewrite HT|destruct (HU u N) as [_ ->]; easy].
  - intros k d. rewrite HK. intros E. destruct (g_ko0 k d E) as (l & m & u & M & F). exists l, m, u. rewrite HL. destruct (Nat.eqb_spec l (nxt s)) as [->|]; [congruence|easy].
  - intros l. rewrite HL. destruct (Nat.eqb_spec l (nxt s)) as [->|]; [lia|]. intros A. apply g_lf0 in A. lia.
  - intros k A. rewrite HK in A. apply g_kx0 in A. lia.
  - intros x J A Q. rewrite HC in J. destruct J as [<-|J]; [|now apply (g_cl0 x)]. cbn [c_id] in Q. apply g_cx0 in Q. lia.
  - intros d Q. apply g_cx0 in Q. lia.
  - intros l. rewrite HL. destruct (Nat.eqb_spec l (nxt s)) as [->|]; [|apply g_fl0]. intros _ Q. apply g_fx0 in Q. lia.
  - intros d Q. apply g_fx0 in Q. lia.
  - intros i A. apply g_qx0. lia.
Qed.
Lemma td_accept s s' l n : Td None s -> (forall k, In k (lks s) -> l_line k <> l) -> (forall i, lines s' i = if Nat.eqb i l then Some n else lines s i) -> lks s' = lks s -> Td None s'.
Proof.
  intros T N HL HK k m c J A B. rewrite HK in J. rewrite HL in A. destruct (Nat.eqb_spec (l_line k) l) as [E|]; [|now apply (T k m c)].
  exfalso. now apply (N k J).
Qed.

(** between events nothing is held but the configured line *)
Definition E0 : nat -> Z := fun _ => 0.
Definition E1 : nat -> Z := fun i => b2 (Nat.eqb i 0).
Definition D0 : nat -> Prop := fun _ => False.
Definition Inv (s : st) : Prop := Good E0 E1 D0 s /\ (0 < nxt s)%nat.

Lemma init_ok k : Inv (st_init k).
Proof.
  split; [|cbn; lia]. unfold st_init. split.
  - constructor; fsg; try easy; try apply NoDup_nil.
    + intros l n t c. ul; [|easy]. intros E. injection E as <-. easy.
    + intros l n. ul; [|easy]. intros E. injection E as <-. repeat split; easy.
    + intros l. unfold E0, E1. destruct (Nat.eqb_spec l 0); cbn [b2]; repeat split; try lia; easy.
    + intros l n t c. ul; [|easy]. intros E. injection E as <-. easy.
    + intros l. ul; [lia|easy].
  - intros k0 n c []. 
Qed.

(** what an event does to the other connections: none appears, moves or vanishes unclosed *)
Definition grown (s s' : st) : Prop := (nxt s <= nxt s')%nat /\ kap s' = kap s /\ exists es, out s' = out s ++ es /\
  (forall x, In x (conns s) -> (exists y, In y (conns s') /\ c_id y = c_id x) \/ In (EClose (c_id x)) es) /\
  (forall x, In x (conns s') -> (exists y, In y (conns s) /\ c_id y = c_id x) \/ (nxt s <= c_id x)%nat).
Lemma frame_grown s s' : frame s s' -> grown s s'.
Proof.
  intros (N & P & es & O & S & R). split; [easy|]. split; [easy|]. exists es. split; [easy|]. split.
  - intros x I. destruct (R x I); eauto.
  - intros x I. left. eauto.
Qed.
Lemma grown_frame s s1 s' : grown s s1 -> frame s1 s' -> grown s s'.
Proof.
  intros (N1 & P1 & e1 & O1 & S1 & R1) (N & P & es & O & S & R). split; [lia|]. split; [congruence|]. exists (e1 ++ es).
  rewrite O, O1, app_assoc. split; [easy|]. split.
  - intros x I. rewrite in_app_iff. destruct (S1 x I) as [(y & J & E)|]; [|auto]. destruct (R y J) as [|]; [eauto|]. rewrite <- E. auto.
  - intros x I. auto.
Qed.

Lemma accept_ok s l c t n s' p sg (i : bool) down :
  Inv s -> l = nxt s -> c = S (nxt s) -> (t < NUM_E1_TS)%nat ->
  (forall i, lines s' i = if Nat.eqb i l then Some n else lines s i) ->
  n_bfd n = 1 -> n_lnk n = 0 -> n_tmp n = 0 ->
  n_ts n t = mkT (Some c) p None sg -> (forall u, u <> t -> t_data (n_ts n u) = None /\ t_ka (n_ts n u) = None) ->
  conns s' = mkC c (Some (l, t)) :: conns s -> kas s' = kas s -> lks s' = lks s -> nxt s' = S (S (nxt s)) -> out s' = out s -> kap s' = kap s ->
  exists s2, (if i then Some s' else srv_destroy (execs down) s' c) = Some s2 /\ Inv s2 /\ grown s s2.
Proof.
  intros [[C T] P0] El Ec TT HL B1 B2 B3 HT HU HC HK HLK HN HO HP.
  assert (G : Good E0 E1 D0 s').
  { split.
    - eapply (core_accept E0 E1 D0 s l c t n s' p sg); eauto. unfold E1. destruct (Nat.eqb_spec l 0); [lia|easy].
    - eapply (td_accept s s' l n T); eauto. intros k J E. destruct (g_lk _ _ _ _ C k J) as (_ & _ & m & A & _).
      assert (l < nxt s)%nat; [apply (g_lf _ _ _ _ C); congruence|lia]. }
  assert (R : grown s s').
  { split; [lia|]. split; [easy|]. exists []. rewrite app_nil_r. split; [easy|]. rewrite HC. split.
    - intros x J. left. exists x. split; [now right|easy].
    - intros x [<-|J]; [right; cbn [c_id]; lia|left; eauto]. }
  destruct i.
  - exists s'. split; [easy|]. split; [split; [easy|lia]|easy].
  - destruct (destroy_ok (execs down) _ _ _ s' c l t (execs_ok down) G) as (s2 & -> & G2 & F2 & _); [rewrite HC; now left|].
    exists s2. split; [easy|]. split; [split; [easy|destruct F2; lia]|]. now apply (grown_frame s s').
Qed.
Lemma oml_ok s i down : Inv s -> exists s', oml_accept s i down = Some s' /\ Inv s' /\ grown s s'.
Proof.
  intros I. unfold oml_accept, clone. cbn [fresh set_line lines]. unfold upd at 1. rewrite Nat.eqb_refl.
  eapply (accept_ok s (nxt s) (S (nxt s)) 0%nat _ _ OML true i down I); unfold fresh, set_line, set_conns; fsg; try reflexivity.
  - unfold NUM_E1_TS. lia.
  - intros j. unfold upd. destruct (Nat.eqb j (nxt s)); reflexivity.
  - reflexivity.
  - reflexivity.
  - reflexivity.
  - reflexivity.
  - intros u N. unfold set_ts, upd; fsg. apply Nat.eqb_neq in N. rewrite N. easy.
Qed.
Lemma rsl_ok s i down : Inv s -> exists s', rsl_accept s i down = Some s' /\ Inv s' /\ grown s s'.
Proof.
  intros I. unfold rsl_accept, clone. cbn [fresh set_line lines]. unfold upd at 1. rewrite Nat.eqb_refl. cbn [rsl_ts NUM_E1_TS Nat.ltb Nat.leb Nat.add].
  eapply (accept_ok s (nxt s) (S (nxt s)) 1%nat _ _ RSL false i down I); unfold fresh, set_line, set_conns; fsg; try reflexivity.
  - unfold NUM_E1_TS. lia.
  - intros j. unfold upd. destruct (Nat.eqb j (nxt s)); reflexivity.
  - reflexivity.
  - reflexivity.
  - reflexivity.
  - reflexivity.
  - intros u N. unfold set_ts, upd; fsg. apply Nat.eqb_neq in N. rewrite N. now destruct (Nat.eqb u 0).
Qed.
