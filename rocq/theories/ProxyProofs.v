(** The invariant of the IPA proxy (ProxyModel.v). *)
From Coq Require Import List Arith Lia Bool ZArith.
From Verif Require Import Base ProxyModel.
Import ListNotations.
Open Scope Z_scope.

(** ** The configuration, as the user sees it *)
(** a route: source instance, source stream identifier, destination instance,
    destination stream identifier *)
Definition rt : Type := nat * Z * nat * Z.
Definition shared_pair (l : list shared) (id : nat) : option (nat * nat) :=
  do sh <- find (fun x => Nat.eqb (s_id x) id) l; Some (s_src sh, s_dst sh).
Definition rt_of (l : list shared) (r : route) : list rt :=
  match shared_pair l (r_shared r) with Some (a, b) => [(a, r_ss r, b, r_ds r)] | None => [] end.
Definition view (s : st) : list rt := flat_map (rt_of (shareds s)) (routes s).

(** number of configured routes that use an instance, and of a pair of instances *)
Definition uses (v : list rt) (i : nat) : Z :=
  Z.of_nat (length (filter (fun t => let '(a, _, b, _) := t in Nat.eqb a i || Nat.eqb b i) v)).
Definition between (v : list rt) (a b : nat) : Z :=
  Z.of_nat (length (filter (fun t => let '(a', _, b', _) := t in Nat.eqb a' a && Nat.eqb b' b) v)).

Definition tab_ok (m : list bool) (t : list Z) (P : Z -> Z -> Prop) : Prop :=
  length m = 256%nat /\ length t = 256%nat /\
  forall p, 0 <= p < 256 ->
    (get m (Z.to_nat p) = Some true /\ exists q, get t (Z.to_nat p) = Some q /\ P p q) \/
    (get m (Z.to_nat p) = Some false /\ get t (Z.to_nat p) = Some 0).

Record Inv (s : st) : Prop := {
  I_ni : NoDup (map i_id (insts s)); I_li : forall i, In i (insts s) -> (i_id i < next s)%nat;
  I_nr : NoDup (map r_id (routes s)); I_lr : forall r, In r (routes s) -> (r_id r < next s)%nat;
  I_ns : NoDup (map s_id (shareds s)); I_ls : forall x, In x (shareds s) -> (s_id x < next s)%nat;
  I_r : forall r, In r (routes s) -> 0 <= r_ss r < 256 /\ 0 <= r_ds r < 256 /\ exists sh, In sh (shareds s) /\ s_id sh = r_shared r;
  I_s : forall sh, In sh (shareds s) ->
     s_refcnt sh = between (view s) (s_src sh) (s_dst sh) /\
     0 < s_refcnt sh /\
     (exists a, In a (insts s) /\ i_id a = s_src sh /\ i_type a = T_BIND) /\
     (exists b, In b (insts s) /\ i_id b = s_dst sh /\ i_type b = T_CONNECT);
  I_p : forall x y, In x (shareds s) -> In y (shareds s) -> s_src x = s_src y -> s_dst x = s_dst y -> x = y;
  I_i : forall i, In i (insts s) -> i_refcnt i = uses (view s) (i_id i);
  I_t : forall sh, In sh (shareds s) ->
     tab_ok (s_smap sh) (s_stab sh) (fun p q => In (s_src sh, p, s_dst sh, q) (view s)) /\
     tab_ok (s_dmap sh) (s_dtab sh) (fun q p => In (s_src sh, p, s_dst sh, q) (view s))
}.

(** ** Lists *)
Lemma find_id {A} (f : A -> nat) (l : list A) x : NoDup (map f l) -> In x l ->
  find (fun y => Nat.eqb (f y) (f x)) l = Some x.
Proof.
  induction l as [|y l IH]; [easy|]. cbn [map find]. intros N I. apply NoDup_cons_iff in N as [N1 N2].
  destruct I as [->|I]; [now rewrite Nat.eqb_refl|].
  destruct (Nat.eqb (f y) (f x)) eqn:E; [|now apply IH].
  apply Nat.eqb_eq in E. exfalso. apply N1. rewrite E. now apply in_map.
Qed.
Lemma find_id_some {A} (f : A -> nat) (l : list A) id x : find (fun y => Nat.eqb (f y) id) l = Some x -> In x l /\ f x = id.
Proof. intros F. apply find_some in F as [I E]. apply Nat.eqb_eq in E. easy. Qed.
Lemma id_inj {A} (f : A -> nat) (l : list A) x y : NoDup (map f l) -> In x l -> In y l -> f x = f y -> x = y.
Proof.
  intros N I J E. pose proof (find_id f l x N I) as F. rewrite E in F. rewrite (find_id f l y N J) in F. congruence.
Qed.
Lemma nodup_snoc {A} (l : list A) x : NoDup l -> ~ In x l -> NoDup (l ++ [x]).
Proof.
  intros N I. induction l as [|y l IH]; cbn [app]; [constructor; [easy|constructor]|].
  apply NoDup_cons_iff in N as [N1 N2]. constructor.
  - rewrite in_app_iff. cbn. intros [J|[->|[]]]; [easy|]. apply I. now left.
  - apply IH; [easy|]. intros J. apply I. now right.
Qed.
Lemma put_some {A} (l : list A) i v : (i < length l)%nat -> exists l', put l i v = Some l'.
Proof.
  revert i. unfold put. intros i H. replace (Nat.ltb i (length l)) with true by (symmetry; now apply Nat.ltb_lt). eauto.
Qed.
Lemma put_get {A} (l l' : list A) i v j : put l i v = Some l' -> get l' j = if Nat.eqb j i then Some v else get l j.
Proof.
  unfold put, get. destruct (Nat.ltb_spec i (length l)) as [L|]; [|discriminate]. intros E. injection E as <-.
  destruct (Nat.eqb_spec j i) as [->|N].
  - rewrite nth_error_app2 by (rewrite firstn_length; lia). rewrite firstn_length. replace (i - Nat.min i (length l))%nat with 0%nat by lia. reflexivity.
  - destruct (Nat.lt_ge_cases j i) as [J|J].
    + rewrite nth_error_app1 by (rewrite firstn_length; lia). rewrite <- (firstn_skipn i l) at 2. rewrite nth_error_app1 by (rewrite firstn_length; lia). reflexivity.
    + rewrite nth_error_app2 by (rewrite firstn_length; lia). rewrite firstn_length. replace (j - Nat.min i (length l))%nat with (S (j - S i)) by lia. cbn [nth_error].
      rewrite <- (firstn_skipn (S i) l) at 2. rewrite nth_error_app2 by (rewrite firstn_length; lia). rewrite firstn_length. f_equal. lia.
Qed.

(** ** The view *)
Lemma view_app l r1 r2 : flat_map (rt_of l) (r1 ++ r2) = flat_map (rt_of l) r1 ++ flat_map (rt_of l) r2.
Proof. apply flat_map_app. Qed.
Lemma flat_ext l l' rs : (forall r, In r rs -> shared_pair l (r_shared r) = shared_pair l' (r_shared r)) ->
  flat_map (rt_of l) rs = flat_map (rt_of l') rs.
Proof.
  induction rs as [|r rs IH]; [easy|]. intros H. cbn [flat_map]. rewrite IH by (intros; apply H; now right).
  f_equal. unfold rt_of. rewrite (H r) by now left. reflexivity.
Qed.
Lemma set_shared_pair l sh id : (forall x, In x l -> s_id x = s_id sh -> s_src x = s_src sh /\ s_dst x = s_dst sh) ->
  shared_pair (set_shared l sh) id = shared_pair l id.
Proof.
  unfold shared_pair, set_shared. induction l as [|x l IH]; [easy|]. intros H. cbn [map find].
  specialize (IH (fun y J => H y (or_intror J))).
  pose proof (H x (or_introl eq_refl)) as Hx.
  destruct (Nat.eqb_spec (s_id x) (s_id sh)) as [E|E].
  - specialize (Hx E) as [H1 H2]. rewrite E. destruct (Nat.eqb (s_id sh) id); [congruence|exact IH].
  - destruct (Nat.eqb (s_id x) id); [easy|exact IH].
Qed.
Lemma find_app' {A} (f : A -> bool) l1 l2 : find f (l1 ++ l2) = match find f l1 with Some x => Some x | None => find f l2 end.
Proof. induction l1 as [|x l IH]; [easy|]. cbn [app find]. destruct (f x); auto. Qed.
Lemma shared_pair_snoc l sh id : id <> s_id sh -> shared_pair (l ++ [sh]) id = shared_pair l id.
Proof.
  intros D. unfold shared_pair. rewrite find_app'. destruct (find _ l); [easy|]. cbn [find].
  destruct (Nat.eqb_spec (s_id sh) id); [congruence|easy].
Qed.
Lemma shared_pair_in l sh : NoDup (map s_id l) -> In sh l -> shared_pair l (s_id sh) = Some (s_src sh, s_dst sh).
Proof. intros N I. unfold shared_pair. now rewrite (find_id s_id l sh N I). Qed.

Lemma uses_app v w i : uses (v ++ w) i = uses v i + uses w i.
Proof. unfold uses. rewrite filter_app, app_length. apply Nat2Z.inj_add. Qed.
Lemma between_app v w a b : between (v ++ w) a b = between v a b + between w a b.
Proof. unfold between. rewrite filter_app, app_length. apply Nat2Z.inj_add. Qed.

Lemma uses_cons a p b q v i : uses ((a, p, b, q) :: v) i = (if Nat.eqb a i || Nat.eqb b i then 1 else 0) + uses v i.
Proof. unfold uses. cbn [filter]. destruct (_ || _); cbn [length]; lia. Qed.
Lemma between_cons a p b q v c d : between ((a, p, b, q) :: v) c d = (if Nat.eqb a c && Nat.eqb b d then 1 else 0) + between v c d.
Proof. unfold between. cbn [filter]. destruct (_ && _); cbn [length]; lia. Qed.
Lemma uses_nonneg v i : 0 <= uses v i.
Proof. unfold uses. lia. Qed.
Lemma between_nonneg v a b : 0 <= between v a b.
Proof. unfold between. lia. Qed.
Lemma uses_zero v i : uses v i <= 0 <-> forall a p b q, In (a, p, b, q) v -> a <> i /\ b <> i.
Proof.
  induction v as [|[[[a p] b] q] v IH]; [easy|]. rewrite uses_cons. pose proof (uses_nonneg v i).
  destruct (Nat.eqb_spec a i) as [A|A], (Nat.eqb_spec b i) as [B|B]; cbn [orb]; split; intros H1; try lia;
  try (destruct (H1 a p b q (or_introl eq_refl)); easy).
  - intros a' p' b' q' [E|I]; [injection E as <- <- <- <-; easy|]. revert a' p' b' q' I. apply IH. lia.
  - assert (uses v i <= 0); [|lia]. apply IH. intros. eapply H1. right. eassumption.
Qed.
Lemma between_pos v a b : 0 < between v a b <-> exists p q, In (a, p, b, q) v.
Proof.
  induction v as [|[[[c p] d] q] v IH]; [split; [easy|intros (p & q & [])]|]. rewrite between_cons. pose proof (between_nonneg v a b).
  destruct (Nat.eqb_spec c a) as [A|A], (Nat.eqb_spec d b) as [B|B]; cbn [andb]; split; intros H1; try lia;
  try (subst; exists p, q; now left);
  try (assert (X : 0 < between v a b) by lia; apply IH in X as (p' & q' & X); exists p', q'; now right);
  destruct H1 as (p' & q' & [E|I]); try congruence; assert (0 < between v a b) by (apply IH; eauto); lia.
Qed.
(** membership of the view *)
Lemma in_view s : Inv s -> forall a p b q, In (a, p, b, q) (view s) <->
  exists r sh, In r (routes s) /\ In sh (shareds s) /\ s_id sh = r_shared r /\ a = s_src sh /\ b = s_dst sh /\ p = r_ss r /\ q = r_ds r.
Proof.
  intros V a p b q. unfold view. rewrite in_flat_map. split.
  - intros (r & I & J). destruct (I_r s V r I) as (_ & _ & sh & S1 & S2). exists r, sh.
    unfold rt_of in J. rewrite <- S2, (shared_pair_in _ sh (I_ns s V) S1) in J. cbn in J. destruct J as [J|[]].
    injection J as <- <- <- <-. repeat split; auto.
  - intros (r & sh & I & S1 & S2 & -> & -> & -> & ->). exists r. split; [easy|].
    unfold rt_of. rewrite <- S2, (shared_pair_in _ sh (I_ns s V) S1). now left.
Qed.
Lemma view_bounds s : Inv s -> forall a p b q, In (a, p, b, q) (view s) -> 0 <= p < 256 /\ 0 <= q < 256.
Proof.
  intros V a p b q I. apply (in_view s V) in I as (r & sh & I & _ & _ & _ & _ & -> & ->).
  destruct (I_r s V r I) as (H1 & H2 & _). easy.
Qed.
Lemma view_insts s : Inv s -> forall a p b q, In (a, p, b, q) (view s) ->
  (exists x, In x (insts s) /\ i_id x = a /\ i_type x = T_BIND) /\ (exists y, In y (insts s) /\ i_id y = b /\ i_type y = T_CONNECT).
Proof.
  intros V a p b q I. apply (in_view s V) in I as (r & sh & I & S1 & S2 & -> & -> & _ & _).
  destruct (I_s s V sh S1) as (_ & _ & H1 & H2). easy.
Qed.

(** ** The initial state *)
Lemma Inv0 : Inv st0.
Proof. constructor; cbn; try constructor; easy. Qed.

(** ** What does not touch the configuration *)
Lemma Inv_conns s ls cs n : Inv s -> (next s <= n)%nat -> Inv (mkSt (insts s) (routes s) (shareds s) ls cs n).
Proof.
  intros V L. destruct V. constructor; cbn [insts routes shareds next]; auto;
  intros x I; [apply I_li0 in I|apply I_lr0 in I|apply I_ls0 in I]; lia.
Qed.

(** ** Instances *)
Lemma Inv_inst_add s name ty addr port : Inv s -> Inv (fst (instance_add s name ty addr port)).
Proof.
  intros V. unfold instance_add. destruct (existsb _ _); [exact V|]. cbn [fst].
  set (i := mkI _ _ _ _ _ _).
  assert (U : uses (view s) (i_id i) = 0).
  { apply Z.le_antisymm; [|apply uses_nonneg]. apply uses_zero. intros a p b q J.
    apply (view_insts s V) in J as ((x & X1 & X2 & _) & y & Y1 & Y2 & _). apply (I_li s V) in X1, Y1. cbn [i_id i]. lia. }
  pose proof V as V'. destruct V. constructor; cbn [insts routes shareds next]; auto.
  - rewrite map_app. apply nodup_snoc; [easy|]. intros J. apply in_map_iff in J as (x & X1 & X2). apply I_li0 in X2. cbn in X1. lia.
  - intros x J. apply in_app_iff in J as [J|[<-|[]]]; [apply I_li0 in J; lia|cbn; lia].
  - intros r J. apply I_lr0 in J. lia.
  - intros r J. apply I_ls0 in J. lia.
  - intros sh J. destruct (I_s0 sh J) as (H1 & H2 & (a & A1 & A2 & A3) & b & B1 & B2 & B3). repeat split; auto.
    + exists a. rewrite in_app_iff. auto.
    + exists b. rewrite in_app_iff. auto.
  - intros x J. apply in_app_iff in J as [J|[<-|[]]]; [now apply I_i0|]. symmetry. exact U.
Qed.
Lemma Inv_inst_del s name s' r : Inv s -> instance_del s name = Some (s', r) -> Inv s'.
Proof.
  unfold instance_del. intros V H. destruct (find _ (insts s)) as [i|] eqn:F; [|easy].
  apply find_some in F as [Fi _]. destruct (0 <? i_refcnt i) eqn:E; injection H as <- <-; [exact V|].
  apply Z.ltb_ge in E.
  assert (U : forall a p b q, In (a, p, b, q) (view s) -> a <> i_id i /\ b <> i_id i).
  { rewrite (I_i s V i Fi) in E. now apply uses_zero. }
  assert (N : forall x, In x (insts s) -> i_id x <> i_id i -> In x (filter (fun x => negb (Nat.eqb (i_id x) (i_id i))) (insts s))).
  { intros x X D. apply filter_In. split; [easy|]. apply negb_true_iff, Nat.eqb_neq. easy. }
  assert (NE : forall sh, In sh (shareds s) -> s_src sh <> i_id i /\ s_dst sh <> i_id i).
  { intros sh J. destruct (I_s s V sh J) as (H1 & H2 & _). rewrite H1 in H2. apply between_pos in H2 as (p & q & X). eapply U, X. }
  pose proof V as V'. destruct V. constructor; cbn [insts routes shareds next]; auto.
  - clear -I_ni0. induction (insts s) as [|y l IH]; [constructor|]. cbn [filter map] in *. apply NoDup_cons_iff in I_ni0 as [N1 N2].
    destruct (negb _); [|auto]. cbn [map]. constructor; [|auto]. intros J. apply in_map_iff in J as (x & X1 & X2).
    apply filter_In in X2 as [X2 _]. apply N1. rewrite <- X1. now apply in_map.
  - intros x J. apply filter_In in J as [J _]. now apply I_li0.
  - intros sh J. destruct (I_s0 sh J) as (H1 & H2 & (a & A1 & A2 & A3) & b & B1 & B2 & B3).
    destruct (NE sh J) as [D1 D2]. repeat split; auto.
    + exists a. split; [|easy]. apply N; congruence.
    + exists b. split; [|easy]. apply N; congruence.
  - intros x J. apply filter_In in J as [J _]. now apply I_i0.
Qed.

(** ** Walking the routes *)
Lemma find_routeM_spec s P l : Inv s -> (forall r, In r l -> In r (routes s)) ->
  match find_routeM s P l with
  | None => False
  | Some None => forall r sh, In r l -> In sh (shareds s) -> s_id sh = r_shared r -> P r sh = false
  | Some (Some (r, sh)) => exists l1 l2, l = l1 ++ r :: l2 /\ In sh (shareds s) /\ s_id sh = r_shared r /\ P r sh = true /\
       forall r' sh', In r' l1 -> In sh' (shareds s) -> s_id sh' = r_shared r' -> P r' sh' = false
  end.
Proof.
  intros V. induction l as [|r l IH]; intros H; cbn [find_routeM]; [easy|].
  destruct (I_r s V r (H r (or_introl eq_refl))) as (_ & _ & sh & S1 & S2).
  unfold find_shared. rewrite <- S2, (find_id s_id _ sh (I_ns s V) S1).
  assert (U : forall sh', In sh' (shareds s) -> s_id sh' = r_shared r -> sh' = sh).
  { intros sh' J E. apply (id_inj s_id (shareds s)); [apply (I_ns s V)|easy|easy|congruence]. }
  destruct (P r sh) eqn:E.
  - exists [], l. repeat split; auto. intros r' sh' [].
  - specialize (IH (fun r' J => H r' (or_intror J))). destruct (find_routeM s P l) as [[[r' sh']|]|]; [| |easy].
    + destruct IH as (l1 & l2 & -> & I1 & I2 & I3 & I4). exists (r :: l1), l2. repeat split; auto.
      intros r2 sh2 [<-|J] K1 K2; [now rewrite (U sh2 K1 K2)|eauto].
    + intros r2 sh2 [<-|J] K1 K2; [now rewrite (U sh2 K1 K2)|eauto].
Qed.

(** ** The arguments *)
Lemma route_args_spec s n1 v1 n2 v2 a ss b ds : route_args s n1 v1 n2 v2 = Some (a, ss, b, ds) ->
  In a (insts s) /\ In b (insts s) /\ name_is n1 a = true /\ name_is n2 b = true /\ i_type a = T_BIND /\ i_type b = T_CONNECT /\
  0 <= ss < 256 /\ 0 <= ds < 256 /\ ss = uint32 v1 /\ ds = uint32 v2.
Proof.
  unfold route_args, find_src, find_dst. destruct (find _ _) as [x|] eqn:Fx; [|easy].
  destruct (find (fun i => _ && _) _) as [y|] eqn:Fy; [|easy].
  apply find_some in Fx as [X1 X2], Fy as [Y1 Y2]. apply in_rev in X1, Y1. apply andb_true_iff in Y2 as [Y2 _].
  destruct (i_type x) eqn:Tx; [|easy]. destruct (i_type y) eqn:Ty; [easy|].
  destruct (_ || _) eqn:B; [easy|]. intros H. injection H as <- <- <- <-.
  apply orb_false_iff in B as [B1 B2]. apply Z.ltb_ge in B1, B2.
  assert (forall v, 0 <= uint32 v) by (intros; apply Z.mod_pos_bound; reflexivity).
  repeat split; auto; try lia.
Qed.

(** ** References *)
Lemma add_ref_ids d a b l : map i_id (add_ref d a b l) = map i_id l.
Proof. unfold add_ref. rewrite map_map. apply map_ext. reflexivity. Qed.
Lemma in_add_ref d a b l x : In x (add_ref d a b l) -> exists y, In y l /\ i_id x = i_id y /\ i_type x = i_type y /\ i_name x = i_name y /\
  i_refcnt x = i_refcnt y + (if Nat.eqb (i_id y) a then d else 0) + (if Nat.eqb (i_id y) b then d else 0).
Proof. unfold add_ref. intros I. apply in_map_iff in I as (y & <- & I). exists y. cbn. auto. Qed.
Lemma in_add_ref' d a b l y : In y l -> exists x, In x (add_ref d a b l) /\ i_id x = i_id y /\ i_type x = i_type y.
Proof. intros I. eexists. split; [unfold add_ref; apply in_map; exact I|]. cbn. auto. Qed.

Lemma set_shared_ids l sh : map s_id (set_shared l sh) = map s_id l.
Proof.
  unfold set_shared. rewrite map_map. apply map_ext. intros x. destruct (Nat.eqb_spec (s_id x) (s_id sh)); congruence.
Qed.
Lemma in_set_shared l sh x : In x (set_shared l sh) -> (x = sh /\ In (s_id sh) (map s_id l)) \/ (In x l /\ s_id x <> s_id sh).
Proof.
  unfold set_shared. intros I. apply in_map_iff in I as (y & E & I). destruct (Nat.eqb_spec (s_id y) (s_id sh)) as [D|D].
  - left. split; [easy|]. rewrite <- D. now apply in_map.
  - right. now subst.
Qed.
Lemma set_shared_in l sh x : In x l -> exists y, In y (set_shared l sh) /\ s_id y = s_id x.
Proof.
  intros I. exists (if Nat.eqb (s_id x) (s_id sh) then sh else x). split.
  - unfold set_shared. apply (in_map (fun x => if Nat.eqb (s_id x) (s_id sh) then sh else x)). exact I.
  - destruct (Nat.eqb_spec (s_id x) (s_id sh)); congruence.
Qed.

(** ** Tables *)
Lemma tab_ok_weak m t (P Q : Z -> Z -> Prop) : (forall p q, P p q -> Q p q) -> tab_ok m t P -> tab_ok m t Q.
Proof.
  intros W (L1 & L2 & H). split; [easy|]. split; [easy|]. intros p B.
  destruct (H p B) as [[H1 (q & H2 & H3)]|H1]; [left|now right]. split; [easy|]. exists q. auto.
Qed.
Lemma tab_ok_set m t P a b m' t' : tab_ok m t P -> 0 <= a < 256 -> P a b ->
  put m (Z.to_nat a) true = Some m' -> put t (Z.to_nat a) b = Some t' -> tab_ok m' t' P.
Proof.
  intros (L1 & L2 & H) B W Pm Pt. split; [now rewrite (put_length _ _ _ _ Pm)|]. split; [now rewrite (put_length _ _ _ _ Pt)|].
  intros p Bp. rewrite (put_get _ _ _ _ (Z.to_nat p) Pm), (put_get _ _ _ _ (Z.to_nat p) Pt).
  destruct (Nat.eqb_spec (Z.to_nat p) (Z.to_nat a)) as [E|E]; [|now apply H].
  left. split; [easy|]. exists b. split; [easy|]. replace p with a by lia. easy.
Qed.
(** clearing the entry [a]: what remains needs [Q] only away from [a] *)
Lemma tab_ok_clear m t (P Q : Z -> Z -> Prop) a m' t' : tab_ok m t P -> 0 <= a < 256 -> (forall p q, p <> a -> P p q -> Q p q) ->
  put m (Z.to_nat a) false = Some m' -> put t (Z.to_nat a) 0 = Some t' -> tab_ok m' t' Q.
Proof.
  intros (L1 & L2 & H) B W Pm Pt. split; [now rewrite (put_length _ _ _ _ Pm)|]. split; [now rewrite (put_length _ _ _ _ Pt)|].
  intros p Bp. rewrite (put_get _ _ _ _ (Z.to_nat p) Pm), (put_get _ _ _ _ (Z.to_nat p) Pt).
  destruct (Nat.eqb_spec (Z.to_nat p) (Z.to_nat a)) as [E|E]; [now right|].
  destruct (H p Bp) as [[H1 (q & H2 & H3)]|H1]; [left|now right]. split; [easy|]. exists q. split; [easy|]. apply W; [|easy]. intros ->. easy.
Qed.
Lemma tab_ok_empty P : tab_ok (repeat false 256) (repeat 0 256) P.
Proof.
  split; [apply repeat_length|]. split; [apply repeat_length|]. intros p B. right. unfold get.
  rewrite !nth_error_repeat by lia. easy.
Qed.

Lemma map_route_some sh a b P Q : tab_ok (s_smap sh) (s_stab sh) P -> tab_ok (s_dmap sh) (s_dtab sh) Q -> 0 <= a < 256 -> 0 <= b < 256 ->
  exists sm dm st dt, map_route sh a b = Some (mkS (s_id sh) (s_src sh) (s_dst sh) (s_refcnt sh + 1) sm st dm dt) /\
    put (s_smap sh) (Z.to_nat a) true = Some sm /\ put (s_stab sh) (Z.to_nat a) b = Some st /\
    put (s_dmap sh) (Z.to_nat b) true = Some dm /\ put (s_dtab sh) (Z.to_nat b) a = Some dt.
Proof.
  intros (L1 & L2 & _) (L3 & L4 & _) A B. unfold map_route.
  destruct (put_some (s_stab sh) (Z.to_nat a) b) as [x1 ->]; [lia|].
  destruct (put_some (s_dtab sh) (Z.to_nat b) a) as [x2 ->]; [lia|].
  destruct (put_some (s_smap sh) (Z.to_nat a) true) as [x3 ->]; [lia|].
  destruct (put_some (s_dmap sh) (Z.to_nat b) true) as [x4 ->]; [lia|].
  exists x3, x4, x1, x2. auto.
Qed.
Lemma unmap_route_some sh a b P Q : tab_ok (s_smap sh) (s_stab sh) P -> tab_ok (s_dmap sh) (s_dtab sh) Q -> 0 <= a < 256 -> 0 <= b < 256 ->
  exists sm dm st dt, unmap_route sh a b = Some (mkS (s_id sh) (s_src sh) (s_dst sh) (s_refcnt sh - 1) sm st dm dt) /\
    put (s_smap sh) (Z.to_nat a) false = Some sm /\ put (s_stab sh) (Z.to_nat a) 0 = Some st /\
    put (s_dmap sh) (Z.to_nat b) false = Some dm /\ put (s_dtab sh) (Z.to_nat b) 0 = Some dt.
Proof.
  intros (L1 & L2 & _) (L3 & L4 & _) A B. unfold unmap_route.
  destruct (put_some (s_smap sh) (Z.to_nat a) false) as [x3 ->]; [lia|].
  destruct (put_some (s_dmap sh) (Z.to_nat b) false) as [x4 ->]; [lia|].
  destruct (put_some (s_stab sh) (Z.to_nat a) 0) as [x1 ->]; [lia|].
  destruct (put_some (s_dtab sh) (Z.to_nat b) 0) as [x2 ->]; [lia|].
  exists x3, x4, x1, x2. auto.
Qed.

(** ** Adding a route *)
Lemma uses_one a p b q i : uses [(a, p, b, q)] i = if Nat.eqb a i || Nat.eqb b i then 1 else 0.
Proof. unfold uses. cbn [filter]. destruct (_ || _); reflexivity. Qed.
Lemma between_one a p b q c d : between [(a, p, b, q)] c d = if Nat.eqb a c && Nat.eqb b d then 1 else 0.
Proof. unfold between. cbn [filter]. destruct (_ && _); reflexivity. Qed.
Lemma neq_types s a b : Inv s -> In a (insts s) -> In b (insts s) -> i_type a = T_BIND -> i_type b = T_CONNECT -> i_id a <> i_id b.
Proof. intros V I J A B E. assert (a = b) by (apply (id_inj i_id (insts s)); [apply (I_ni s V)|easy|easy|easy]). congruence. Qed.
Lemma between0 s a b : Inv s -> (forall sh, In sh (shareds s) -> pair_is a b sh = false) -> between (view s) a b = 0.
Proof.
  intros V H. apply Z.le_antisymm; [|apply between_nonneg]. apply Z.nlt_ge. intros X. apply between_pos in X as (p & q & X).
  apply (in_view s V) in X as (r & sh & _ & S1 & _ & -> & -> & _). specialize (H sh S1). unfold pair_is in H. now rewrite !Nat.eqb_refl in H.
Qed.
Lemma shared_used s sh : Inv s -> In sh (shareds s) -> exists r, In r (routes s) /\ r_shared r = s_id sh.
Proof.
  intros V J. destruct (I_s s V sh J) as (H1 & H2 & _). rewrite H1 in H2. apply between_pos in H2 as (p & q & X).
  apply (in_view s V) in X as (r & sh' & R1 & S1 & S2 & E1 & E2 & _). exists r. split; [easy|].
  rewrite (I_p s V sh sh' J S1 E1 E2). easy.
Qed.

Lemma route_add_spec s n1 v1 n2 v2 bound : Inv s ->
  (route_add s n1 v1 n2 v2 bound = Some (s, Warn)) \/
  (exists a b s' i', route_add s n1 v1 n2 v2 bound = Some (s', Ok) /\ Inv s' /\ conns s' = conns s /\
     In a (insts s) /\ In b (insts s) /\ name_is n1 a = true /\ name_is n2 b = true /\ i_type a = T_BIND /\ i_type b = T_CONNECT /\
     uint32 v1 < 256 /\ uint32 v2 < 256 /\
     view s' = view s ++ [(i_id a, uint32 v1, i_id b, uint32 v2)] /\
     ((links s' = links s /\ exists p q, In (i_id a, p, i_id b, q) (view s)) \/
      (exists l, links s' = links s ++ [l] /\ l_port l = i_port a /\ l_id l = next s /\ (forall p q, ~ In (i_id a, p, i_id b, q) (view s)) /\
        l_route l = next s /\ (forall r, In r (routes s) -> r_shared r <> i'))) /\
     routes s' = routes s ++ [mkR (next s) (uint32 v1) (uint32 v2) i'] /\ next s' = S (next s) /\
     insts s' = add_ref 1 (i_id a) (i_id b) (insts s) /\
     forall x, In x (shareds s') -> (In x (shareds s) /\ (s_src x <> i_id a \/ s_dst x <> i_id b)) \/
       (s_src x = i_id a /\ s_dst x = i_id b /\ exists m d,
         ((exists y, In y (shareds s) /\ s_src y = i_id a /\ s_dst y = i_id b /\ s_smap y = m /\ s_dmap y = d) \/
          (forall p q, ~ In (i_id a, p, i_id b, q) (view s))) /\
         put m (Z.to_nat (uint32 v1)) true = Some (s_smap x) /\ put d (Z.to_nat (uint32 v2)) true = Some (s_dmap x))).
Proof.
  intros V. unfold route_add. destruct (route_args s n1 v1 n2 v2) as [[[[a ss] b] ds]|] eqn:A; [|now left].
  apply route_args_spec in A as (Ia & Ib & Na & Nb & Ta & Tb & Bs & Bd & -> & ->).
  set (ss := uint32 v1) in *. set (ds := uint32 v2) in *.
  pose proof (neq_types s a b V Ia Ib Ta Tb) as AB.
  pose proof (find_routeM_spec s (fun _ sh => pair_is (i_id a) (i_id b) sh) (routes s) V (fun r H => H)) as W.
  destruct (find_routeM _ _ _) as [[[r sh]|]|]; [| |easy].
  - destruct (_ && _) eqn:E; [now left|]. clear E.
    destruct W as (l1 & l2 & R & S1 & S2 & PI & _). unfold pair_is in PI. apply andb_true_iff in PI as [P1 P2]. apply Nat.eqb_eq in P1, P2.
    destruct (I_t s V sh S1) as [T1 T2].
    destruct (map_route_some sh ss ds _ _ T1 T2 Bs Bd) as (sm & dm & st & dt & M & Psm & Pst & Pdm & Pdt). rewrite M. clear M.
    set (sh' := mkS _ _ _ _ _ _ _ _). right. exists a, b. eexists. exists (s_id sh). split; [reflexivity|].
    set (s' := mkSt _ _ _ _ _ _).
    assert (SP : forall id, shared_pair (shareds s') id = shared_pair (shareds s) id).
    { intros id. apply set_shared_pair. intros x X E. rewrite (id_inj s_id (shareds s) x sh (I_ns s V) X S1 E). easy. }
    assert (VW : view s' = view s ++ [(i_id a, ss, i_id b, ds)]).
    { unfold view. cbn [routes s']. rewrite view_app. rewrite (flat_ext (shareds s') (shareds s)) by (intros; apply SP). f_equal.
      cbn [flat_map]. unfold rt_of. rewrite SP. cbn [r_shared r_ss r_ds s_id sh'].
      rewrite (shared_pair_in _ sh (I_ns s V) S1). rewrite P1, P2. reflexivity. }
    assert (INS : forall t, In t (view s) -> In t (view s')) by (intros t T; rewrite VW; apply in_app_iff; now left).
    split; [|repeat split; auto; try lia].
    + pose proof V as V0. destruct V. constructor; cbn [insts routes shareds next s'].
      * now rewrite add_ref_ids.
      * intros x X. apply in_add_ref in X as (y & Y & -> & _). apply I_li0 in Y. lia.
      * rewrite map_app. apply nodup_snoc; [easy|]. intros J. apply in_map_iff in J as (x & X1 & X2). apply I_lr0 in X2. cbn in X1. lia.
      * intros x X. apply in_app_iff in X as [X|[<-|[]]]; [apply I_lr0 in X; lia|cbn; lia].
      * now rewrite set_shared_ids.
      * intros x X. apply in_set_shared in X as [[-> X]|[X _]]; [cbn; apply I_ls0 in S1; lia|apply I_ls0 in X; lia].
      * intros x X. apply in_app_iff in X as [X|[<-|[]]].
        { destruct (I_r0 x X) as (H1 & H2 & y & Y1 & Y2). repeat split; try lia.
          destruct (set_shared_in (shareds s) sh' y Y1) as (z & Z1 & Z2). exists z. split; [easy|congruence]. }
        { cbn [r_ss r_ds r_shared]. repeat split; try lia. destruct (set_shared_in (shareds s) sh' sh S1) as (z & Z1 & Z2). exists z. easy. }
      * intros x X. fold s'. rewrite VW, between_app, between_one.
        assert (Y : exists y, In y (shareds s) /\ s_src x = s_src y /\ s_dst x = s_dst y /\
                    s_refcnt x = s_refcnt y + (if Nat.eqb (i_id a) (s_src y) && Nat.eqb (i_id b) (s_dst y) then 1 else 0)).
        { apply in_set_shared in X as [[-> _]|[X D]].
          - exists sh. cbn. rewrite P1, P2, !Nat.eqb_refl. auto.
          - exists x. repeat split; auto. destruct (_ && _) eqn:E; [|lia]. apply andb_true_iff in E as [E1 E2]. apply Nat.eqb_eq in E1, E2.
            exfalso. apply D. rewrite (I_p0 x sh X S1) by congruence. easy. }
        destruct Y as (y & Y1 & Y2 & Y3 & Y4). destruct (I_s0 y Y1) as (H1 & H2 & (c & C1 & C2 & C3) & d & D1 & D2 & D3).
        rewrite Y2, Y3, Y4, H1. split; [reflexivity|]. split; [rewrite <- H1; destruct (_ && _); lia|]. split.
        { destruct (in_add_ref' 1 (i_id a) (i_id b) (insts s) c C1) as (x' & X1 & X2 & X3). exists x'. repeat split; congruence. }
        { destruct (in_add_ref' 1 (i_id a) (i_id b) (insts s) d D1) as (x' & X1 & X2 & X3). exists x'. repeat split; congruence. }
      * intros x y X Y. apply in_set_shared in X as [[-> _]|[X DX]], Y as [[-> _]|[Y DY]]; intros E1 E2; auto.
        { exfalso. apply DY. cbn in *. now rewrite (I_p0 y sh Y S1) by easy. }
        { exfalso. apply DX. cbn in *. now rewrite (I_p0 x sh X S1) by easy. }
      * intros x X. fold s'. rewrite VW, uses_app, uses_one. apply in_add_ref in X as (y & Y & -> & _ & _ & ->). rewrite (I_i0 y Y).
        rewrite (Nat.eqb_sym (i_id y) (i_id a)), (Nat.eqb_sym (i_id y) (i_id b)).
        destruct (Nat.eqb_spec (i_id a) (i_id y)), (Nat.eqb_spec (i_id b) (i_id y)); cbn [orb]; try lia.
      * intros x X. fold s'. apply in_set_shared in X as [[-> _]|[X D]].
        { cbn [s_smap s_stab s_dmap s_dtab s_src s_dst sh']. split.
          - eapply tab_ok_set; [eapply tab_ok_weak; [|exact T1]|exact Bs| |exact Psm|exact Pst].
            + intros p q. apply INS.
            + cbn beta. rewrite VW, P1, P2. apply in_app_iff. right. now left.
          - eapply tab_ok_set; [eapply tab_ok_weak; [|exact T2]|exact Bd| |exact Pdm|exact Pdt].
            + intros p q. apply INS.
            + cbn beta. rewrite VW, P1, P2. apply in_app_iff. right. now left. }
        { destruct (I_t0 x X) as [U1 U2]. split; (eapply tab_ok_weak; [|eassumption]); intros p q; apply INS. }
    + left. split; [reflexivity|]. exists (r_ss r), (r_ds r). apply (in_view s V). exists r, sh. repeat split; auto.
      rewrite R. apply in_app_iff. right. now left.
    + intros x X. cbn [shareds s'] in X. apply in_set_shared in X as [[-> _]|[X D]].
      * right. split; [exact P1|]. split; [exact P2|]. exists (s_smap sh), (s_dmap sh). cbn [s_smap s_dmap sh']. repeat split; auto.
        left. exists sh. auto.
      * left. split; [exact X|]. destruct (Nat.eq_dec (s_src x) (i_id a)); [|now left]. right. intros E2. apply D.
        rewrite (I_p s V x sh X S1) by congruence. easy.
  - destruct bound; [|now left]. cbn [negb].
    assert (NP : forall sh, In sh (shareds s) -> pair_is (i_id a) (i_id b) sh = false).
    { intros sh J. destruct (shared_used s sh V J) as (r & R1 & R2). now apply (W r sh). }
    set (sh0 := mkS _ _ _ _ _ _ _ _).
    destruct (map_route_some sh0 ss ds (fun _ _ => False) (fun _ _ => False) (tab_ok_empty _) (tab_ok_empty _) Bs Bd) as (sm & dm & st & dt & M & Psm & Pst & Pdm & Pdt). rewrite M. clear M.
    cbn [s_id s_src s_dst s_refcnt sh0]. set (sh' := mkS _ _ _ _ _ _ _ _). right. exists a, b. eexists. exists (next s). split; [reflexivity|].
    set (s' := mkSt _ _ _ _ _ _).
    assert (SP : forall r, In r (routes s) -> shared_pair (shareds s') (r_shared r) = shared_pair (shareds s) (r_shared r)).
    { intros r R. apply shared_pair_snoc. destruct (I_r s V r R) as (_ & _ & x & X1 & X2). apply (I_ls s V) in X1. cbn. lia. }
    assert (NS : NoDup (map s_id (shareds s'))).
    { cbn [shareds s']. rewrite map_app. apply nodup_snoc; [apply (I_ns s V)|]. intros J. apply in_map_iff in J as (x & X1 & X2). apply (I_ls s V) in X2. cbn in X1. lia. }
    assert (VW : view s' = view s ++ [(i_id a, ss, i_id b, ds)]).
    { unfold view. cbn [routes s']. rewrite view_app. rewrite (flat_ext (shareds s') (shareds s)) by exact SP. f_equal.
      cbn [flat_map]. unfold rt_of. change (r_shared _) with (s_id sh') at 1.
      rewrite (shared_pair_in _ sh' NS) by (cbn [shareds s']; apply in_app_iff; right; now left). reflexivity. }
    assert (INS : forall t, In t (view s) -> In t (view s')) by (intros t T; rewrite VW; apply in_app_iff; now left).
    assert (LAST : In (i_id a, ss, i_id b, ds) (view s')) by (rewrite VW; apply in_app_iff; right; now left).
    assert (NP2 : forall sh, In sh (shareds s) -> s_src sh = i_id a -> s_dst sh = i_id b -> False).
    { intros sh J E1 E2. specialize (NP sh J). unfold pair_is in NP. rewrite E1, E2, !Nat.eqb_refl in NP. easy. }
    split; [|repeat split; auto; try lia].
    + pose proof V as V0. destruct V. constructor; cbn [insts routes shareds next s'].
      * now rewrite add_ref_ids.
      * intros x X. apply in_add_ref in X as (y & Y & -> & _). apply I_li0 in Y. lia.
      * rewrite map_app. apply nodup_snoc; [easy|]. intros J. apply in_map_iff in J as (x & X1 & X2). apply I_lr0 in X2. cbn in X1. lia.
      * intros x X. apply in_app_iff in X as [X|[<-|[]]]; [apply I_lr0 in X; lia|cbn; lia].
      * exact NS.
      * intros x X. apply in_app_iff in X as [X|[<-|[]]]; [apply I_ls0 in X; lia|cbn; lia].
      * intros x X. apply in_app_iff in X as [X|[<-|[]]].
        { destruct (I_r0 x X) as (H1 & H2 & y & Y1 & Y2). repeat split; try lia. exists y. split; [apply in_app_iff; now left|easy]. }
        { cbn [r_ss r_ds r_shared]. repeat split; try lia. exists sh'. split; [apply in_app_iff; right; now left|easy]. }
      * intros x X. fold s'. rewrite VW, between_app, between_one. apply in_app_iff in X as [X|[<-|[]]].
        { destruct (I_s0 x X) as (H1 & H2 & (c & C1 & C2 & C3) & d & D1 & D2 & D3). specialize (NP x X). unfold pair_is in NP.
          rewrite (Nat.eqb_sym (i_id a)), (Nat.eqb_sym (i_id b)), NP. split; [lia|]. split; [easy|]. split.
          - destruct (in_add_ref' 1 (i_id a) (i_id b) (insts s) c C1) as (x' & X1 & X2 & X3). exists x'. repeat split; congruence.
          - destruct (in_add_ref' 1 (i_id a) (i_id b) (insts s) d D1) as (x' & X1 & X2 & X3). exists x'. repeat split; congruence. }
        { cbn [s_src s_dst s_refcnt sh']. rewrite (between0 s _ _ V0 NP), !Nat.eqb_refl. cbn [andb]. split; [reflexivity|]. split; [lia|]. split.
          - destruct (in_add_ref' 1 (i_id a) (i_id b) (insts s) a Ia) as (x' & X1 & X2 & X3). exists x'. repeat split; congruence.
          - destruct (in_add_ref' 1 (i_id a) (i_id b) (insts s) b Ib) as (x' & X1 & X2 & X3). exists x'. repeat split; congruence. }
      * intros x y X Y. apply in_app_iff in X as [X|[<-|[]]], Y as [Y|[<-|[]]]; intros E1 E2; auto; exfalso; cbn in E1, E2; eauto.
      * intros x X. fold s'. rewrite VW, uses_app, uses_one. apply in_add_ref in X as (y & Y & -> & _ & _ & ->). rewrite (I_i0 y Y).
        rewrite (Nat.eqb_sym (i_id y) (i_id a)), (Nat.eqb_sym (i_id y) (i_id b)).
        destruct (Nat.eqb_spec (i_id a) (i_id y)), (Nat.eqb_spec (i_id b) (i_id y)); cbn [orb]; try lia.
      * intros x X. fold s'. apply in_app_iff in X as [X|[<-|[]]].
        { destruct (I_t0 x X) as [U1 U2]. split; (eapply tab_ok_weak; [|eassumption]); intros p q; apply INS. }
        { cbn [s_smap s_stab s_dmap s_dtab s_src s_dst sh']. split.
          - eapply tab_ok_set; [apply tab_ok_empty|exact Bs| |exact Psm|exact Pst]. exact LAST.
          - eapply tab_ok_set; [apply tab_ok_empty|exact Bd| |exact Pdm|exact Pdt]. exact LAST. }
    + right. eexists. split; [reflexivity|]. cbn [l_port l_id l_route]. split; [easy|]. split; [easy|]. split.
      * intros p q J. apply (in_view s V) in J as (r & sh & _ & S1 & _ & E1 & E2 & _). eauto.
      * split; [easy|]. intros r R. destruct (I_r s V r R) as (_ & _ & x & X1 & X2). apply (I_ls s V) in X1. lia.
    + intros x X. cbn [shareds s'] in X. apply in_app_iff in X as [X|[<-|[]]].
      * left. split; [exact X|]. specialize (NP x X). unfold pair_is in NP.
        destruct (Nat.eqb_spec (s_src x) (i_id a)); [|now left]. destruct (Nat.eqb_spec (s_dst x) (i_id b)); [easy|now right].
      * right. split; [reflexivity|]. split; [reflexivity|]. exists (repeat false 256), (repeat false 256). cbn [s_smap s_dmap sh']. repeat split; auto.
        right. intros p q J. apply (in_view s V) in J as (r & sh & _ & S1 & _ & E1 & E2 & _). eauto.
Qed.

(** ** Deleting a route *)
Lemma filter_del (l1 l2 : list route) r : NoDup (map r_id (l1 ++ r :: l2)) ->
  filter (fun x => negb (Nat.eqb (r_id x) (r_id r))) (l1 ++ r :: l2) = l1 ++ l2.
Proof.
  rewrite map_app. cbn [map]. intros N. apply NoDup_remove in N as [_ N]. rewrite filter_app. cbn [filter]. rewrite Nat.eqb_refl. cbn [negb].
  assert (F : forall l, (forall x, In x l -> In (r_id x) (map r_id l1 ++ map r_id l2)) -> filter (fun x => negb (Nat.eqb (r_id x) (r_id r))) l = l).
  { induction l as [|x l IH]; [easy|]. intros H. cbn [filter]. destruct (Nat.eqb_spec (r_id x) (r_id r)) as [E|E].
    - exfalso. apply N. rewrite <- E. apply H. now left.
    - cbn [negb]. f_equal. apply IH. intros y Y. apply H. now right. }
  rewrite !F; [easy| |]; intros x X; apply in_app_iff; [right|left]; now apply in_map.
Qed.

Lemma route_del_spec s n1 v1 n2 v2 : Inv s ->
  (route_del s n1 v1 n2 v2 = Some (s, Warn)) \/
  (exists a b l1 r l2, In a (insts s) /\ In b (insts s) /\ name_is n1 a = true /\ name_is n2 b = true /\
     routes s = l1 ++ r :: l2 /\ view s = flat_map (rt_of (shareds s)) l1 ++ (i_id a, uint32 v1, i_id b, uint32 v2) :: flat_map (rt_of (shareds s)) l2 /\
     ~ In (i_id a, uint32 v1, i_id b, uint32 v2) (flat_map (rt_of (shareds s)) l1) /\
     ((between (view s) (i_id a) (i_id b) = 1 /\ route_del s n1 v1 n2 v2 = None) \/
      (1 < between (view s) (i_id a) (i_id b) /\ exists s', route_del s n1 v1 n2 v2 = Some (s', Ok) /\ Inv s' /\ conns s' = conns s /\ links s' = links s /\
         routes s' = l1 ++ l2 /\ next s' = next s /\ insts s' = add_ref (-1) (i_id a) (i_id b) (insts s) /\
         (forall x, In x (shareds s') -> (In x (shareds s) /\ (s_src x <> i_id a \/ s_dst x <> i_id b)) \/
           (s_src x = i_id a /\ s_dst x = i_id b /\ exists y, In y (shareds s) /\ s_src y = i_id a /\ s_dst y = i_id b /\
             put (s_smap y) (Z.to_nat (uint32 v1)) false = Some (s_smap x) /\ put (s_dmap y) (Z.to_nat (uint32 v2)) false = Some (s_dmap x))) /\
         view s' = flat_map (rt_of (shareds s)) l1 ++ flat_map (rt_of (shareds s)) l2))).
Proof.
  intros V. unfold route_del. destruct (route_args s n1 v1 n2 v2) as [[[[a ss] b] ds]|] eqn:A; [|now left].
  apply route_args_spec in A as (Ia & Ib & Na & Nb & Ta & Tb & Bs & Bd & -> & ->).
  set (ss := uint32 v1) in *. set (ds := uint32 v2) in *.
  pose proof (neq_types s a b V Ia Ib Ta Tb) as AB.
  pose proof (find_routeM_spec s (fun r sh => pair_is (i_id a) (i_id b) sh && (r_ss r =? ss) && (r_ds r =? ds)) (routes s) V (fun r H => H)) as W.
  destruct (find_routeM _ _ _) as [[[r sh]|]|]; [|now left|easy].
  destruct W as (l1 & l2 & R & S1 & S2 & PI & FST). apply andb_true_iff in PI as [PI P4]. apply andb_true_iff in PI as [PI P3].
  unfold pair_is in PI. apply andb_true_iff in PI as [P1 P2]. apply Nat.eqb_eq in P1, P2. apply Z.eqb_eq in P3, P4.
  assert (VW : view s = flat_map (rt_of (shareds s)) l1 ++ (i_id a, ss, i_id b, ds) :: flat_map (rt_of (shareds s)) l2).
  { unfold view. rewrite R, view_app. cbn [flat_map]. f_equal. unfold rt_of at 1. rewrite <- S2, (shared_pair_in _ sh (I_ns s V) S1).
    cbn [app]. now rewrite P1, P2, P3, P4. }
  right. exists a, b, l1, r, l2. do 6 (split; [assumption|]). split.
  { intros J. apply in_flat_map in J as (r' & J1 & J2).
    assert (R' : In r' (routes s)) by (rewrite R; apply in_app_iff; now left).
    destruct (I_r s V r' R') as (_ & _ & x & X1 & X2). unfold rt_of in J2. rewrite <- X2, (shared_pair_in _ x (I_ns s V) X1) in J2. destruct J2 as [J2|[]].
    injection J2 as E1 E2 E3 E4. specialize (FST r' x J1 X1 X2). unfold pair_is in FST.
    rewrite E1, E2, E3, E4, !Nat.eqb_refl, !Z.eqb_refl in FST. easy. }
  destruct (I_s s V sh S1) as (C & CP & _). rewrite P1, P2 in C.
  destruct (s_refcnt sh - 1 =? 0) eqn:Z1.
  - left. apply Z.eqb_eq in Z1. split; [lia|reflexivity].
  - right. apply Z.eqb_neq in Z1. split; [lia|].
    destruct (I_t s V sh S1) as [T1 T2].
    destruct (unmap_route_some sh ss ds _ _ T1 T2 Bs Bd) as (sm & dm & st & dt & M & Psm & Pst & Pdm & Pdt). rewrite M. clear M.
    set (sh' := mkS _ _ _ _ _ _ _ _). eexists. split; [reflexivity|]. set (s' := mkSt _ _ _ _ _ _).
    assert (N : NoDup (map r_id (l1 ++ r :: l2))) by (rewrite <- R; apply (I_nr s V)).
    assert (R' : routes s' = l1 ++ l2) by (cbn [routes s']; rewrite R; now apply filter_del).
    assert (SP : forall id, shared_pair (shareds s') id = shared_pair (shareds s) id).
    { intros id. apply set_shared_pair. intros x X E. rewrite (id_inj s_id (shareds s) x sh (I_ns s V) X S1 E). easy. }
    assert (VW' : view s' = flat_map (rt_of (shareds s)) l1 ++ flat_map (rt_of (shareds s)) l2).
    { unfold view. rewrite R', view_app. f_equal; apply flat_ext; intros; apply SP. }
    assert (US : forall i, uses (view s) i = uses (view s') i + (if Nat.eqb (i_id a) i || Nat.eqb (i_id b) i then 1 else 0)).
    { intros i. rewrite VW, VW', !uses_app. change (?x :: ?y) with ([x] ++ y). rewrite uses_app, uses_one. lia. }
    assert (BS : forall c d, between (view s) c d = between (view s') c d + (if Nat.eqb (i_id a) c && Nat.eqb (i_id b) d then 1 else 0)).
    { intros c d. rewrite VW, VW', !between_app. change (?x :: ?y) with ([x] ++ y). rewrite between_app, between_one. lia. }
    assert (RI : forall x, In x (l1 ++ l2) -> In x (routes s)).
    { intros x X. rewrite R. apply in_app_iff in X as [X|X]; apply in_app_iff; [now left|right; now right]. }
    assert (IN : forall c p d q, In (c, p, d, q) (view s) -> (c, p, d, q) <> (i_id a, ss, i_id b, ds) -> In (c, p, d, q) (view s')).
    { intros c p d q J D. rewrite VW in J. rewrite VW'. apply in_app_iff in J as [J|[J|J]]; apply in_app_iff; [now left|congruence|now right]. }
    assert (SX : forall x, In x (shareds s') -> (In x (shareds s) /\ (s_src x <> i_id a \/ s_dst x <> i_id b)) \/
           (s_src x = i_id a /\ s_dst x = i_id b /\ exists y, In y (shareds s) /\ s_src y = i_id a /\ s_dst y = i_id b /\
             put (s_smap y) (Z.to_nat ss) false = Some (s_smap x) /\ put (s_dmap y) (Z.to_nat ds) false = Some (s_dmap x))).
    { intros x X. cbn [shareds s'] in X. apply in_set_shared in X as [[-> _]|[X D]].
      - right. split; [exact P1|]. split; [exact P2|]. exists sh. cbn [s_smap s_dmap sh']. repeat split; auto.
      - left. split; [exact X|]. destruct (Nat.eq_dec (s_src x) (i_id a)); [|now left]. right. intros E2. apply D.
        rewrite (I_p s V x sh X S1) by congruence. easy. }
    split; [|repeat split; auto].
    pose proof V as V0. destruct V. constructor; rewrite ?R'; cbn [insts shareds next s'].
    + now rewrite add_ref_ids.
    + intros x X. apply in_add_ref in X as (y & Y & -> & _). now apply I_li0 in Y.
    + rewrite map_app. rewrite map_app in N. cbn [map] in N. now apply NoDup_remove_1 in N.
    + intros x X. apply I_lr0. auto.
    + now rewrite set_shared_ids.
    + intros x X. apply in_set_shared in X as [[-> X]|[X _]]; [cbn; apply I_ls0 in S1; lia|now apply I_ls0 in X].
    + intros x X. destruct (I_r0 x (RI x X)) as (H1 & H2 & y & Y1 & Y2). repeat split; try lia.
      destruct (set_shared_in (shareds s) sh' y Y1) as (z & Z1' & Z2'). exists z. split; [easy|congruence].
    + intros x X. fold s'.
      assert (Y : exists y, In y (shareds s) /\ s_src x = s_src y /\ s_dst x = s_dst y /\
                  s_refcnt x = s_refcnt y - (if Nat.eqb (i_id a) (s_src y) && Nat.eqb (i_id b) (s_dst y) then 1 else 0) /\ 0 < s_refcnt x).
      { apply in_set_shared in X as [[-> _]|[X D]].
        - exists sh. cbn. rewrite P1, P2, !Nat.eqb_refl. cbn [andb]. repeat split; auto. lia.
        - exists x. repeat split; auto; [|now apply I_s0]. destruct (_ && _) eqn:E; [|lia]. apply andb_true_iff in E as [E1 E2]. apply Nat.eqb_eq in E1, E2.
          exfalso. apply D. rewrite (I_p0 x sh X S1) by congruence. easy. }
      destruct Y as (y & Y1 & Y2 & Y3 & Y4 & Y5). destruct (I_s0 y Y1) as (H1 & H2 & (c & C1 & C2 & C3) & d & D1 & D2 & D3).
      rewrite Y2, Y3. split; [rewrite Y4, H1, BS; lia|]. split; [easy|]. split.
      { destruct (in_add_ref' (-1) (i_id a) (i_id b) (insts s) c C1) as (x' & X1 & X2 & X3). exists x'. repeat split; congruence. }
      { destruct (in_add_ref' (-1) (i_id a) (i_id b) (insts s) d D1) as (x' & X1 & X2 & X3). exists x'. repeat split; congruence. }
    + intros x y X Y. apply in_set_shared in X as [[-> _]|[X DX]], Y as [[-> _]|[Y DY]]; intros E1 E2; auto.
      { exfalso. apply DY. cbn in *. now rewrite (I_p0 y sh Y S1) by easy. }
      { exfalso. apply DX. cbn in *. now rewrite (I_p0 x sh X S1) by easy. }
    + intros x X. fold s'. apply in_add_ref in X as (y & Y & -> & _ & _ & ->). rewrite (I_i0 y Y), US.
      rewrite (Nat.eqb_sym (i_id y) (i_id a)), (Nat.eqb_sym (i_id y) (i_id b)).
      destruct (Nat.eqb_spec (i_id a) (i_id y)), (Nat.eqb_spec (i_id b) (i_id y)); cbn [orb]; try lia.
    + intros x X. fold s'. apply in_set_shared in X as [[-> _]|[X D]].
      { cbn [s_smap s_stab s_dmap s_dtab s_src s_dst sh']. split.
        - eapply tab_ok_clear; [exact T1|exact Bs| |exact Psm|exact Pst]. intros p q D J. apply IN; [easy|congruence].
        - eapply tab_ok_clear; [exact T2|exact Bd| |exact Pdm|exact Pdt]. intros p q D J. apply IN; [easy|congruence]. }
      { destruct (I_t0 x X) as [U1 U2].
        assert (NE : forall p q, (s_src x, p, s_dst x, q) <> (i_id a, ss, i_id b, ds)).
        { intros p q E. injection E as E1 _ E2 _. apply D. rewrite (I_p0 x sh X S1) by congruence. easy. }
        split; (eapply tab_ok_weak; [|eassumption]); intros p q J; apply IN; auto. }
Qed.

(** ** Every history *)
Inductive reach : st -> Prop :=
| reach0 : reach st0
| reach1 s o s' x : reach s -> step s o = Some (s', x) -> reach s'.
Lemma step_Inv s o s' x : Inv s -> step s o = Some (s', x) -> Inv s'.
Proof.
  intros V. destruct o; cbn [step]; intros H.
  - pose proof (Inv_inst_add s name ty addr port V) as W. destruct (instance_add _ _ _ _ _) as [t r]. injection H as <- <-. exact W.
  - destruct (instance_del s name) as [[t r]|] eqn:E; [|easy]. injection H as <- <-. eapply Inv_inst_del; [exact V|exact E].
  - destruct (route_add_spec s n1 v1 n2 v2 bound V) as [E|(a & b & t & i' & E & W & _)]; rewrite E in H; injection H as <- <-; easy.
  - destruct (route_del_spec s n1 v1 n2 v2 V) as [E|(a & b & l1 & r & l2 & _ & _ & _ & _ & _ & _ & _ & [[_ E]|(_ & t & E & W & _)])];
      rewrite E in H; [injection H as <- <-; exact V|easy|injection H as <- <-; exact W].
  - destruct (accept s lid ok) as [[t r]|] eqn:E; [|easy]. injection H as <- <-. cbn [fst]. unfold accept in E.
    destruct (find _ _); [|easy]. destruct (find_route _ _) as [r0|]; [|easy]. destruct (find_shared _ _); [|easy]. destruct (find_inst _ _); [|easy].
    destruct ok; injection E as <- <-; [apply Inv_conns; [exact V|lia]|exact V].
  - injection H as <- <-. apply Inv_conns; [exact V|lia].
  - destruct (sock_src_cb _ _ _); [|easy]. injection H as <- <-. exact V.
  - destruct (sock_dst_cb _ _ _); [|easy]. injection H as <- <-. exact V.
Qed.
Lemma reach_Inv s : reach s -> Inv s.
Proof. induction 1; [exact Inv0|eapply step_Inv; eassumption]. Qed.
