(** C91: memory shared by lines and their copies. *)
From Coq Require Import List Arith Lia Bool ZArith Permutation.
From Verif Require Import Base ShareModel ShareSpec.
Import ListNotations.

Definition roles (x : obj) : list nat := o_parent x :: o_refs x.
Definition holds (o : nat) (x : line) : bool := (l_ctr x =? o) || match l_data x with Some d => d =? o | None => false end.
Definition holders (ls : list line) (o : nat) : list nat := map l_id (filter (holds o) ls).
Lemma holds_points o x : holds o x = true <-> points o x.
Proof.
  unfold holds, points. rewrite orb_true_iff, Nat.eqb_eq. destruct (l_data x) as [d|]; [rewrite Nat.eqb_eq|]; intuition congruence.
Qed.
Lemma holders_app a b o : holders (a ++ b) o = holders a o ++ holders b o.
Proof. unfold holders. now rewrite filter_app, map_app. Qed.
Lemma holders_one y o : holders [y] o = if holds o y then [l_id y] else [].
Proof. unfold holders. cbn [filter]. now destruct (holds o y). Qed.
Lemma holds_new l c o : holds o (mkL l c None) = (c =? o).
Proof. unfold holds. cbn. apply orb_false_r. Qed.
Lemma holders_ids ls o l : In l (holders ls o) -> In l (map l_id ls).
Proof. unfold holders. intros H. apply in_map_iff in H. destruct H as (x & <- & H). apply filter_In in H. now apply in_map. Qed.
Lemma holders_nodup ls o : NoDup (map l_id ls) -> NoDup (holders ls o).
Proof.
  unfold holders. induction ls as [|x ls IH]; cbn; [easy|]. intros H. apply NoDup_cons_iff in H. destruct H as [H H'].
  destruct (holds o x); [|now apply IH]. cbn. apply NoDup_cons; [|now apply IH].
  intros C. apply H. now apply holders_ids in C.
Qed.

Lemma nodup_snoc (l : list nat) (x : nat) : NoDup l -> ~ In x l -> NoDup (l ++ [x]).
Proof. intros H N. apply (Permutation_NoDup (l := x :: l)); [apply Permutation_cons_append|now apply NoDup_cons]. Qed.

(** *** giving up a share *)
Lemma drop_perm l rs : In l rs -> Permutation rs (l :: drop l rs).
Proof.
  induction rs as [|r rs IH]; [easy|]. cbn. destruct (Nat.eqb_spec r l) as [->|N]; [easy|].
  intros [H|H]; [congruence|]. rewrite (IH H) at 1. apply perm_swap.
Qed.
Lemma existsb_in l rs : existsb (Nat.eqb l) rs = true <-> In l rs.
Proof. rewrite existsb_exists. split; [intros (y & H & E); apply Nat.eqb_eq in E; now subst|]. intros H. exists l. split; [easy|apply Nat.eqb_refl]. Qed.
Lemma give_up_role l x rest : Permutation (roles x) (l :: rest) ->
  match give_up l x with None => rest = [] | Some y => Permutation (roles y) rest /\ o_val y = o_val x end.
Proof.
  intros P. unfold give_up, roles in *.
  destruct (existsb (Nat.eqb l) (o_refs x)) eqn:E.
  - apply existsb_in in E. cbn. split; [|easy]. apply Permutation_cons_inv with l. rewrite <- P.
    rewrite perm_swap. apply perm_skip. symmetry. now apply drop_perm.
  - assert (N : ~ In l (o_refs x)) by (rewrite <- existsb_in; congruence).
    destruct (Nat.eqb_spec (o_parent x) l) as [<-|D].
    + apply Permutation_cons_inv in P. destruct (o_refs x) as [|r t] eqn:R; [now apply Permutation_nil|]. now cbn.
    + exfalso. assert (In l (o_parent x :: o_refs x)) as [H|H] by (rewrite P; now left); congruence.
Qed.
Lemma give_up_other l x : ~ In l (roles x) -> give_up l x = Some x.
Proof.
  unfold give_up, roles. cbn. intros N. destruct (existsb (Nat.eqb l) (o_refs x)) eqn:E.
  { apply existsb_in in E. tauto. }
  destruct (Nat.eqb_spec (o_parent x) l); [tauto|easy].
Qed.

(** *** the invariant *)
Record R (s : st) (i : ideal) : Prop := {
  r_lines : lines s = i_lines i;
  r_next : next s = i_next i;
  r_out : out s = i_out i;
  r_ids : NoDup (map l_id (lines s));
  r_lt : forall x, In x (lines s) -> l_id x < next s /\ l_ctr x < next s /\ forall d, l_data x = Some d -> d < next s;
  r_disj : forall x y d, In x (lines s) -> In y (lines s) -> l_data x = Some d -> l_ctr y <> d;
  r_heap : forall o x, heap s o = Some x -> Permutation (roles x) (holders (lines s) o) /\ o_val x = i_val i o;
  r_none : forall o, heap s o = None -> holders (lines s) o = [];
  r_groups : groups s = counters i }.

Lemma holders_new ls o n : (forall x, In x ls -> l_ctr x < n /\ forall d, l_data x = Some d -> d < n) -> n <= o -> holders ls o = [].
Proof.
  intros H O. unfold holders. induction ls as [|x ls IH]; [easy|]. cbn.
  destruct (H x (or_introl eq_refl)) as [H1 H2]. unfold holds at 1.
  destruct (Nat.eqb_spec (l_ctr x) o); [lia|]. cbn.
  assert (E : match l_data x with Some d => d =? o | None => false end = false).
  { destruct (l_data x) as [d|]; [|easy]. specialize (H2 d eq_refl). apply Nat.eqb_neq. lia. }
  rewrite E. apply IH. intros y Y. apply H. now right.
Qed.
Lemma heap_new s i o : R s i -> next s <= o -> heap s o = None.
Proof.
  intros HR O. destruct (heap s o) as [x|] eqn:E; [|easy]. destruct (r_heap s i HR o x E) as [P _].
  rewrite (holders_new (lines s) o (next s)) in P; [|intros y Y; apply (r_lt s i HR y Y)|exact O].
  symmetry in P. apply Permutation_nil in P. discriminate.
Qed.
Lemma heap_held s i x o : R s i -> In x (lines s) -> points o x -> exists y, heap s o = Some y.
Proof.
  intros HR H P. destruct (heap s o) as [y|] eqn:E; [now exists y|]. apply (r_none s i HR) in E.
  apply holds_points in P. assert (C : In (l_id x) (holders (lines s) o)) by (apply in_map, filter_In; now split).
  now rewrite E in C.
Qed.
Lemma find_split ls l x : find ls l = Some x -> NoDup (map l_id ls) ->
  l_id x = l /\ exists a b, ls = a ++ x :: b /\ ~ In l (map l_id a) /\ ~ In l (map l_id b).
Proof.
  intros F N. unfold find in F. apply find_some in F. destruct F as [F E]. apply Nat.eqb_eq in E. split; [exact E|].
  apply in_split in F. destruct F as (a & b & ->). exists a, b. split; [easy|].
  rewrite map_app in N. cbn in N. apply NoDup_remove_2 in N. rewrite in_app_iff in N. subst l. tauto.
Qed.
Lemma remove_split a x b : ~ In (l_id x) (map l_id a) -> ~ In (l_id x) (map l_id b) -> remove (a ++ x :: b) (l_id x) = a ++ b.
Proof.
  intros A B. unfold remove. rewrite filter_app. cbn. rewrite Nat.eqb_refl. cbn. f_equal.
  - clear B. induction a as [|y a IH]; [easy|]. cbn in *. destruct (Nat.eqb_spec (l_id y) (l_id x)); [tauto|]. cbn. f_equal. apply IH. tauto.
  - clear A. induction b as [|y b IH]; [easy|]. cbn in *. destruct (Nat.eqb_spec (l_id y) (l_id x)); [tauto|]. cbn. f_equal. apply IH. tauto.
Qed.
Lemma map_other (f : line -> line) l ls : (forall y, l_id y <> l -> f y = y) -> ~ In l (map l_id ls) -> map f ls = ls.
Proof.
  intros F. induction ls as [|y ls IH]; [easy|]. cbn. intros N. rewrite F; [|tauto]. f_equal. apply IH. tauto.
Qed.
Lemma filter_ext_in' {A} (f g : A -> bool) l : (forall x, In x l -> f x = g x) -> filter f l = filter g l.
Proof. apply filter_ext_in. Qed.
Lemma seq_counters (p : nat -> bool) n k : (forall g, n <= g -> g < n + k -> p g = false) ->
  filter p (rev (seq 0 (n + k))) = filter p (rev (seq 0 n)).
Proof.
  intros H. rewrite seq_app, rev_app_distr, filter_app. cbn [Nat.add].
  replace (filter p (rev (seq n k))) with (@nil nat); [easy|]. symmetry.
  assert (F : forall x, In x (rev (seq n k)) -> p x = false).
  { intros x X. apply in_rev, in_seq in X. apply H; lia. }
  induction (rev (seq n k)) as [|x l IH]; [easy|]. cbn. rewrite F; [|now left]. apply IH. intros y Y. apply F. now right.
Qed.
Lemma walk_ok s i gs : R s i -> (forall g, In g gs -> exists x, In x (lines s) /\ l_ctr x = g) -> walk (heap s) gs = Some (map (i_val i) gs).
Proof.
  intros HR H. induction gs as [|g gs IH]; [easy|]. cbn. destruct (H g (or_introl eq_refl)) as (x & X & C).
  destruct (heap_held s i x g HR X (or_introl C)) as [y Y]. rewrite Y, IH; [|intros g' G; apply H; now right].
  now rewrite (proj2 (r_heap s i HR g y Y)).
Qed.

Lemma step_create s i : R s i -> R (line_create true s) (i_step i (Create true)).
Proof.
  intros HR. unfold line_create. cbn [i_step]. rewrite <- (r_next s i HR), <- (r_lines s i HR), <- (r_out s i HR).
  set (l := next s). pose proof (r_lt s i HR) as LT. fold l in LT.
  constructor; cbn [lines next out i_lines i_next i_out heap groups i_val]; try reflexivity.
  - rewrite map_app. cbn. apply nodup_snoc; [apply (r_ids s i HR)|].
    intros Y. apply in_map_iff in Y. destruct Y as (x & E & X). apply LT in X. lia.
  - intros x X. apply in_app_iff in X. destruct X as [X|[<-|[]]]; [|cbn; split; [lia|split; [lia|easy]]].
    destruct (LT x X) as (A & B & C). split; [lia|]. split; [lia|]. intros d D. specialize (C d D). lia.
  - intros x y d X Y D. apply in_app_iff in X, Y. destruct X as [X|[<-|[]]]; [|discriminate D].
    destruct Y as [Y|[<-|[]]]; [now apply (r_disj s i HR x y d)|]. cbn. destruct (LT x X) as (_ & _ & C). specialize (C d D). lia.
  - intros o x. unfold hset, vset. rewrite holders_app. destruct (Nat.eqb_spec o (S l)) as [->|N].
    + intros H. injection H as <-. rewrite (holders_new (lines s) (S l) l) by (try lia; intros y Y; apply (LT y Y)).
      rewrite holders_one, holds_new, Nat.eqb_refl. split; reflexivity.
    + intros H. destruct (r_heap s i HR o x H) as [P V]. split; [|exact V]. rewrite P.
      rewrite holders_one, holds_new. destruct (Nat.eqb_spec (S l) o); [congruence|]. now rewrite app_nil_r.
  - intros o. unfold hset. destruct (Nat.eqb_spec o (S l)) as [->|N]; [discriminate|]. intros H. rewrite holders_app, (r_none s i HR o H).
    unfold holders. cbn [filter]. unfold holds. cbn [l_ctr l_data]. destruct (Nat.eqb_spec (S l) o); [congruence|]. reflexivity.
  - unfold counters. cbn [i_lines i_next]. rewrite (r_groups s i HR). unfold counters. rewrite <- (r_lines s i HR), <- (r_next s i HR). fold l.
    replace (S (S l)) with (l + 2) by lia. rewrite seq_app. cbn [seq Nat.add]. rewrite rev_app_distr. cbn [rev app filter].
    rewrite !existsb_app. cbn [existsb l_ctr]. rewrite Nat.eqb_refl, orb_true_r.
    assert (Z : forall k, l <= k -> existsb (fun x => l_ctr x =? k) (lines s) = false).
    { intros k K. apply not_true_is_false. intros C. apply existsb_exists in C. destruct C as (x & X & C). apply Nat.eqb_eq in C. apply LT in X. lia. }
    rewrite (Z l (le_n l)). destruct (Nat.eqb_spec (S l) l); [lia|]. cbn [orb].
    f_equal. apply filter_ext_in'. intros g G. apply in_rev, in_seq in G. rewrite existsb_app. cbn [existsb l_ctr].
    destruct (Nat.eqb_spec (S l) g); [lia|]. now rewrite !orb_false_r.
Qed.

Lemma set_refs s i c o x : R s i -> heap s o = Some x -> forall h, reference c o h = match h o with Some x => Ok (hset h o (Some (mkObj (o_parent x) (c :: o_refs x) (o_val x)))) | None => UseAfterFree end.
Proof. intros; unfold reference; reflexivity. Qed.

Lemma step_clone s i l x : R s i -> find (lines s) l = Some x ->
  exists s', line_clone x s = Ok s' /\ R s' (i_step i (Clone l)).
Proof.
  intros HR F. destruct (find_split _ _ _ F (r_ids s i HR)) as (E & a & b & LS & NA & NB).
  assert (X : In x (lines s)) by (rewrite LS; apply in_app_iff; right; now left).
  unfold line_clone. set (c := next s). cbn [i_step]. unfold find in F. rewrite <- (r_lines s i HR), F.
  destruct (heap_held s i x (l_ctr x) HR X (or_introl eq_refl)) as [g G]. unfold reference at 1. rewrite G.
  set (h1 := hset (heap s) (l_ctr x) (Some (mkObj (o_parent g) (c :: o_refs g) (o_val g)))).
  assert (H2 : exists h2, match l_data x with Some d => reference c d h1 | None => Ok h1 end = Ok h2 /\
     (forall o, h2 o = if holds o x then match heap s o with Some y => Some (mkObj (o_parent y) (c :: o_refs y) (o_val y)) | None => None end else heap s o)).
  { destruct (l_data x) as [d|] eqn:D.
    - destruct (heap_held s i x d HR X (or_intror D)) as [y Y].
      pose proof (r_disj s i HR x x d X X D) as DJ. unfold reference, h1, hset at 1.
      destruct (Nat.eqb_spec d (l_ctr x)); [congruence|]. rewrite Y. eexists. split; [reflexivity|].
      intros o. unfold hset, holds. rewrite D, (Nat.eqb_sym (l_ctr x)), (Nat.eqb_sym d).
      destruct (Nat.eqb_spec o d) as [->|]; [now rewrite Y, orb_true_r|]. rewrite orb_false_r. destruct (Nat.eqb_spec o (l_ctr x)) as [->|]; [now rewrite G|easy].
    - exists h1. split; [easy|]. intros o. unfold h1, hset, holds. rewrite D, orb_false_r, (Nat.eqb_sym (l_ctr x)).
      destruct (Nat.eqb_spec o (l_ctr x)) as [->|]; [now rewrite G|easy]. }
  destruct H2 as (h2 & -> & H2). eexists. split; [reflexivity|].
  pose proof (r_lt s i HR) as LT. fold c in LT. rewrite <- (r_next s i HR), <- (r_out s i HR). fold c.
  set (y0 := mkL c (l_ctr x) (l_data x)).
  assert (HO : forall o, holders (lines s ++ [y0]) o = holders (lines s) o ++ if holds o x then [c] else []).
  { intros o. rewrite holders_app. f_equal. exact (holders_one y0 o). }
  constructor; cbn [lines next out i_lines i_next i_out heap groups i_val]; try reflexivity.
  - rewrite map_app. cbn. apply nodup_snoc; [apply (r_ids s i HR)|].
    intros Y. apply in_map_iff in Y. destruct Y as (z & E' & Z). apply LT in Z. lia.
  - destruct (LT x X) as (A & B & C). intros y Y. apply in_app_iff in Y. destruct Y as [Y|[<-|[]]].
    + destruct (LT y Y) as (A' & B' & C'). split; [lia|]. split; [lia|]. intros d D. specialize (C' d D). lia.
    + cbn. split; [lia|]. split; [lia|]. intros d D. specialize (C d D). lia.
  - intros y z d Y Z D. apply in_app_iff in Y, Z.
    destruct Y as [Y|[<-|[]]], Z as [Z|[<-|[]]]; cbn in *.
    + now apply (r_disj s i HR y z d).
    + now apply (r_disj s i HR y x d).
    + now apply (r_disj s i HR x z d).
    + now apply (r_disj s i HR x x d).
  - intros o y. rewrite H2, HO. destruct (holds o x).
    + destruct (heap s o) as [z|] eqn:Z; [|discriminate]. intros H. injection H as <-. destruct (r_heap s i HR o z Z) as [P V].
      split; [|exact V]. unfold roles in *. cbn [o_parent o_refs]. rewrite perm_swap, P. apply Permutation_cons_append.
    + rewrite app_nil_r. apply (r_heap s i HR).
  - intros o. rewrite H2, HO. destruct (holds o x) eqn:HX.
    + destruct (heap s o) as [z|] eqn:Z; [discriminate|]. apply holds_points in HX. destruct (heap_held s i x o HR X HX). congruence.
    + rewrite app_nil_r. apply (r_none s i HR).
  - rewrite (r_groups s i HR). unfold counters. cbn [i_lines i_next]. rewrite <- (r_lines s i HR), <- (r_next s i HR). fold c.
    replace (S c) with (c + 1) by lia. rewrite seq_counters.
    + apply filter_ext_in'. intros k K. rewrite existsb_app. cbn [existsb l_ctr y0].
      destruct (Nat.eqb_spec (l_ctr x) k) as [<-|]; [|now rewrite !orb_false_r]. rewrite orb_true_r.
      apply existsb_exists. exists x. split; [exact X|apply Nat.eqb_refl].
    + intros k K1 K2. apply not_true_is_false. intros C. apply existsb_exists in C. destruct C as (y & Y & C). apply Nat.eqb_eq in C.
      apply in_app_iff in Y. destruct Y as [Y|[<-|[]]]; [apply LT in Y; lia|]. cbn in C. apply LT in X. lia.
Qed.

Lemma holds_split s i a x b o : R s i -> lines s = a ++ x :: b ->
  Permutation (holders (lines s) o) ((if holds o x then [l_id x] else []) ++ holders (a ++ b) o).
Proof.
  intros HR ->. rewrite !holders_app. change (x :: b) with ([x] ++ b). rewrite holders_app, holders_one.
  destruct (holds o x); cbn; [symmetry; apply Permutation_middle|reflexivity].
Qed.
Lemma step_data s i l x : R s i -> find (lines s) l = Some x -> R (data_alloc x s) (i_step i (Data l)).
Proof.
  intros HR F. destruct (find_split _ _ _ F (r_ids s i HR)) as (E & a & b & LS & NA & NB).
  assert (X : In x (lines s)) by (rewrite LS; apply in_app_iff; right; now left).
  unfold data_alloc. cbn [i_step]. unfold find in F. rewrite <- (r_lines s i HR), F.
  destruct (l_data x) as [d0|] eqn:D0; [exact HR|]. rewrite E. rewrite <- (r_next s i HR), <- (r_out s i HR).
  set (n := next s). pose proof (r_lt s i HR) as LT. fold n in LT.
  set (f := fun y => if l_id y =? l then mkL l (l_ctr y) (Some n) else y).
  assert (FE : map (fun y => if l_id y =? l then mkL (l_id y) (l_ctr y) (Some n) else y) (lines s) = map f (lines s)).
  { apply map_ext. intros y. unfold f. now destruct (Nat.eqb_spec (l_id y) l) as [->|]. }
  rewrite FE. set (x' := mkL l (l_ctr x) (Some n)).
  assert (FO : forall y, l_id y <> l -> f y = y) by (intros y N; unfold f; now destruct (Nat.eqb_spec (l_id y) l)).
  assert (ML : map f (lines s) = a ++ x' :: b).
  { rewrite LS, map_app. cbn [map]. rewrite (map_other f l a FO NA), (map_other f l b FO NB). unfold f. now rewrite E, Nat.eqb_refl. }
  assert (IN : forall y, In y (map f (lines s)) -> (In y (lines s) \/ y = x')).
  { intros y. rewrite ML, LS, !in_app_iff. cbn. intuition. }
  assert (HO : forall o, holders (map f (lines s)) o = if o =? n then [l] else holders (lines s) o).
  { intros o. destruct (Nat.eqb_spec o n) as [->|N].
    - pose proof (holders_new (lines s) n n) as Z. rewrite LS, holders_app in Z. change (x :: b) with ([x] ++ b) in Z. rewrite holders_app in Z.
      assert (Z' : holders a n ++ holders [x] n ++ holders b n = []) by (apply Z; [intros y Y; change ([x] ++ b) with (x :: b) in Y; rewrite <- LS in Y; apply (LT y Y)|lia]).
      apply app_eq_nil in Z'. destruct Z' as [Za Z']. apply app_eq_nil in Z'. destruct Z' as [_ Zb].
      rewrite ML, holders_app. change (x' :: b) with ([x'] ++ b). rewrite holders_app, holders_one, Za, Zb. unfold holds. cbn. now rewrite Nat.eqb_refl, orb_true_r.
    - rewrite ML, LS, !holders_app. change (x' :: b) with ([x'] ++ b). change (x :: b) with ([x] ++ b). rewrite !holders_app, !holders_one.
      unfold holds. rewrite D0. cbn. rewrite E. destruct (Nat.eqb_spec n o); [congruence|]. reflexivity. }
  constructor; cbn [lines next out i_lines i_next i_out heap groups i_val]; try reflexivity.
  - pose proof (r_ids s i HR) as ND. rewrite ML. rewrite LS in ND. rewrite map_app in *. cbn in *. now rewrite E in ND.
  - intros y Y. apply IN in Y. destruct Y as [Y| ->].
    + destruct (LT y Y) as (A & B & C). split; [lia|]. split; [lia|]. intros d D. specialize (C d D). lia.
    + destruct (LT x X) as (A & B & C). cbn. split; [lia|]. split; [lia|]. intros d D. injection D as <-. lia.
  - intros y z d Y Z D. apply IN in Y, Z.
    assert (ZC : exists z0, In z0 (lines s) /\ l_ctr z0 = l_ctr z) by (destruct Z as [Z| ->]; [now exists z|now exists x]).
    destruct ZC as (z0 & Z0 & <-). destruct Y as [Y| ->]; [now apply (r_disj s i HR y z0 d)|].
    cbn in D. injection D as <-. apply LT in Z0. lia.
  - intros o y. unfold hset, vset. rewrite HO. destruct (Nat.eqb_spec o n) as [->|N].
    + intros H. injection H as <-. split; reflexivity.
    + apply (r_heap s i HR).
  - intros o. unfold hset. rewrite HO. destruct (Nat.eqb_spec o n); [discriminate|]. apply (r_none s i HR).
  - rewrite (r_groups s i HR). unfold counters. cbn [i_lines i_next]. rewrite <- (r_lines s i HR), <- (r_next s i HR). fold n.
    assert (EX : forall g, existsb (fun x => l_ctr x =? g) (map f (lines s)) = existsb (fun x => l_ctr x =? g) (lines s)).
    { intros g. rewrite ML, LS, !existsb_app. reflexivity. }
    replace (S n) with (n + 1) by lia. rewrite seq_counters.
    + apply filter_ext_in'. intros k _. now rewrite EX.
    + intros k K1 K2. rewrite EX. apply not_true_is_false. intros C. apply existsb_exists in C. destruct C as (y & Y & C). apply Nat.eqb_eq in C. apply LT in Y. lia.
Qed.

Lemma step_poke s i o f : R s i -> (exists x, heap s o = Some x) ->
  exists s', poke o f s = Ok s' /\ R s' (mkI (i_lines i) (vset (i_val i) o (f (i_val i o))) (i_next i) (i_out i)).
Proof.
  intros HR [x X]. unfold poke. rewrite X. eexists. split; [reflexivity|]. destruct HR as [H1 H2 H3 H4 H5 H6 H7 H8 H9].
  constructor; cbn [lines next out i_lines i_next i_out heap groups i_val]; try assumption.
  - intros p y. unfold hset, vset. destruct (Nat.eqb_spec p o) as [->|]; [|apply H7]. intros H. injection H as <-.
    destruct (H7 o x X) as [P V]. split; [exact P|]. cbn. now rewrite V.
  - intros p. unfold hset. destruct (Nat.eqb_spec p o); [discriminate|apply H8].
Qed.
Lemma step_emit s i e : R s i -> R (emit s e) (says i e).
Proof. intros [H1 H2 H3 H4 H5 H6 H7 H8 H9]. constructor; cbn; try assumption. now rewrite H3. Qed.

Lemma remove_filter (p : nat -> bool) g l : NoDup l ->
  List.remove Nat.eq_dec g (filter p l) = filter (fun k => p k && negb (k =? g)) l.
Proof.
  intros _. induction l as [|k l IH]; [easy|]. cbn. destruct (p k); cbn; [|exact IH].
  destruct (Nat.eq_dec g k) as [<-|N]; [now rewrite Nat.eqb_refl|]. destruct (Nat.eqb_spec k g); [congruence|]. cbn. now f_equal.
Qed.
Lemma step_end s i l x : R s i -> find (lines s) l = Some x ->
  exists s', line_end x s = Ok s' /\ R s' (i_step i (End l)).
Proof.
  intros HR F. destruct (find_split _ _ _ F (r_ids s i HR)) as (E & a & b & LS & NA & NB).
  assert (X : In x (lines s)) by (rewrite LS; apply in_app_iff; right; now left).
  assert (RM : remove (lines s) l = a ++ b) by (rewrite LS, <- E; apply remove_split; rewrite E; assumption).
  unfold line_end. rewrite E.
  destruct (heap_held s i x (l_ctr x) HR X (or_introl eq_refl)) as [g G]. rewrite G.
  pose proof (r_heap s i HR) as HH. pose proof (r_none s i HR) as HN.
  assert (HO : forall o, Permutation (holders (lines s) o) ((if holds o x then [l] else []) ++ holders (a ++ b) o)).
  { intros o. rewrite <- E. now apply (holds_split s i). }
  assert (ND : forall o, NoDup ((if holds o x then [l] else []) ++ holders (a ++ b) o)).
  { intros o. apply (Permutation_NoDup (HO o)), holders_nodup, (r_ids s i HR). }
  assert (NL : forall o, ~ In l (holders (a ++ b) o)).
  { intros o H. apply holders_ids in H. rewrite map_app, in_app_iff in H. tauto. }
  (* what is left of an object after [l] has given it up *)
  assert (GU : forall o y, heap s o = Some y -> holds o x = true ->
     match give_up l y with None => holders (a ++ b) o = [] | Some z => Permutation (roles z) (holders (a ++ b) o) /\ o_val z = i_val i o end).
  { intros o y Y H. destruct (HH o y Y) as [P V]. rewrite HO, H in P. cbn [app] in P. apply give_up_role in P.
    destruct (give_up l y) as [z|]; [|exact P]. now rewrite <- V. }
  assert (OT : forall o y, heap s o = Some y -> holds o x = false -> give_up l y = Some y /\ Permutation (roles y) (holders (a ++ b) o) /\ o_val y = i_val i o).
  { intros o y Y H. destruct (HH o y Y) as [P V]. rewrite HO, H in P. cbn [app] in P. split; [|now split].
    apply give_up_other. rewrite P. apply NL. }
  assert (NO : forall o, heap s o = None -> holders (a ++ b) o = []).
  { intros o H. apply HN in H. apply Permutation_nil. rewrite <- H at 1. rewrite HO. 
    destruct (holds o x) eqn:HX; [|reflexivity]. exfalso. pose proof (HO o) as C. rewrite H, HX in C. apply Permutation_nil in C. discriminate C. }
  assert (DONE : forall h gs, (forall o z, h o = Some z -> Permutation (roles z) (holders (a ++ b) o) /\ o_val z = i_val i o) ->
     (forall o, h o = None -> holders (a ++ b) o = []) ->
     gs = filter (fun g => existsb (fun x => l_ctr x =? g) (a ++ b)) (rev (seq 0 (next s))) ->
     R (mkS (a ++ b) h gs (next s) (out s)) (i_step i (End l))).
  { intros h gs Q1 Q2 Q3. cbn [i_step]. rewrite <- (r_lines s i HR).
    assert (RM' : filter (fun x0 => negb (l_id x0 =? l)) (lines s) = a ++ b) by exact RM. rewrite RM'.
    assert (SUB : forall y, In y (a ++ b) -> In y (lines s)) by (intros y; rewrite LS, !in_app_iff; cbn; tauto).
    constructor; cbn [lines next out i_lines i_next i_out heap groups i_val]; try assumption; try reflexivity.
    - apply (r_next s i HR).
    - apply (r_out s i HR).
    - pose proof (r_ids s i HR) as N. rewrite LS, map_app in N. cbn in N. rewrite map_app. now apply NoDup_remove_1 in N.
    - intros y Y. now apply (r_lt s i HR), SUB.
    - intros y z d Y Z. apply (r_disj s i HR); now apply SUB.
    - unfold counters. cbn [i_lines i_next]. now rewrite <- (r_next s i HR). }
  assert (HC : holds (l_ctr x) x = true) by (apply holds_points; now left).
  destruct (length (o_refs g) =? 0) eqn:LR.
  - apply Nat.eqb_eq, length_zero_iff_nil in LR. eexists. split; [reflexivity|]. rewrite RM.
    assert (SOLE : holders (a ++ b) (l_ctr x) = []).
    { destruct (HH _ _ G) as [P _]. rewrite HO, HC in P. unfold roles in P. rewrite LR in P. apply Permutation_length in P.
      cbn in P. apply length_zero_iff_nil. lia. }
    apply DONE.
    + intros o z. unfold free_line, hset. destruct (Nat.eqb_spec o (l_ctr x)); [discriminate|]. destruct (heap s o) as [y|] eqn:Y; [|discriminate].
      destruct (holds o x) eqn:HX.
      * intros Z. pose proof (GU o y Y HX) as Q. now rewrite Z in Q.
      * destruct (OT o y Y HX) as (-> & P & V). intros H. injection H as <-. now split.
    + intros o. unfold free_line, hset. destruct (Nat.eqb_spec o (l_ctr x)) as [->|]; [easy|]. destruct (heap s o) as [y|] eqn:Y; [|now intros _; apply NO].
      destruct (holds o x) eqn:HX.
      * intros Z. pose proof (GU o y Y HX) as Q. now rewrite Z in Q.
      * destruct (OT o y Y HX) as (-> & _). discriminate.
    + rewrite (r_groups s i HR). unfold counters. rewrite <- (r_lines s i HR), <- (r_next s i HR).
      rewrite remove_filter by apply NoDup_rev, seq_NoDup. apply filter_ext_in'. intros k _. rewrite LS, !existsb_app. cbn [existsb].
      destruct (Nat.eqb_spec k (l_ctr x)) as [->|N].
      * rewrite andb_false_r. symmetry. rewrite <- existsb_app. apply not_true_is_false. intros C. apply existsb_exists in C.
        destruct C as (y & Y & C). apply Nat.eqb_eq in C. assert (In (l_id y) (holders (a ++ b) (l_ctr x))) as Q; [|now rewrite SOLE in Q].
        apply in_map, filter_In. split; [exact Y|]. apply holds_points. now left.
      * destruct (Nat.eqb_spec (l_ctr x) k); [congruence|]. now rewrite andb_true_r.
  - (* another line has the counters: both pointers are given up first *)
    assert (H1 : exists h, match unlink l (l_ctr x) (heap s) with UseAfterFree => UseAfterFree | Ok h => match l_data x with Some d => unlink l d h | None => Ok h end end = Ok h /\
       forall o, h o = if holds o x then match heap s o with Some y => give_up l y | None => None end else heap s o).
    { unfold unlink at 1. rewrite G. destruct (l_data x) as [d|] eqn:D.
      - destruct (heap_held s i x d HR X (or_intror D)) as [y Y]. pose proof (r_disj s i HR x x d X X D) as DJ.
        unfold unlink, hset at 1. destruct (Nat.eqb_spec d (l_ctr x)); [congruence|]. rewrite Y. eexists. split; [reflexivity|].
        intros o. unfold hset, holds. rewrite D, (Nat.eqb_sym (l_ctr x)), (Nat.eqb_sym d).
        destruct (Nat.eqb_spec o d) as [->|]; [now rewrite Y, orb_true_r|]. rewrite orb_false_r. destruct (Nat.eqb_spec o (l_ctr x)) as [->|]; [now rewrite G|easy].
      - eexists. split; [reflexivity|]. intros o. unfold hset, holds. rewrite D, orb_false_r, (Nat.eqb_sym (l_ctr x)).
        destruct (Nat.eqb_spec o (l_ctr x)) as [->|]; [now rewrite G|easy]. }
    destruct H1 as (h & -> & H1). eexists. split; [reflexivity|]. rewrite RM.
    assert (FL : forall o, free_line l h o = h o).
    { intros o. unfold free_line. destruct (h o) as [z|] eqn:Z; [|easy]. apply give_up_other. rewrite H1 in Z.
      destruct (holds o x) eqn:HX.
      - destruct (heap s o) as [y|] eqn:Y; [|discriminate]. pose proof (GU o y Y HX) as Q. rewrite Z in Q. destruct Q as [Q _]. rewrite Q. apply NL.
      - destruct (OT o z Z HX) as (_ & Q & _). rewrite Q. apply NL. }
    apply DONE.
    + intros o z. rewrite FL, H1. destruct (holds o x) eqn:HX.
      * destruct (heap s o) as [y|] eqn:Y; [|discriminate]. intros Z. pose proof (GU o y Y HX) as Q. now rewrite Z in Q.
      * intros Z. now destruct (OT o z Z HX) as (_ & Q).
    + intros o. rewrite FL, H1. destruct (holds o x) eqn:HX; [|apply NO].
      destruct (heap s o) as [y|] eqn:Y; [|now intros _; apply NO]. intros Z. pose proof (GU o y Y HX) as Q. now rewrite Z in Q.
    + rewrite (r_groups s i HR). unfold counters. rewrite <- (r_lines s i HR), <- (r_next s i HR).
      apply filter_ext_in'. intros k _. rewrite LS, !existsb_app. cbn [existsb].
      destruct (Nat.eqb_spec (l_ctr x) k) as [<-|]; [|easy]. cbn [orb]. rewrite orb_true_r. symmetry. rewrite <- existsb_app.
      destruct (HH _ _ G) as [P _]. rewrite HO, HC in P. apply Permutation_length in P. cbn in P.
      apply Nat.eqb_neq in LR. destruct (holders (a ++ b) (l_ctr x)) as [|k r] eqn:HB; [cbn in P; lia|].
      assert (K : In k (holders (a ++ b) (l_ctr x))) by (rewrite HB; now left). apply in_map_iff in K. destruct K as (y & _ & K).
      apply filter_In in K. destruct K as [K1 K2]. apply existsb_exists. exists y. split; [exact K1|]. apply holds_points in K2. apply Nat.eqb_eq.
      destruct K2 as [K2|K2]; [exact K2|]. exfalso.
      apply (r_disj s i HR y x (l_ctr x)); [rewrite LS; revert K1; rewrite !in_app_iff; cbn; tauto|exact X|exact K2|reflexivity].
Qed.

Lemma R_init : R st_init i_init.
Proof. constructor; cbn; try easy. apply NoDup_nil. Qed.
Lemma step_ok s i v : R s i -> v <> Create false -> exists s', step s v = Ok s' /\ R s' (i_step i v).
Proof.
  intros HR NV.
  assert (FI : forall l x, find (lines s) l = Some x -> In x (lines s)) by (intros l x F; now apply find_some in F).
  assert (FE : forall l, List.find (fun x => l_id x =? l) (i_lines i) = find (lines s) l) by (intros l; now rewrite (r_lines s i HR)).
  destruct v as [ok|l|l|l v|l|l| |l]; cbn [step].
  - destruct ok; [|congruence]. eexists. split; [reflexivity|]. now apply step_create.
  - destruct (find (lines s) l) as [x|] eqn:F; [now apply step_clone|]. exists s. split; [easy|]. cbn [i_step]. now rewrite FE, F.
  - destruct (find (lines s) l) as [x|] eqn:F; [eexists; split; [reflexivity|]; now apply step_data|]. exists s. split; [easy|]. cbn [i_step]. now rewrite FE, F.
  - cbn [i_step]. rewrite FE. destruct (find (lines s) l) as [x|] eqn:F; [|now exists s]. destruct (l_data x) as [d|] eqn:D; [|now exists s].
    apply (step_poke s i d (fun _ => v) HR). apply (heap_held s i x d HR (FI l x F)). now right.
  - cbn [i_step]. rewrite FE. destruct (find (lines s) l) as [x|] eqn:F; [|now exists s]. destruct (l_data x) as [d|] eqn:D; [|eexists; split; [reflexivity|]; now apply step_emit].
    destruct (heap_held s i x d HR (FI l x F) (or_intror D)) as [y Y]. unfold peek. rewrite Y. eexists. split; [reflexivity|].
    rewrite (proj2 (r_heap s i HR d y Y)). now apply step_emit.
  - cbn [i_step]. rewrite FE. destruct (find (lines s) l) as [x|] eqn:F; [|now exists s].
    apply (step_poke s i (l_ctr x) (Z.add 1) HR). apply (heap_held s i x _ HR (FI l x F)). now left.
  - unfold tick. rewrite (r_groups s i HR), (walk_ok s i (counters i) HR).
    + eexists. split; [reflexivity|]. now apply step_emit.
    + intros g H. apply filter_In in H. destruct H as [_ H]. apply existsb_exists in H. destruct H as (x & X & H). apply Nat.eqb_eq in H.
      exists x. now rewrite (r_lines s i HR).
  - destruct (find (lines s) l) as [x|] eqn:F; [now apply step_end|]. exists s. split; [easy|]. cbn [i_step].
    assert (Q : filter (fun x => negb (l_id x =? l)) (i_lines i) = i_lines i).
    { rewrite <- (r_lines s i HR). clear - F. unfold find in F. induction (lines s) as [|y t IH]; [easy|]. cbn in *.
      destruct (l_id y =? l); [discriminate|]. cbn. f_equal. now apply IH. }
    rewrite Q. destruct HR as [H1 H2 H3 H4 H5 H6 H7 H8 H9]. now constructor.
Qed.
Lemma run_ok vs : Forall (fun v => v <> Create false) vs -> exists s, run st_init vs = Ok s /\ R s (i_run vs).
Proof.
  unfold i_run. generalize R_init. generalize st_init, i_init. induction vs as [|v vs IH]; intros s i HR F; [now exists s|].
  apply Forall_cons_iff in F. destruct F as [F1 F2]. destruct (step_ok s i v HR F1) as (s1 & S1 & R1).
  cbn [run fold_left]. rewrite S1. now apply IH.
Qed.
Lemma run_app' vs vs' s : run s (vs ++ vs') = match run s vs with Ok s => run s vs' | UseAfterFree => UseAfterFree end.
Proof. revert s. induction vs as [|v vs IH]; intros s; [easy|]. cbn. destruct (step s v); [apply IH|easy]. Qed.

(** *** C91: unless a driver refuses a line: nothing freed is ever used, and all is as if memory were
    never freed: lines see the data and counters they share with their copies, whichever of them
    ended, in whatever order *)
Theorem C91_as_if_kept vs : Forall (fun v => v <> Create false) vs ->
  exists s, run st_init vs = Ok s /\ out s = i_out (i_run vs).
Proof. intros F. destruct (run_ok vs F) as (s & S1 & HR). exists s. split; [exact S1|]. apply (r_out _ _ HR). Qed.
(** *** C91: and nothing is kept too long: an object is there exactly while a line points to it *)
Theorem C91_freed_in_time vs s o : Forall (fun v => v <> Create false) vs -> run st_init vs = Ok s ->
  (heap s o <> None <-> exists x, In x (i_lines (i_run vs)) /\ points o x).
Proof.
  intros F H. destruct (run_ok vs F) as (s' & S1 & HR). rewrite S1 in H. injection H as ->. rewrite <- (r_lines _ _ HR). split.
  - intros N. destruct (heap s o) as [y|] eqn:Y; [|easy]. destruct (r_heap _ _ HR o y Y) as [P _].
    assert (K : In (o_parent y) (holders (lines s) o)) by (rewrite <- P; now left).
    apply in_map_iff in K. destruct K as (x & _ & K). apply filter_In in K. destruct K as [K1 K2]. exists x. split; [exact K1|]. now apply holds_points.
  - intros (x & X & P). destruct (heap_held _ _ x o HR X P) as [y ->]. discriminate.
Qed.
(** *** C91: the counters libosmocore's timer goes through are those of the lines there are, once each *)
Theorem C91_groups vs s : Forall (fun v => v <> Create false) vs -> run st_init vs = Ok s ->
  NoDup (groups s) /\ forall g, In g (groups s) <-> exists x, In x (i_lines (i_run vs)) /\ l_ctr x = g.
Proof.
  intros F H. destruct (run_ok vs F) as (s' & S1 & HR). rewrite S1 in H. injection H as ->. rewrite (r_groups _ _ HR). unfold counters. split.
  - apply NoDup_filter, NoDup_rev, seq_NoDup.
  - intros g. rewrite filter_In, existsb_exists, <- in_rev, in_seq, <- (r_lines _ _ HR), <- (r_next _ _ HR). split.
    + intros (_ & x & X & E). apply Nat.eqb_eq in E. now exists x.
    + intros (x & X & <-). split; [|exists x; split; [exact X|apply Nat.eqb_refl]]. destruct (r_lt _ _ HR x X) as (_ & L & _). lia.
Qed.
(** *** C91 refuted for a driver that refuses a line: the line's counters are freed but stay in
    libosmocore's list; the next tick of its timer reads freed memory *)
Theorem C91_refused_refuted vs : Forall (fun v => v <> Create false) vs ->
  run st_init (vs ++ [Create false]) <> UseAfterFree /\ run st_init (vs ++ [Create false; Tick]) = UseAfterFree.
Proof.
  intros F. rewrite !run_app'. destruct (run_ok vs F) as (s & -> & _). split; [discriminate|].
  cbn [run step]. unfold tick, line_create. cbn [groups heap walk]. unfold free_line, hset at 1. rewrite Nat.eqb_refl.
  unfold give_up. cbn [o_refs existsb o_parent]. rewrite Nat.eqb_refl. reflexivity.
Qed.

(** a line with data, two copies (one of a copy), a copy made before there was any data; the
    original ends first, then the first copy *)
Definition share_example : list ev :=
  [Create true; Clone 0; Count 0; Data 0; Write 0 7; Clone 0; Clone 4; End 0; Read 5; End 4; Write 5 9; Read 5; Read 2; Data 2; Read 2; Count 5; Tick; End 2; Tick; End 5; Tick].
Example C91_example : Forall (fun v => v <> Create false) share_example /\
  exists s, run st_init share_example = Ok s /\
    out s = [EMade 0; EMade 2; EMade 4; EMade 5; EVal 7; EVal 9; ENull; EVal 0; ETick [2%Z]; ETick [2%Z]; ETick []] /\ heap s 1 = None /\ heap s 3 = None.
Proof.
  split; [unfold share_example; repeat (apply Forall_cons; [discriminate|]); apply Forall_nil|].
  eexists. split; [vm_compute; reflexivity|]. cbn. auto.
Qed.
