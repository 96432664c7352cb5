(** C78: the registry of E1 drivers and creating lines by driver name (src/e1_input.c). *)
From Coq Require Import List Arith Lia Bool ZArith.
From Verif Require Import Base DrvModel.
Import ListNotations.

(** ** Specification *)

(** two letters that differ at most in case *)
Definition same_letter (x y : Z) : Prop :=
  x = y \/ ((65 <= x <= 90)%Z /\ y = (x + 32)%Z) \/ ((65 <= y <= 90)%Z /\ x = (y + 32)%Z).
Definition same_name (a b : list Z) : Prop := Forall2 same_letter a b.
(** the first of [l] with that name *)
Definition is_first (names : nat -> list Z) (l : list nat) (name : list Z) (r : option nat) : Prop :=
  match r with
  | Some d => exists a b, l = a ++ d :: b /\ same_name name (names d) /\ forall e, In e a -> ~ same_name name (names e)
  | None => forall e, In e l -> ~ same_name name (names e)
  end.
(** [find] returns [r] (when allowed to look at enough objects), or never returns *)
Definition finds (names : nat -> list Z) (s : llist) (name : list Z) (r : option nat) : Prop :=
  exists n, forall fuel, n <= fuel -> e1inp_driver_find names s name fuel = Some r.
Definition never (names : nat -> list Z) (s : llist) (name : list Z) : Prop :=
  forall fuel, e1inp_driver_find names s name fuel = None.
(** drivers registered by a history, in order *)
Definition regs (es : list ev) : list nat := flat_map (fun e => match e with Register d => [d] | Init ds => ds | _ => [] end) es.
(** what any sequence of registrations leaves in the registry: a driver that is already there
    takes everything behind it out; if nothing is behind it, it is its own successor from then
    on, until the next registration of another driver *)
Fixpoint upto (d : nat) (l : list nat) : list nat :=
  match l with [] => [] | x :: r => if x =? d then [d] else x :: upto d r end.
Definition after (p : list nat * bool) (d : nat) : list nat * bool :=
  let l := fst p in
  if in_dec Nat.eq_dec d l then (if last l 0 =? d then (l, true) else (upto d l, false))
  else (l ++ [d], false).

(** ** Proofs *)

Lemma lower_spec x y : lower x = lower y <-> same_letter x y.
Proof.
  unfold lower, same_letter.
  destruct (Z.leb_spec 65 x), (Z.leb_spec x 90), (Z.leb_spec 65 y), (Z.leb_spec y 90); cbn [andb]; lia.
Qed.
Lemma strcaseeq_spec a b : strcaseeq a b = true <-> same_name a b.
Proof.
  revert b. induction a as [|x a IH]; intros [|y b]; cbn [strcaseeq].
  - split; [constructor|reflexivity].
  - split; [discriminate|]. intros H; inversion H.
  - split; [discriminate|]. intros H; inversion H.
  - rewrite andb_true_iff, Z.eqb_eq, lower_spec, IH. split.
    + intros [H1 H2]. now constructor.
    + intros H. inversion H; subst. now split.
Qed.

Fixpoint seg (f : nat -> nat) (a : nat) (l : list nat) (b : nat) : Prop :=
  match l with [] => f a = b | x :: r => f a = x /\ seg f x r b end.
(** the pointers show [l]; looped: the last one points to itself *)
Definition shows (s : llist) (p : list nat * bool) : Prop :=
  let '(l, lp) := p in
  seg (nx s) 0 l (if lp then last l 0 else 0) /\ pv s 0 = last l 0 /\ NoDup (0 :: l) /\ (lp = true -> l <> []).

Lemma upd_same f k v : upd f k v k = v.
Proof. unfold upd. now rewrite Nat.eqb_refl. Qed.
Lemma upd_other f k v i : i <> k -> upd f k v i = f i.
Proof. intros H. unfold upd. destruct (Nat.eqb_spec i k); [contradiction|reflexivity]. Qed.
Lemma seg_snoc f a u z b : seg f a (u ++ [z]) b <-> seg f a u z /\ f z = b.
Proof. revert a. induction u as [|x r IH]; intros a; cbn [seg app]; [tauto|]. rewrite IH. tauto. Qed.
Lemma seg_app f a u d v b : seg f a (u ++ d :: v) b <-> seg f a u d /\ seg f d v b.
Proof. revert a. induction u as [|x r IH]; intros a; cbn [seg app]; [tauto|]. rewrite IH. tauto. Qed.
Lemma seg_ext f g a l b : (forall i, In i (a :: l) -> f i = g i) -> seg f a l b -> seg g a l b.
Proof.
  revert a. induction l as [|x r IH]; intros a H S; cbn [seg] in *.
  - rewrite <- (H a) by (now left). exact S.
  - destruct S as [S1 S2]. split; [rewrite <- (H a) by (now left); exact S1|]. apply IH; [|exact S2]. intros i Hi. apply H. now right.
Qed.
Lemma last_snoc (u : list nat) z d : last (u ++ [z]) d = z.
Proof. induction u as [|x [|y u] IH]; cbn in *; auto. Qed.
Lemma snoc_cases (l : list nat) : l = [] \/ exists u z, l = u ++ [z].
Proof. destruct l as [|x l] using rev_ind; [now left|right; eauto]. Qed.
Lemma upto_app u d v : ~ In d u -> upto d (u ++ d :: v) = u ++ [d].
Proof.
  induction u as [|x u IH]; intros H; cbn [upto app].
  - now rewrite Nat.eqb_refl.
  - destruct (Nat.eqb_spec x d) as [->|N]; [exfalso; apply H; now left|]. f_equal. apply IH. intros ?. apply H. now right.
Qed.
Lemma nodup_mid (u v : list nat) d : NoDup (0 :: u ++ d :: v) -> ~ In d u /\ ~ In d v /\ d <> 0 /\ NoDup (0 :: u ++ [d]) /\ forall i, In i v -> ~ In i u /\ i <> 0.
Proof.
  intros N. inversion N as [|? ? N0 N1]; subst. pose proof (NoDup_remove_2 _ _ _ N1) as M.
  assert (d <> 0) by (intros ->; apply N0, in_or_app; right; now left).
  assert (Q : forall i, In i v -> ~ In i u).
  { clear N N0 M. induction u as [|x u IH]; [intros ? ? []|]. cbn in N1. inversion N1 as [|? ? X Y]; subst.
    intros i Hi [->|Hu]; [apply X, in_or_app; right; now right|now apply (IH Y i)]. }
  split; [intros ?; apply M, in_or_app; now left|]. split; [intros ?; apply M, in_or_app; now right|]. split; [assumption|]. split.
  - constructor; [intros X; apply in_app_or in X; destruct X as [X|[X|[]]]; [apply N0, in_or_app; now left|congruence]|].
    apply NoDup_remove_1 in N1 as N2. 
    assert (Nu : NoDup u). { clear - N2. induction u as [|x u IH]; [constructor|]. cbn in N2. inversion N2; subst. constructor; [intros ?; apply H1, in_or_app; now left|auto]. }
    clear - Nu M. induction u as [|x u IH]; [constructor; [intros []|constructor]|]. cbn. inversion Nu; subst. constructor.
    + intros X. apply in_app_or in X. destruct X as [X|[X|[]]]; [contradiction|]. subst. apply M. now left.
    + apply IH; try assumption. intros X. apply M. now right.
  - intros i Hi. split; [now apply Q|]. intros ->. apply N0, in_or_app. right. now right.
Qed.
Lemma nodup_snoc (l : list nat) d : d <> 0 -> ~ In d l -> NoDup (0 :: l) -> NoDup (0 :: l ++ [d]).
Proof.
  intros D M N. inversion N as [|? ? N0 N1]; subst. constructor.
  - intros X. apply in_app_or in X. destruct X as [X|[X|[]]]; congruence.
  - clear N N0. induction l as [|x l IH]; [constructor; [intros []|constructor]|]. cbn. inversion N1; subst. constructor.
    + intros X. apply in_app_or in X. destruct X as [X|[X|[]]]; [contradiction|]. subst. apply M. now left.
    + apply IH; [|assumption]. intros X. apply M. now right.
Qed.

(** one registration, whatever the registry shows *)
Lemma register_shows s p d : d <> 0 -> shows s p -> shows (e1inp_driver_register s d) (after p d).
Proof.
  destruct p as [l lp]. intros D (S & P & N & L). unfold after, e1inp_driver_register, llist_add_tail. cbn [fst].
  destruct (in_dec Nat.eq_dec d l) as [I|I].
  - destruct (Nat.eqb_spec (last l 0) d) as [E|E].
    + (* the last one again *)
      destruct (snoc_cases l) as [->|(u & z & ->)]; [destruct I|]. rewrite last_snoc in *. subst z. rewrite P.
      unfold shows. cbn [nx pv]. rewrite last_snoc. destruct (nodup_mid u [] d N) as (Nu & _ & _ & _ & _).
      split; [|split; [|split; [exact N|]]].
      * apply seg_snoc in S. apply seg_snoc. split; [|now rewrite upd_same].
        apply (seg_ext (nx s)); [|exact (proj1 S)]. intros i Hi. rewrite !upd_other; [reflexivity| |]; intros ->; destruct Hi as [?|?]; auto.
      * rewrite upd_other by auto. apply upd_same.
      * intros _ X. now apply app_eq_nil in X.
    + apply in_split in I as I2. destruct I2 as (u & v & ->). destruct (nodup_mid u v d N) as (Nu & Nv & _ & Nd & Q).
      rewrite upto_app by exact Nu. destruct (snoc_cases v) as [->|(w & z & ->)]; [now rewrite last_snoc in E|].
      rewrite app_comm_cons, app_assoc, last_snoc in *. rewrite P. unfold shows. cbn [nx pv]. rewrite last_snoc.
      assert (Hz : ~ In z u /\ z <> 0) by (apply Q, in_or_app; right; now left). destruct Hz as [Hz1 Hz2].
      assert (zd : z <> d) by exact E.
      split; [|split; [|split; [exact Nd|discriminate]]].
      * apply seg_snoc in S. destruct S as [S _]. apply seg_app in S. destruct S as [S _]. apply seg_snoc. split.
        -- apply (seg_ext (nx s)); [|exact S]. intros i Hi. rewrite !upd_other; [reflexivity| |]; intros ->; destruct Hi as [?|?]; tauto || congruence.
        -- rewrite upd_other by auto. apply upd_same.
      * rewrite upd_other by auto. apply upd_same.
  - unfold shows. cbn [nx pv]. rewrite last_snoc. split; [|split; [|split; [now apply nodup_snoc|discriminate]]].
    + destruct (snoc_cases l) as [->|(u & z & ->)].
      * cbn in P. rewrite P. cbn [app seg]. split; [apply upd_same|]. rewrite upd_other by auto. apply upd_same.
      * rewrite last_snoc in *. rewrite P. apply seg_snoc in S. destruct S as [S _].
        destruct (nodup_mid u [] z N) as (Nu & _ & zo & _ & _).
        assert (z <> d) by (intros ->; apply I, in_or_app; right; now left).
        apply seg_snoc. split; [apply seg_snoc; split|].
        -- apply (seg_ext (nx s)); [|exact S]. intros i Hi. rewrite !upd_other; [reflexivity| |]; intros ->; destruct Hi as [?|?]; auto.
           apply I, in_or_app. now left.
        -- apply upd_same.
        -- rewrite upd_other by auto. apply upd_same.
    + rewrite upd_other by auto. apply upd_same.
Qed.
Lemma registers_shows ds s p : ~ In 0 ds -> shows s p -> shows (fold_left e1inp_driver_register ds s) (fold_left after ds p).
Proof.
  revert s p. induction ds as [|d r IH]; intros s p H S; [exact S|]. cbn [fold_left]. apply IH; [intros ?; apply H; now right|].
  apply register_shows; [|exact S]. intros ->. apply H. now left.
Qed.
Lemma empty_shows : shows empty ([], false).
Proof. cbn. repeat split; [constructor; [intros []|constructor]|discriminate]. Qed.

(** looking something up *)
Lemma find_seg names s name l a b : ~ In 0 l -> seg (nx s) a l b ->
  (exists d u v, l = u ++ d :: v /\ same_name name (names d) /\ (forall e, In e u -> ~ same_name name (names e)) /\
     forall fuel, length l < fuel -> find_from names s name (nx s a) fuel = Some (Some d)) \/
  ((forall e, In e l -> ~ same_name name (names e)) /\
     forall fuel, find_from names s name (nx s a) (length l + fuel) = find_from names s name b fuel).
Proof.
  revert a. induction l as [|x r IH]; intros a H0 S; cbn [seg] in S.
  - right. split; [intros ? []|]. intros fuel. now rewrite S.
  - destruct S as [S1 S2]. assert (x0 : x <> 0) by (intros ->; apply H0; now left).
    destruct (strcaseeq name (names x)) eqn:C.
    + left. exists x, [], r. split; [reflexivity|]. split; [now apply strcaseeq_spec|]. split; [intros ? []|].
      intros [|fuel] Hf; [cbn in Hf; lia|]. cbn [find_from]. rewrite S1.
      destruct (Nat.eqb_spec x 0); [contradiction|]. now rewrite C.
    + assert (NC : ~ same_name name (names x)) by (intros X; apply strcaseeq_spec in X; congruence).
      destruct (IH x) as [(d & u & v & -> & Hd & Hu & F)|[Hr F]]; [intros ?; apply H0; now right|exact S2| |].
      * left. exists d, (x :: u), v. split; [reflexivity|]. split; [exact Hd|]. split; [intros e [<-|He]; auto|].
        intros [|fuel] Hf; [cbn in Hf; lia|]. cbn [find_from]. rewrite S1.
        destruct (Nat.eqb_spec x 0); [contradiction|]. rewrite C. apply F. cbn in Hf. lia.
      * right. split; [intros e [<-|He]; auto|]. intros fuel. cbn [length Nat.add find_from]. rewrite S1.
        destruct (Nat.eqb_spec x 0); [contradiction|]. rewrite C. apply F.
Qed.
Lemma find_shows names s l name : shows s (l, false) ->
  exists r, is_first names l name r /\ forall fuel, S (length l) <= fuel -> e1inp_driver_find names s name fuel = Some r.
Proof.
  intros (Sg & _ & N & _). cbn [negb] in Sg. inversion N as [|? ? N0 _]; subst.
  destruct (find_seg names s name l 0 0 N0 Sg) as [(d & u & v & -> & Hd & Hu & F)|[Hl F]].
  - exists (Some d). split; [exists u, v; auto|]. intros fuel Hf. apply F. lia.
  - exists None. split; [exact Hl|]. intros fuel Hf. unfold e1inp_driver_find.
    replace fuel with (length l + S (fuel - S (length l))) by lia. rewrite F. reflexivity.
Qed.
Lemma find_from_mono names s name n cur r : find_from names s name cur n = Some r -> forall m, n <= m -> find_from names s name cur m = Some r.
Proof.
  revert cur. induction n as [|n IH]; intros cur H m Hm; [discriminate H|]. destruct m as [|m]; [lia|]. cbn [find_from] in *.
  destruct (cur =? 0); [exact H|]. destruct (strcaseeq name (names cur)); [exact H|]. apply IH; [exact H|lia].
Qed.
Lemma loop_never names s name z n : nx s z = z -> z <> 0 -> ~ same_name name (names z) -> find_from names s name z n = None.
Proof.
  intros Z Z0 H. induction n as [|n IH]; [reflexivity|]. cbn [find_from]. destruct (Nat.eqb_spec z 0); [contradiction|].
  destruct (strcaseeq name (names z)) eqn:C; [apply strcaseeq_spec in C; contradiction|]. now rewrite Z.
Qed.
Lemma loop_shows names s l name : shows s (l, true) ->
  (exists d, is_first names l name (Some d) /\ finds names s name (Some d)) \/
  (is_first names l name None /\ never names s name).
Proof.
  intros (Sg & _ & N & L). inversion N as [|? ? N0 _]; subst.
  destruct (find_seg names s name l 0 _ N0 Sg) as [(d & u & v & E & Hd & Hu & F)|[Hl F]].
  - left. exists d. split; [exists u, v; auto|]. exists (S (length l)). intros fuel Hf. apply F. lia.
  - right. split; [exact Hl|]. intros fuel.
    destruct (snoc_cases l) as [->|(u & z & ->)]; [now specialize (L eq_refl)|].
    rewrite last_snoc in *. apply seg_snoc in Sg. destruct Sg as [_ Sg].
    destruct (e1inp_driver_find names s name fuel) as [r|] eqn:X; [|reflexivity]. exfalso.
    unfold e1inp_driver_find in X.
    assert (Y : find_from names s name (nx s 0) (length (u ++ [z]) + fuel) = Some r) by (apply (find_from_mono _ _ _ fuel); [exact X|lia]).
    rewrite F, loop_never in Y; [discriminate Y|exact Sg| |].
    + intros ->. apply N0, in_or_app. right. now left.
    + apply Hl, in_or_app. right. now left.
Qed.

(** ** Theorems *)

(** Every sequence of registrations of any drivers, repeated or not: what a lookup gives is
    determined by the sequence, as said above. *)
Theorem C78_every_history : forall names ds name, ~ In 0 ds ->
  let s := fold_left e1inp_driver_register ds empty in
  let '(l, looped) := fold_left after ds ([], false) in
  exists r, is_first names l name r /\
    match r with
    | Some d => finds names s name (Some d)
    | None => if looped then never names s name else finds names s name None
    end.
Proof.
  intros names ds name H s. pose proof (registers_shows ds empty _ H empty_shows) as S. fold s in S.
  destruct (fold_left after ds ([], false)) as [l lp]. destruct lp.
  - destruct (loop_shows names s l name S) as [(d & A & B)|[A B]]; [exists (Some d)|exists None]; auto.
  - destruct (find_shows names s l name S) as (r & A & B). exists r. split; [exact A|].
    destruct r; exists (1 + length l); exact B.
Qed.

Lemma after_distinct ds l : NoDup (l ++ ds) -> fold_left after ds (l, false) = (l ++ ds, false).
Proof.
  revert l. induction ds as [|d r IH]; intros l N; [now rewrite app_nil_r|]. cbn [fold_left]. unfold after at 2. cbn [fst].
  destruct (in_dec Nat.eq_dec d l) as [I|I].
  - exfalso. apply NoDup_remove_2 in N. apply N, in_or_app. now left.
  - rewrite IH; rewrite <- app_assoc; [reflexivity|exact N].
Qed.

(** Different drivers, their names may be the same: a lookup returns, and gives the one
    registered first among those with that name in any case. *)
Theorem C78_find : forall names ds name, NoDup (0 :: ds) ->
  exists r, is_first names ds name r /\ finds names (fold_left e1inp_driver_register ds empty) name r.
Proof.
  intros names ds name N. inversion N as [|? ? N0 N1]; subst.
  pose proof (C78_every_history names ds name N0) as H. cbv zeta in H. rewrite (after_distinct ds []) in H by exact N1.
  destruct H as (r & A & B). exists r. split; [exact A|]. now destruct r.
Qed.

(** Registering a driver again is not harmless: those registered after it can no longer be
    found; and if it was the last one, looking up a name nobody has never returns. *)
Theorem C78_again_refuted : forall names a d b name, NoDup (0 :: a ++ d :: b) ->
  let s := e1inp_driver_register (fold_left e1inp_driver_register (a ++ d :: b) empty) d in
  match b with
  | _ :: _ => exists r, is_first names (a ++ [d]) name r /\ finds names s name r
  | [] => (forall e, In e (a ++ [d]) -> ~ same_name name (names e)) -> never names s name
  end.
Proof.
  intros names a d b name N s. inversion N as [|? ? N0 N1]; subst.
  assert (H0 : ~ In 0 ((a ++ d :: b) ++ [d])).
  { intros X. apply in_app_or in X. destruct X as [X|[X|[]]]; [contradiction|]. subst d. apply N0, in_or_app. right. now left. }
  pose proof (C78_every_history names _ name H0) as H. cbv zeta in H. rewrite !fold_left_app in H. cbn [fold_left] in H.
  pose proof (after_distinct (a ++ d :: b) [] N1) as AD. rewrite fold_left_app in AD. cbn [fold_left] in AD.
  cbn [app] in AD. rewrite AD in H.
  assert (SE : s = e1inp_driver_register (fold_left e1inp_driver_register b (e1inp_driver_register (fold_left e1inp_driver_register a empty) d)) d).
  { unfold s. now rewrite fold_left_app. }
  rewrite <- SE in H. unfold after in H. cbn [fst] in H.
  destruct (nodup_mid a b d N) as (Na & Nb & _ & _ & _).
  destruct (in_dec Nat.eq_dec d (a ++ d :: b)) as [I|I]; [|exfalso; apply I, in_or_app; right; now left].
  destruct b as [|e b].
  - rewrite last_snoc, Nat.eqb_refl in H. destruct H as (r & A & B). intros NN. destruct r as [x|]; [|exact B].
    destruct A as (u & v & E & C & _). exfalso. apply (NN x); [|exact C]. rewrite E. apply in_or_app. right. now left.
  - destruct (Nat.eqb_spec (last (a ++ d :: e :: b) 0) d) as [E|E].
    + exfalso. destruct (snoc_cases (e :: b)) as [X|(w & z & X)]; [discriminate X|]. rewrite X in *.
      rewrite app_comm_cons, app_assoc, last_snoc in E. subst z. apply Nb, in_or_app. right. now left.
    + rewrite upto_app in H by exact Na. destruct H as (r & A & B). exists r. split; [exact A|]. now destruct r.
Qed.

(** Initialising the library again: its own drivers are there as before (in the same order), but
    the drivers the application registered in between are not. *)
Theorem C78_init_again : forall names ds own name, NoDup (0 :: ds ++ own) -> 2 <= length (ds ++ own) -> ds <> [] ->
  exists r, is_first names ds name r /\
    finds names (fold_left e1inp_driver_register (ds ++ own ++ ds) empty) name r.
Proof.
  intros names ds own name N L D. inversion N as [|? ? N0 N1]; subst.
  assert (H0 : ~ In 0 (ds ++ own ++ ds)).
  { intros X. apply in_app_or in X. destruct X as [X|X]; [apply N0, in_or_app; now left|].
    apply in_app_or in X. destruct X as [X|X]; apply N0, in_or_app; [now right|now left]. }
  pose proof (C78_every_history names _ name H0) as H. cbv zeta in H.
  assert (E : fold_left after (ds ++ own ++ ds) ([], false) = (ds, false)).
  { rewrite app_assoc, fold_left_app, (after_distinct (ds ++ own) []) by exact N1. cbn [app].
    destruct ds as [|x r]; [contradiction|]. cbn [fold_left]. unfold after at 2. cbn [fst].
    destruct (in_dec Nat.eq_dec x ((x :: r) ++ own)) as [I|I]; [|exfalso; apply I; now left].
    assert (XN : ~ In x (r ++ own)) by (cbn in N1; now inversion N1).
    destruct (Nat.eqb_spec (last ((x :: r) ++ own) 0) x) as [Q|Q].
    - exfalso. destruct (snoc_cases (r ++ own)) as [Y|(w & z & Y)]; [cbn in L; rewrite Y in L; cbn in L; lia|].
      cbn [app] in Q. rewrite Y in *. rewrite app_comm_cons, last_snoc in Q. subst z. apply XN, in_or_app. right. now left.
    - change ((x :: r) ++ own) with ([] ++ x :: (r ++ own)). rewrite upto_app by (intros []). cbn [app].
      rewrite (after_distinct r [x]); [reflexivity|]. cbn [app]. cbn in N1. inversion N1 as [|? ? M1 M2]; subst.
      constructor; [intros ?; apply XN, in_or_app; now left|].
      clear - M2. induction r as [|y r IH]; [constructor|]. cbn in M2. inversion M2; subst. constructor; [intros ?; apply H1, in_or_app; now left|auto]. }
  rewrite E in H. destruct H as (r & A & B). exists r. split; [exact A|]. now destruct r.
Qed.

(** Lines. After any history in which no driver is registered twice, with lookups allowed to go
    over all drivers: no two lines have the same number and every line's driver is registered;
    creating a line gives one exactly if its number is free, a driver of that name is registered
    and does not refuse; the new line then has the driver registered first under that name, and
    is found by its number; in all other cases nothing changes. *)
Definition inv (fuel : nat) (x : st) (ds : list nat) : Prop :=
  shows (drvs x) (ds, false) /\ NoDup (map l_num (lines x)) /\ Forall (fun l => In (l_drv l) ds) (lines x).
Lemma find_app_some {A} (f : A -> bool) l m r : find f l = Some r -> find f (l ++ m) = Some r.
Proof. induction l as [|a l IH]; cbn; [discriminate|]. destruct (f a); auto. Qed.
Lemma find_app_none {A} (f : A -> bool) l m : find f l = None -> find f (l ++ m) = find f m.
Proof. induction l as [|a l IH]; cbn; [reflexivity|]. destruct (f a); [discriminate|auto]. Qed.
Lemma find_none_in ls nr : e1inp_line_find ls nr = None -> ~ In nr (map l_num ls).
Proof.
  unfold e1inp_line_find. intros H X. apply in_map_iff in X. destruct X as (l & E & I).
  apply (find_none _ _ H) in I. rewrite E, Z.eqb_refl in I. discriminate I.
Qed.
Lemma nodup_snocZ (l : list Z) z : ~ In z l -> NoDup l -> NoDup (l ++ [z]).
Proof.
  induction l as [|y l IH]; intros M N; [constructor; [intros []|constructor]|]. cbn. inversion N; subst. constructor.
  - intros X. apply in_app_or in X. destruct X as [X|[X|[]]]; [contradiction|]. subst. apply M. now left.
  - apply IH; [|assumption]. intros X. apply M. now right.
Qed.
Lemma regs_cons e es : regs (e :: es) = regs [e] ++ regs es.
Proof. unfold regs. cbn [flat_map]. now rewrite app_nil_r. Qed.
Lemma step_inv names fuel x ds e : inv fuel x ds -> NoDup (0 :: ds ++ regs [e]) -> length ds < fuel ->
  exists y o, step names fuel x e = Some (y, o) /\ inv fuel y (ds ++ regs [e]).
Proof.
  intros (S & N & F) ND LF. destruct e as [d|l|nr name rc|nr|name]; cbn [regs flat_map app] in *; rewrite ?app_nil_r in *.
  - eexists _, _. split; [reflexivity|]. split; [|split; [exact N|]].
    + cbn [drvs]. inversion ND as [|? ? N0 N1]; subst.
      pose proof (register_shows (drvs x) _ d ltac:(intros ->; apply N0, in_or_app; right; now left) S) as R.
      unfold after in R. cbn [fst] in R. destruct (in_dec Nat.eq_dec d ds) as [I|I]; [|exact R].
      exfalso. apply NoDup_remove_2 in N1. apply N1. now rewrite app_nil_r.
    + eapply Forall_impl; [|exact F]. cbn. intros a Ha. apply in_or_app. now left.
  - eexists _, _. split; [reflexivity|]. split; [|split; [exact N|]].
    + cbn [drvs]. inversion ND as [|? ? N0 N1]; subst.
      pose proof (registers_shows l (drvs x) _ ltac:(intros ?; apply N0, in_or_app; now right) S) as R.
      now rewrite after_distinct in R by exact N1.
    + eapply Forall_impl; [|exact F]. cbn. intros a Ha. apply in_or_app. now left.
  - cbn [step]. destruct (e1inp_line_find (lines x) nr) eqn:LF1; [eexists _, _; split; [reflexivity|]; now split|].
    destruct (find_shows names (drvs x) ds name S) as (r & R1 & R2). rewrite R2 by lia.
    destruct r as [d|]; [|eexists _, _; split; [reflexivity|]; now split].
    destruct (rc <? 0)%Z; [eexists _, _; split; [reflexivity|]; now split|].
    eexists _, _. split; [reflexivity|]. split; [exact S|]. cbn [lines]. split.
    + rewrite map_app. cbn. apply nodup_snocZ; [now apply find_none_in|exact N].
    + apply Forall_app. split; [exact F|]. constructor; [|constructor]. cbn.
      destruct R1 as (u & v & -> & _). apply in_or_app. right. now left.
  - eexists _, _. split; [reflexivity|]. split; [exact S|]. cbn [lines]. split.
    + clear - N. induction (lines x) as [|l ls IH]; [constructor|]. cbn in *. inversion N; subst.
      destruct (negb _); [|auto]. cbn. constructor; [|auto]. intros X. apply H1. apply in_map_iff in X. destruct X as (m & <- & Hm).
      apply filter_In in Hm. now apply in_map.
    + apply Forall_forall. intros l Hl. apply filter_In in Hl. rewrite Forall_forall in F. now apply F.
  - cbn [step]. destruct (find_shows names (drvs x) ds name S) as (r & R1 & R2). rewrite R2 by lia.
    eexists _, _. split; [reflexivity|]. now split.
Qed.
Lemma nodup_l (l m : list nat) : NoDup (l ++ m) -> NoDup l.
Proof. induction l as [|a l IH]; [constructor|]. cbn. intros N. inversion N as [|? ? M1 M2]; subst. constructor; [intros X; apply M1, in_or_app; now left|auto]. Qed.
Lemma run_inv names fuel es x ds : inv fuel x ds -> NoDup (0 :: ds ++ regs es) -> length (ds ++ regs es) < fuel ->
  exists y os, run names fuel x es = Some (y, os) /\ inv fuel y (ds ++ regs es).
Proof.
  revert x ds. induction es as [|e es IH]; intros x ds V N L; [exists x, []; split; [reflexivity|]; cbn; now rewrite app_nil_r|].
  rewrite regs_cons, app_assoc in *. cbn [run].
  destruct (step_inv names fuel x ds e V) as (y & o & E & V1).
  - inversion N as [|? ? N0 N1]; subst. constructor; [intros ?; apply N0, in_or_app; now left|].
    exact (nodup_l _ _ N1).
  - rewrite !app_length in L. lia.
  - rewrite E. destruct (IH y _ V1 N L) as (z & os & E2 & V2). rewrite E2. eauto.
Qed.

Theorem C78_lines : forall names fuel es, NoDup (0 :: regs es) -> length (regs es) < fuel ->
  exists x os, run names fuel st0 es = Some (x, os) /\
    NoDup (map l_num (lines x)) /\ Forall (fun l => In (l_drv l) (regs es)) (lines x) /\
    forall nr name rc, exists y o, step names fuel x (Create nr name rc) = Some (y, o) /\
      ((exists d, ~ In nr (map l_num (lines x)) /\ is_first names (regs es) name (Some d) /\ (0 <= rc)%Z /\
         o = Line (mkLine nr d) /\ lines y = lines x ++ [mkLine nr d] /\ e1inp_line_find (lines y) nr = Some (mkLine nr d) /\
         forall n, n <> nr -> e1inp_line_find (lines y) n = e1inp_line_find (lines x) n) \/
       ((In nr (map l_num (lines x)) \/ is_first names (regs es) name None \/ (rc < 0)%Z) /\ o = NoLine /\ y = x)).
Proof.
  intros names fuel es N L.
  destruct (run_inv names fuel es st0 [] (conj empty_shows (conj (NoDup_nil _) (Forall_nil _))) N L) as (x & os & E & S & N1 & F).
  cbn [app] in *. exists x, os. split; [exact E|]. split; [exact N1|]. split; [exact F|].
  intros nr name rc. cbn [step]. destruct (e1inp_line_find (lines x) nr) as [l|] eqn:LF.
  - eexists _, _. split; [reflexivity|]. right. split; [left|auto]. unfold e1inp_line_find in LF. apply find_some in LF.
    destruct LF as [I Q]. apply Z.eqb_eq in Q. rewrite <- Q. now apply in_map.
  - pose proof (find_none_in _ _ LF) as NI.
    destruct (find_shows names (drvs x) (regs es) name S) as (r & R1 & R2). rewrite R2 by lia. destruct r as [d|].
    + destruct (rc <? 0)%Z eqn:RC; [apply Z.ltb_lt in RC|apply Z.ltb_ge in RC].
      * eexists _, _. split; [reflexivity|]. right. auto.
      * eexists _, _. split; [reflexivity|]. left. exists d. split; [exact NI|]. split; [exact R1|]. split; [exact RC|].
        split; [reflexivity|]. split; [reflexivity|]. cbn [lines]. unfold e1inp_line_find in *. split.
        -- rewrite find_app_none by exact LF. cbn. now rewrite Z.eqb_refl.
        -- intros n Hn. destruct (find (fun l => Z.eqb (l_num l) n) (lines x)) as [m|] eqn:FN; [now apply find_app_some|].
           rewrite find_app_none by exact FN. cbn. destruct (Z.eqb_spec nr n); [congruence|reflexivity].
    + eexists _, _. split; [reflexivity|]. right. auto.
Qed.
(** Nothing but giving the line back removes a line or changes its driver. *)
Theorem C78_lines_stay : forall names fuel x e y o, step names fuel x e = Some (y, o) ->
  forall nr, (forall n, e = Free n -> n <> nr) -> e1inp_line_find (lines x) nr <> None ->
  e1inp_line_find (lines y) nr = e1inp_line_find (lines x) nr.
Proof.
  intros names fuel x e y o E nr HN H. destruct e as [d|l|n name rc|n|name]; cbn [step] in E.
  - injection E as <- <-. reflexivity.
  - injection E as <- <-. reflexivity.
  - destruct (e1inp_line_find (lines x) n); [injection E as <- <-; reflexivity|].
    destruct (e1inp_driver_find names (drvs x) name fuel) as [[d|]|]; [|injection E as <- <-; reflexivity|discriminate E].
    destruct (rc <? 0)%Z; injection E as <- <-; [reflexivity|]. cbn [lines]. unfold e1inp_line_find in *.
    destruct (find (fun l => Z.eqb (l_num l) nr) (lines x)) as [m|] eqn:FN; [|contradiction]. now apply find_app_some.
  - injection E as <- <-. cbn [lines]. unfold e1inp_line_find in *. specialize (HN n eq_refl).
    clear H. induction (lines x) as [|l ls IH]; [reflexivity|]. cbn. destruct (Z.eqb_spec (l_num l) n) as [Q|Q]; cbn.
    + destruct (Z.eqb_spec (l_num l) nr); [congruence|exact IH].
    + destruct (l_num l =? nr)%Z; [reflexivity|exact IH].
  - destruct (e1inp_driver_find names (drvs x) name fuel); [|discriminate E]. injection E as <- <-. reflexivity.
Qed.

(** "ipa" in any case finds a driver called "IPA"; three drivers, the second again: the third is
    gone; the third again: an unknown name is looked for forever *)
Definition ex_names (d : nat) : list Z := match d with 1 => [105; 112; 97]%Z | 2 => [73; 80; 65]%Z | 3 => [114; 115]%Z | _ => [] end.
Example C78_example :
  NoDup (0 :: regs [Init [1; 2]; Register 3]) /\
  (exists x, run ex_names 10 st0 [Init [1; 2]; Register 3; Create 5 [73; 112; 97]%Z 0; Find [82; 83]%Z; Create 5 [114; 115]%Z 0] =
     Some (x, [Done; Done; Line (mkLine 5 1); Driver (Some 3); NoLine])) /\
  (exists x, run ex_names 10 st0 [Init [1; 2]; Register 3; Register 2; Find [114; 115]%Z] = Some (x, [Done; Done; Done; Driver None])) /\
  run ex_names 1000 st0 [Init [1; 2]; Register 3; Register 3; Find [120]%Z] = None /\
  same_name [73; 112; 97]%Z (ex_names 1).
Proof.
  split. { cbn. constructor; [cbn; lia|]. repeat (constructor; [cbn; lia|]). constructor. }
  split; [eexists; reflexivity|]. split; [eexists; reflexivity|]. split; [reflexivity|]. apply strcaseeq_spec. reflexivity.
Qed.
Print Assumptions C78_every_history.
Print Assumptions C78_find.
Print Assumptions C78_again_refuted.
Print Assumptions C78_init_again.
Print Assumptions C78_lines.
Print Assumptions C78_lines_stay.
