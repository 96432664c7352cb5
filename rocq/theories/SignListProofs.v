(** Proofs for C83: rings of cells represent lists. *)
From Coq Require Import List Arith Lia Bool ZArith Permutation.
From Verif Require Import Base SignListModel SignListSpec.
Import ListNotations.
Open Scope nat_scope.

Lemma aeqb_eq a b : aeqb a b = true <-> a = b.
Proof.
  destruct a as [l t|k], b as [m u|j]; cbn; try (split; [discriminate|discriminate]).
  - rewrite andb_true_iff, !Nat.eqb_eq. split; [intros [-> ->]|intros H; injection H as -> ->]; easy.
  - rewrite Nat.eqb_eq. split; [intros ->|intros H; injection H as ->]; easy.
Qed.
Lemma aeqb_refl a : aeqb a a = true. Proof. now apply aeqb_eq. Qed.
Lemma aeqb_neq a b : a <> b -> aeqb a b = false.
Proof. intros N. destruct (aeqb a b) eqn:E; [|easy]. now apply aeqb_eq in E. Qed.
Lemma aeqb_dec (a b : addr) : {a = b} + {a <> b}.
Proof. destruct (aeqb a b) eqn:E; [left; now apply aeqb_eq|right; intros ->; now rewrite aeqb_refl in E]. Qed.

(** ** Reading and writing *)
Definition nx (h : heap) (a : addr) : option addr := option_map nxt (h a).
Definition pv (h : heap) (a : addr) : option addr := option_map prv (h a).
Lemma wr_nxt_is h a v : h a <> None -> exists h', wr_nxt h a v = Some h' /\ (forall x, nx h' x = if aeqb x a then Some v else nx h x) /\ (forall x, pv h' x = pv h x) /\ forall x, h' x <> None <-> h x <> None.
Proof.
  intros A. unfold wr_nxt. destruct (h a) as [c|] eqn:E; [|easy]. eexists. split; [reflexivity|]. unfold nx, pv, put. repeat split.
  - intros x. destruct (aeqb x a); reflexivity.
  - intros x. destruct (aeqb x a) eqn:Q; [|easy]. apply aeqb_eq in Q. subst x. now rewrite E.
  - destruct (aeqb x a) eqn:Q; [|easy]. apply aeqb_eq in Q. subst x. now rewrite E.
  - destruct (aeqb x a) eqn:Q; easy.
Qed.
Lemma wr_prv_is h a v : h a <> None -> exists h', wr_prv h a v = Some h' /\ (forall x, pv h' x = if aeqb x a then Some v else pv h x) /\ (forall x, nx h' x = nx h x) /\ forall x, h' x <> None <-> h x <> None.
Proof.
  intros A. unfold wr_prv. destruct (h a) as [c|] eqn:E; [|easy]. eexists. split; [reflexivity|]. unfold nx, pv, put. repeat split.
  - intros x. destruct (aeqb x a); reflexivity.
  - intros x. destruct (aeqb x a) eqn:Q; [|easy]. apply aeqb_eq in Q. subst x. now rewrite E.
  - destruct (aeqb x a) eqn:Q; [|easy]. apply aeqb_eq in Q. subst x. now rewrite E.
  - destruct (aeqb x a) eqn:Q; easy.
Qed.
Lemma pv_some h a b : pv h a = Some b -> exists c, h a = Some c /\ prv c = b.
Proof. unfold pv. destruct (h a) as [c|]; [|discriminate]. cbn. intros H. injection H as <-. now exists c. Qed.
Lemma nx_some h a b : nx h a = Some b -> exists c, h a = Some c /\ nxt c = b.
Proof. unfold nx. destruct (h a) as [c|]; [|discriminate]. cbn. intros H. injection H as <-. now exists c. Qed.
Lemma nx_live h a b : nx h a = Some b -> h a <> None.
Proof. unfold nx. now destruct (h a). Qed.
Lemma add_tail_is h new head p : pv h head = Some p -> h new <> None -> h p <> None -> exists h', add_tail h new head = Some h' /\
  (forall x, nx h' x = if aeqb x p then Some new else if aeqb x new then Some head else nx h x) /\
  (forall x, pv h' x = if aeqb x new then Some p else if aeqb x head then Some new else pv h x) /\ (forall x, h' x <> None <-> h x <> None).
Proof.
  intros H N P. destruct (pv_some _ _ _ H) as (c & E & <-). unfold add_tail. rewrite E.
  destruct (wr_prv_is h head new) as (h1 & -> & A1 & B1 & C1); [congruence|]. destruct (wr_nxt_is h1 new head) as (h2 & -> & A2 & B2 & C2); [now apply C1|].
  destruct (wr_prv_is h2 new (prv c)) as (h3 & -> & A3 & B3 & C3); [now apply C2, C1|]. destruct (wr_nxt_is h3 (prv c) new) as (h4 & -> & A4 & B4 & C4); [now apply C3, C2, C1|].
  exists h4. split; [reflexivity|]. split; [|split].
  - intros x. now rewrite A4, B3, A2, B1.
  - intros x. now rewrite B4, A3, B2, A1.
  - intros x. now rewrite C4, C3, C2, C1.
Qed.
Lemma del_init_is h e p q : nx h e = Some q -> pv h e = Some p -> h q <> None -> h p <> None -> exists h', del_init h e = Some h' /\
  (forall x, nx h' x = if aeqb x e then Some e else if aeqb x p then Some q else nx h x) /\
  (forall x, pv h' x = if aeqb x e then Some e else if aeqb x q then Some p else pv h x) /\ (forall x, h' x <> None <-> h x <> None).
Proof.
  intros H H2 N P. destruct (nx_some _ _ _ H) as (c & E & <-). destruct (pv_some _ _ _ H2) as (c' & E' & <-). rewrite E in E'. injection E' as <-. unfold del_init. rewrite E.
  destruct (wr_prv_is h (nxt c) (prv c)) as (h1 & -> & A1 & B1 & C1); [easy|]. destruct (wr_nxt_is h1 (prv c) (nxt c)) as (h2 & -> & A2 & B2 & C2); [now apply C1|].
  eexists. split; [reflexivity|]. unfold init_head. split; [|split].
  - intros x. unfold nx at 1, put. destruct (aeqb x e); [reflexivity|]. fold (nx h2 x). now rewrite A2, B1.
  - intros x. unfold pv at 1, put. destruct (aeqb x e); [reflexivity|]. fold (pv h2 x). now rewrite B2, A1.
  - intros x. unfold put. destruct (aeqb x e) eqn:Q; [|now rewrite C2, C1]. apply aeqb_eq in Q. subst x. rewrite E. easy.
Qed.

(** ** Chains and rings *)
Fixpoint chain (h : heap) (l : list addr) : Prop :=
  match l with a :: r => match r with b :: _ => nx h a = Some b /\ pv h b = Some a /\ chain h r | [] => True end | [] => True end.
Lemma chain_app h u x v : chain h (u ++ x :: v) <-> chain h (u ++ [x]) /\ chain h (x :: v).
Proof.
  induction u as [|a u IH]; [cbn [app]; split; [intros H; split; [exact Logic.I|exact H]|tauto]|]. destruct u as [|b u]; cbn [app] in *.
  - change (chain h (a :: x :: v)) with (nx h a = Some x /\ pv h x = Some a /\ chain h (x :: v)). change (chain h [a; x]) with (nx h a = Some x /\ pv h x = Some a /\ True). tauto.
  - change (chain h (a :: b :: u ++ x :: v)) with (nx h a = Some b /\ pv h b = Some a /\ chain h (b :: u ++ x :: v)). change (chain h (a :: b :: u ++ [x])) with (nx h a = Some b /\ pv h b = Some a /\ chain h (b :: u ++ [x])). tauto.
Qed.
Lemma chain_frame h h' l : (forall a, In a (removelast l) -> nx h' a = nx h a) -> (forall b, In b (tl l) -> pv h' b = pv h b) -> chain h l -> chain h' l.
Proof.
  induction l as [|a [|b r] IH]; intros A B C; [easy|easy|]. change (chain h' (a :: b :: r)) with (nx h' a = Some b /\ pv h' b = Some a /\ chain h' (b :: r)). destruct C as (C1 & C2 & C3).
  split; [rewrite A; [easy|now left]|]. split; [rewrite B; [easy|now left]|]. apply IH; [|intros x X; apply B; now right|easy]. intros x X. apply A. now right.
Qed.
Definition ring (h : heap) (hd : addr) (ns : list addr) : Prop := chain h (hd :: ns ++ [hd]).
Lemma ring_frame h h' hd ns : (forall a, In a (hd :: ns) -> nx h' a = nx h a /\ pv h' a = pv h a) -> ring h hd ns -> ring h' hd ns.
Proof.
  intros A. apply chain_frame; intros a I; apply A.
  - change (hd :: ns ++ [hd]) with ((hd :: ns) ++ [hd]) in I. now rewrite removelast_last in I.
  - cbn [tl] in I. apply in_app_or in I as [I|[<-|[]]]; [now right|now left].
Qed.
Lemma ring_live h hd ns a : ring h hd ns -> In a (hd :: ns) -> h a <> None.
Proof.
  unfold ring. intros C I. apply in_split in I as (u & v & E). change (hd :: ns ++ [hd]) with ((hd :: ns) ++ [hd]) in C. rewrite E, <- app_assoc in C. cbn [app] in C. apply chain_app in C as [_ C].
  destruct v; cbn [app] in C; destruct C as (C & _); exact (nx_live _ _ _ C).
Qed.
Lemma last_split {A} (l : list A) x : exists m y, x :: l = m ++ [y].
Proof. destruct (@exists_last _ (x :: l)) as (m & y & E); [discriminate|]. now exists m, y. Qed.
Lemma ring_add h hd ns new : ring h hd ns -> h new <> None -> NoDup (hd :: ns ++ [new]) -> exists h', add_tail h new hd = Some h' /\ ring h' hd (ns ++ [new]) /\
  (forall a, ~ In a (hd :: ns ++ [new]) -> nx h' a = nx h a /\ pv h' a = pv h a) /\ forall x, h' x <> None <-> h x <> None.
Proof.
  intros R N D. destruct (last_split ns hd) as (m & p & E). pose proof R as C. unfold ring in C. change (hd :: ns ++ [hd]) with ((hd :: ns) ++ [hd]) in C. rewrite E, <- app_assoc in C. cbn [app] in C.
  apply chain_app in C as [C1 (C2 & C3 & _)].
  destruct (add_tail_is h new hd p C3 N (nx_live _ _ _ C2)) as (h' & -> & NX & PV & L). exists h'. split; [reflexivity|].
  assert (D' : NoDup (hd :: ns) /\ ~ In new (hd :: ns)).
  { change (hd :: ns ++ [new]) with ((hd :: ns) ++ [new]) in D. split; [apply NoDup_remove_1 in D; now rewrite app_nil_r in D|apply NoDup_remove_2 in D; now rewrite app_nil_r in D]. }
  destruct D' as [D1 D2]. assert (HN : hd <> new) by (intros ->; apply D2; now left). assert (PN : p <> new) by (intros ->; apply D2; rewrite E; apply in_or_app; right; now left).
  split; [|split; [|exact L]].
  - unfold ring. change (hd :: (ns ++ [new]) ++ [hd]) with (((hd :: ns) ++ [new]) ++ [hd]). rewrite E, <- !app_assoc. cbn [app]. apply chain_app. split.
    + revert C1. apply chain_frame.
      * intros a I. rewrite removelast_last in I. rewrite NX. rewrite E in D1. apply NoDup_remove_2 in D1. rewrite app_nil_r in D1. rewrite !aeqb_neq; [easy| |congruence].
        intros ->. apply D2. rewrite E. apply in_or_app. now left.
      * intros a I. rewrite <- E in I. cbn [tl] in I. rewrite PV. rewrite !aeqb_neq; [easy| |]; intros ->; [apply NoDup_cons_iff in D1; tauto|]. apply D2. now right.
    + change (nx h' p = Some new /\ pv h' new = Some p /\ nx h' new = Some hd /\ pv h' hd = Some new /\ True). rewrite !NX, !PV, !aeqb_refl, (aeqb_neq hd new HN), (aeqb_neq new p) by congruence. easy.
  - intros a I. assert (I1 : a <> new) by (intros ->; apply I; right; apply in_or_app; right; now left). assert (I2 : a <> p).
    { intros ->. apply I. change (hd :: ns ++ [new]) with ((hd :: ns) ++ [new]). rewrite E. apply in_or_app. left. apply in_or_app. right. now left. }
    assert (I3 : a <> hd) by (intros ->; apply I; now left). rewrite NX, PV, !aeqb_neq by easy. easy.
Qed.
Lemma ring_del h hd n1 e n2 : ring h hd (n1 ++ e :: n2) -> NoDup (hd :: n1 ++ e :: n2) -> exists h', del_init h e = Some h' /\ ring h' hd (n1 ++ n2) /\
  nx h' e = Some e /\ pv h' e = Some e /\ (forall a, ~ In a (hd :: n1 ++ e :: n2) -> nx h' a = nx h a /\ pv h' a = pv h a) /\ forall x, h' x <> None <-> h x <> None.
Proof.
  intros R D. destruct (last_split n1 hd) as (m & p & E). destruct (n2 ++ [hd]) as [|q r] eqn:F; [destruct n2; discriminate F|].
  pose proof R as C. unfold ring in C. rewrite <- app_assoc in C. cbn [app] in C. rewrite F in C. change (hd :: n1 ++ e :: q :: r) with ((hd :: n1) ++ e :: q :: r) in C. rewrite E, <- app_assoc in C. cbn [app] in C.
  apply chain_app in C as [C1 (C2 & C3 & C4 & C5 & C6)].
  assert (LQ : h q <> None). { apply (ring_live h hd (n1 ++ e :: n2)); [easy|]. destruct n2 as [|z n2]; cbn [app] in F; injection F as -> _; [now left|right; apply in_or_app; right; right; now left]. }
  destruct (del_init_is h e p q C4 C3 LQ (nx_live _ _ _ C2)) as (h' & -> & NX & PV & L). exists h'. split; [reflexivity|].
  assert (D1 : NoDup (hd :: n1) /\ ~ In e (hd :: n1 ++ n2) /\ NoDup (hd :: n1 ++ n2)).
  { change (hd :: n1 ++ e :: n2) with ((hd :: n1) ++ e :: n2) in D. change (hd :: n1 ++ n2) with ((hd :: n1) ++ n2). split; [|split; [now apply NoDup_remove_2|now apply NoDup_remove_1 in D]].
    clear - D. set (u := hd :: n1) in *. clearbody u. induction u as [|y u IH]; [constructor|]. cbn [app] in D. apply NoDup_cons_iff in D as [D1 D2]. constructor; [|auto]. intros I. apply D1. apply in_or_app. now left. }
  destruct D1 as (D1 & D2 & D3). assert (PE : p <> e). { intros ->. apply D2. change (hd :: n1 ++ n2) with ((hd :: n1) ++ n2). rewrite E. apply in_or_app. left. apply in_or_app. right. now left. }
  assert (QE : q <> e). { intros ->. apply D2. destruct n2 as [|z n2]; cbn [app] in F; injection F as -> _; [now left|right; apply in_or_app; right; now left]. }
  split; [|split; [|split; [|split; [|exact L]]]].
  - unfold ring. rewrite <- app_assoc, F. change (hd :: n1 ++ q :: r) with ((hd :: n1) ++ q :: r). rewrite E, <- app_assoc. cbn [app]. apply chain_app. split.
    + revert C1. apply chain_frame.
      * intros a I. rewrite removelast_last in I. rewrite NX. rewrite !aeqb_neq; [easy| |]; intros ->.
        -- rewrite E in D1. apply NoDup_remove_2 in D1. rewrite app_nil_r in D1. easy.
        -- apply D2. change (hd :: n1 ++ n2) with ((hd :: n1) ++ n2). rewrite E. apply in_or_app. left. apply in_or_app. now left.
      * intros a I. rewrite <- E in I. cbn [tl] in I. rewrite PV. rewrite !aeqb_neq; [easy| |]; intros ->.
        -- destruct n2 as [|z n2]; cbn [app] in F; injection F as -> _; [apply NoDup_cons_iff in D1; tauto|].
           apply NoDup_cons_iff in D3 as [_ D3]. clear - D3 I. induction n1 as [|y n1 IH]; [easy|]. cbn [app] in D3. apply NoDup_cons_iff in D3 as [A B]. destruct I as [->|I]; [apply A; apply in_or_app; right; now left|auto].
        -- apply D2. right. apply in_or_app. now left.
    + change (nx h' p = Some q /\ pv h' q = Some p /\ chain h' (q :: r)). rewrite NX, PV, !aeqb_refl, (aeqb_neq p e PE), (aeqb_neq q e QE). split; [easy|]. split; [easy|].
      revert C6. rewrite <- F. apply chain_frame.
      * intros a I. rewrite removelast_last in I. rewrite NX. rewrite !aeqb_neq; [easy| |]; intros ->.
        -- assert (J : In p (hd :: n1)) by (rewrite E; apply in_or_app; right; now left). clear - D3 I J. change (hd :: n1 ++ n2) with ((hd :: n1) ++ n2) in D3. set (u := hd :: n1) in *. clearbody u.
           induction u as [|y u IH]; [easy|]. cbn [app] in D3. apply NoDup_cons_iff in D3 as [A B]. destruct J as [->|J]; [apply A; apply in_or_app; now right|auto].
        -- apply D2. right. apply in_or_app. now right.
      * intros a I. rewrite PV. destruct n2 as [|z n2]; [easy|]. cbn [app tl] in *. injection F as -> <-. rewrite !aeqb_neq; [easy| |]; intros ->.
        -- apply in_app_or in I as [I|[<-|[]]].
           ++ apply NoDup_cons_iff in D3 as [_ D3]. apply NoDup_remove_2 in D3. apply D3. apply in_or_app. now right.
           ++ apply NoDup_cons_iff in D3 as [D3 _]. apply D3. apply in_or_app. right. now left.
        -- apply in_app_or in I as [I|[<-|[]]]; apply D2; [right; apply in_or_app; right; now right|now left].
  - now rewrite NX, aeqb_refl.
  - now rewrite PV, aeqb_refl.
  - intros a I. assert (I1 : a <> e) by (intros ->; apply I; right; apply in_or_app; right; now left).
    assert (I2 : a <> p). { intros ->. apply I. change (hd :: n1 ++ e :: n2) with ((hd :: n1) ++ e :: n2). rewrite E. apply in_or_app. left. apply in_or_app. right. now left. }
    assert (I3 : a <> q). { intros ->. apply I. destruct n2 as [|z n2]; cbn [app] in F; injection F as -> _; [now left|right; apply in_or_app; right; right; now left]. }
    rewrite NX, PV, !aeqb_neq by easy. easy.
Qed.

(** ** The two machines agree *)
Definition nodes (l t : nat) (L : list (nat * link)) : list addr := map (fun p => Link (fst p)) (filter (at_ts l t) L).
Record R (a : ast) (s : st) : Prop := {
  r_ln : lns s = a_lns a;
  r_k : forall l t, kind s l t = a_sign a l t;
  r_s : forall l t, a_sign a l t = true -> a_ts a l t = true;
  r_lk : forall p, In p (lks s) <-> In p (a_lks a ++ a_end a);
  r_nd : NoDup (map fst (lks s));
  r_nd2 : NoDup (map fst (a_lks a ++ a_end a));
  r_at : forall p, In p (a_lks a) -> a_sign a (k_l (snd p)) (k_t (snd p)) = true;
  r_en : forall p, In p (a_end a) -> nx (hp s) (Link (fst p)) = Some (Link (fst p));
  r_ring : forall l t, a_sign a l t = true -> ring (hp s) (Head l t) (nodes l t (a_lks a));
  r_out : out s = a_out a
}.
Lemma r_init : R a_init init.
Proof. constructor; cbn; try easy; try constructor. Qed.
Lemma line_same a s l : R a s -> has_line s l = a_line a l.
Proof. intros H. unfold has_line, a_line. now rewrite (r_ln _ _ H). Qed.
Lemma live_same a s l t : R a s -> live s l t = a_ts a l t.
Proof. intros H. unfold live, a_ts. now rewrite (line_same a s l H). Qed.
Lemma find_k_in ks k x : NoDup (map fst ks) -> (find_k ks k = Some x <-> In (k, x) ks).
Proof.
  unfold find_k. induction ks as [|[j y] ks IH]; cbn [find option_map map fst]; intros N; [easy|]. apply NoDup_cons_iff in N as [N1 N2]. destruct (Nat.eqb_spec j k) as [->|NE]; cbn [option_map snd].
  - split; [intros H; injection H as ->; now left|intros [H|H]; [injection H as ->; reflexivity|]]. exfalso. apply N1. change k with (fst (k, x)). now apply in_map.
  - rewrite IH by easy. split; [now right|]. intros [H|H]; [injection H as -> _; contradiction|easy].
Qed.
Lemma find_k_none ks k : find_k ks k = None <-> ~ In k (map fst ks).
Proof.
  unfold find_k. induction ks as [|[j y] ks IH]; cbn [find option_map map fst]; [easy|]. destruct (Nat.eqb_spec j k) as [->|NE]; cbn [option_map].
  - split; [discriminate|]. intros H. exfalso. apply H. now left.
  - rewrite IH. split; [intros H [->|X]; [now apply NE|now apply H]|]. intros H X. apply H. now right.
Qed.
Lemma has_k L k : existsb (is_k k) L = true <-> In k (map fst L).
Proof.
  rewrite existsb_exists. unfold is_k. split.
  - intros (p & I & E). apply Nat.eqb_eq in E. subst k. now apply in_map.
  - intros I. apply in_map_iff in I as (p & <- & I). exists p. split; [easy|]. apply Nat.eqb_refl.
Qed.
Lemma keys_same a s k : R a s -> (In k (map fst (lks s)) <-> In k (map fst (a_lks a ++ a_end a))).
Proof. intros H. rewrite !in_map_iff. split; intros (p & E & I); exists p; (split; [easy|]); now apply (r_lk _ _ H). Qed.
Lemma nodes_in l t L x : In x (nodes l t L) <-> exists p, In p L /\ k_l (snd p) = l /\ k_t (snd p) = t /\ x = Link (fst p).
Proof.
  unfold nodes. rewrite in_map_iff. split.
  - intros (p & <- & I). apply filter_In in I as [I E]. unfold at_ts in E. apply andb_prop in E as [E1 E2]. apply Nat.eqb_eq in E1, E2. now exists p.
  - intros (p & I & E1 & E2 & ->). exists p. split; [easy|]. apply filter_In. split; [easy|]. unfold at_ts. now rewrite E1, E2, !Nat.eqb_refl.
Qed.
Lemma nodes_nodup l t L : NoDup (map fst L) -> NoDup (Head l t :: nodes l t L).
Proof.
  intros N. constructor; [intros I; apply nodes_in in I as (p & _ & _ & _ & E); discriminate E|]. unfold nodes. induction L as [|p L IH]; [constructor|]. cbn [map filter] in *. apply NoDup_cons_iff in N as [N1 N2].
  destruct (at_ts l t p); [|auto]. cbn [map]. constructor; [|auto]. intros I. apply in_map_iff in I as (q & E & I). injection E as E. apply N1. rewrite <- E. apply filter_In in I as [I _]. now apply in_map.
Qed.
Lemma nodup_left {A} (u v : list A) : NoDup (u ++ v) -> NoDup u.
Proof. induction u as [|x u IH]; [constructor|]. cbn [app]. intros N. apply NoDup_cons_iff in N as [N1 N2]. constructor; [|auto]. intros I. apply N1. apply in_or_app. now left. Qed.
Lemma nodup_apart {A} (u v : list A) x : NoDup (u ++ v) -> In x u -> In x v -> False.
Proof. induction u as [|y u IH]; [easy|]. cbn [app]. intros N I J. apply NoDup_cons_iff in N as [N1 N2]. destruct I as [->|I]; [apply N1; apply in_or_app; now right|auto]. Qed.
Lemma r_nd_lks a s : R a s -> NoDup (map fst (a_lks a)).
Proof. intros H. pose proof (r_nd2 _ _ H) as N. rewrite map_app in N. now apply nodup_left in N. Qed.
Lemma app_nodes l t u v : nodes l t (u ++ v) = nodes l t u ++ nodes l t v.
Proof. unfold nodes. now rewrite filter_app, map_app. Qed.
(** *** looking up *)
Lemma hd_next h z x r : chain h (Link x :: r ++ [z]) -> nx h (Link x) = Some (hd z r).
Proof. destruct r as [|y r]; cbn [app hd]; intros (C & _); exact C. Qed.
Lemma loop_is h ks l t tei sapi L : NoDup (map fst ks) -> (forall p, In p L -> In p ks) -> (forall p, In p L -> at_ts l t p = true) -> forall f, length L < f ->
  chain h (map (fun p => Link (fst p)) L ++ [Head l t]) -> (forall p, In p L -> h (Link (fst p)) <> None) ->
  loop f h ks (Head l t) (hd (Head l t) (map (fun p => Link (fst p)) L)) tei sapi =
  Ans (option_map fst (find (fun p => ((k_sapi (snd p) =? sapi)%Z && (k_tei (snd p) =? tei)%Z)) L)).
Proof.
  intros N S A f. revert f. induction L as [|[k x] L IH]; intros f F C V.
  - cbn [map hd find option_map]. destruct f as [|f]; [cbn in F; lia|]. cbn [loop]. now rewrite aeqb_refl.
  - cbn [map hd fst]. destruct f as [|f]; [lia|]. cbn [loop]. rewrite aeqb_neq by discriminate. rewrite (proj2 (find_k_in ks k x N)) by (apply S; now left).
    destruct (h (Link k)) as [c|] eqn:HC; [|exfalso; apply (V (k, x)); [now left|exact HC]]. cbn [find snd]. destruct ((k_sapi x =? sapi)%Z && (k_tei x =? tei)%Z); [reflexivity|].
    cbn [map app fst] in C. pose proof (hd_next h (Head l t) k _ C) as NX. unfold nx in NX. rewrite HC in NX. cbn in NX. assert (E : nxt c = hd (Head l t) (map (fun p => Link (fst p)) L)) by congruence. rewrite E.
    apply IH; [intros p I; apply S; now right|intros p I; apply A; now right|cbn in F; lia| |intros p I; apply V; now right].
    destruct L as [|y L]; cbn [map app] in *; [exact Logic.I|]. exact (proj2 (proj2 C)).
Qed.
Lemma find_filter {A} (f g : A -> bool) L : find (fun p => f p && g p) L = find g (filter f L).
Proof. induction L as [|x L IH]; [reflexivity|]. cbn [find filter]. destruct (f x); cbn [andb find]; [destruct (g x); [reflexivity|exact IH]|exact IH]. Qed.
Lemma lookup_is a s l t tei sapi : R a s -> a_sign a l t = true -> lookup (S (length (lks s))) s l t tei sapi = Ok (emit s (Found l t tei sapi (a_find a l t tei sapi))).
Proof.
  intros H SG. pose proof (r_ring _ _ H l t SG) as RG. unfold lookup. destruct (hp s (Head l t)) as [c|] eqn:HC; [|exfalso; apply (ring_live _ _ _ (Head l t) RG); [now left|exact HC]].
  set (L := filter (at_ts l t) (a_lks a)). assert (NC : nxt c = hd (Head l t) (map (fun p => Link (fst p)) L)).
  { unfold ring, nodes in RG. fold L in RG. assert (NX : nx (hp s) (Head l t) = Some (hd (Head l t) (map (fun p => Link (fst p)) L))) by (destruct L; exact (proj1 RG)). unfold nx in NX. rewrite HC in NX. cbn in NX. congruence. }
  rewrite NC, (loop_is (hp s) (lks s) l t tei sapi L).
  - assert (E : find (fun p => at_ts l t p && (k_sapi (snd p) =? sapi)%Z && (k_tei (snd p) =? tei)%Z) (a_lks a) = find (fun p => (k_sapi (snd p) =? sapi)%Z && (k_tei (snd p) =? tei)%Z) L).
    { unfold L. rewrite <- (find_filter (at_ts l t)). clear. induction (a_lks a) as [|x r IH]; [reflexivity|]. cbn [find]. rewrite <- andb_assoc. now rewrite IH. }
    unfold a_find. rewrite E. reflexivity.
  - apply (r_nd _ _ H).
  - intros p I. apply (r_lk _ _ H). apply in_or_app. left. now apply filter_In in I.
  - intros p I. now apply filter_In in I.
  - apply Nat.lt_succ_r. assert (ND : NoDup (map fst L)).
    { unfold L. pose proof (r_nd_lks _ _ H) as N. clear - N. induction (a_lks a) as [|x r IH]; [constructor|]. cbn [map filter] in *. apply NoDup_cons_iff in N as [N1 N2]. destruct (at_ts l t x); [|auto]. cbn [map]. constructor; [|auto].
      intros I. apply N1. apply in_map_iff in I as (q & E & I). apply filter_In in I as [I _]. rewrite <- E. now apply in_map. }
    rewrite <- (map_length fst L), <- (map_length fst (lks s)). apply NoDup_incl_length; [exact ND|]. intros k I. apply (keys_same a s k H). apply in_map_iff in I as (p & <- & I). apply in_map. apply in_or_app. left. now apply filter_In in I.
  - unfold ring, nodes in RG. fold L in RG. destruct (map (fun p => Link (fst p)) L) as [|y r]; [exact Logic.I|]. exact (proj2 (proj2 RG)).
  - intros p I. apply (ring_live _ _ _ (Link (fst p)) RG). right. apply filter_In in I as [I E]. unfold at_ts in E. apply andb_prop in E as [E1 E2]. apply Nat.eqb_eq in E1, E2. apply nodes_in. now exists p.
Qed.

(** *** the other operations *)
Lemma key_inj (L : list (nat * link)) p q : NoDup (map fst L) -> In p L -> In q L -> fst p = fst q -> p = q.
Proof.
  induction L as [|y L IH]; [easy|]. cbn [map]. intros N I1 I2 X. apply NoDup_cons_iff in N as [N1 N2].
  destruct I1 as [->|I1], I2 as [->|I2]; [easy| | |now apply IH]; exfalso; apply N1; [rewrite X; now apply in_map|rewrite <- X; now apply in_map].
Qed.
Lemma NoDup_snoc' {A} (l : list A) x : NoDup l -> ~ In x l -> NoDup (l ++ [x]).
Proof. intros N I. apply (Permutation_NoDup (l := x :: l)); [apply Permutation_cons_append|now constructor]. Qed.
Lemma NoDup_mid' {A} (u v : list A) x : NoDup (u ++ v) -> ~ In x (u ++ v) -> NoDup (u ++ x :: v).
Proof. intros N I. apply (Permutation_NoDup (l := x :: u ++ v)); [apply Permutation_middle|now constructor]. Qed.
Lemma exists_same {A} (f : A -> bool) u v : (forall p, In p u <-> In p v) -> existsb f u = existsb f v.
Proof.
  intros H. destruct (existsb f v) eqn:E.
  - apply existsb_exists in E as (x & I & F). apply existsb_exists. exists x. split; [now apply H|easy].
  - destruct (existsb f u) eqn:F; [|easy]. apply existsb_exists in F as (x & I & F). rewrite <- E. symmetry. apply existsb_exists. exists x. split; [now apply H|easy].
Qed.
Lemma exists_none {A} (f : A -> bool) u : existsb f u = false -> forall x, In x u -> f x = false.
Proof. intros E x I. destruct (f x) eqn:F; [|easy]. rewrite <- E. symmetry. apply existsb_exists. now exists x. Qed.
Lemma nx_eq (h h' : heap) x : h' x = h x -> nx h' x = nx h x /\ pv h' x = pv h x.
Proof. unfold nx, pv. now intros ->. Qed.
Lemma ring_keep (h h' : heap) l t L : (forall k, h' (Link k) = h (Link k)) -> h' (Head l t) = h (Head l t) -> ring h (Head l t) (nodes l t L) -> ring h' (Head l t) (nodes l t L).
Proof. intros A B. apply ring_frame. intros x [<-|I]; [now apply nx_eq|]. apply nodes_in in I as (p & _ & _ & _ & ->). now apply nx_eq. Qed.
Lemma r_dead a s l t : R a s -> a_line a l = false -> a_sign a l t = false.
Proof. intros H N. destruct (a_sign a l t) eqn:E; [|easy]. pose proof (r_s _ _ H l t E) as X. unfold a_ts in X. rewrite N in X. discriminate X. Qed.
Lemma sim_emit a s e : R a s -> R (a_emit a e) (emit s e).
Proof. intros []. constructor; cbn; try assumption. congruence. Qed.
Lemma sim_line a s l : R a s -> R (if a_line a l then a else mkA (a_lns a ++ [l]) (a_sign a) (a_lks a) (a_end a) (a_out a)) (line_create s l).
Proof.
  intros H. unfold line_create. rewrite (line_same a s l H). destruct (a_line a l); [easy|]. destruct H. constructor; cbn; try assumption; [congruence|].
  intros i t E. apply r_s0 in E. unfold a_ts, a_line in *. cbn [a_lns]. rewrite existsb_app. apply andb_prop in E as [-> ->]. reflexivity.
Qed.
Lemma sim_clone a s l m : R a s -> a_line a l && negb (a_line a m) = true -> existsb (a_sign a l) (seq 0 32) = false ->
  R (mkA (a_lns a ++ [m]) (a_sign a) (a_lks a) (a_end a) (a_out a)) (line_clone s l m).
Proof.
  intros H C N. unfold line_clone. rewrite !(line_same a s _ H), C. apply andb_prop in C as [_ M]. apply negb_true_iff in M.
  assert (NS : forall t, a_sign a l t = false).
  { intros t. destruct (a_sign a l t) eqn:E; [|easy]. rewrite <- E. apply (exists_none _ _ N). apply in_seq. pose proof (r_s _ _ H l t E) as X. unfold a_ts in X. apply andb_prop in X as [_ X]. apply Nat.ltb_lt in X. lia. }
  pose proof (fun t => r_dead a s m t H M) as MS. destruct H. constructor; cbn; try assumption; [congruence| | |].
  - intros i t. destruct (Nat.eqb_spec i m) as [->|]; [|easy]. now rewrite r_k0, NS, MS.
  - intros i t E. apply r_s0 in E. unfold a_ts, a_line in *. cbn [a_lns]. rewrite existsb_app. apply andb_prop in E as [-> ->]. reflexivity.
  - intros i t E. apply (ring_keep (hp s)); [easy| |now apply r_ring0]. cbn. destruct (Nat.eqb_spec i m) as [->|]; [|easy]. now rewrite MS in E.
Qed.
Lemma sim_free a s l : R a s -> R (if a_line a l && negb (existsb (on_line l) (a_lks a ++ a_end a)) then
      mkA (filter (fun i => negb (Nat.eqb i l)) (a_lns a)) (fun i t => negb (Nat.eqb i l) && a_sign a i t) (a_lks a) (a_end a) (a_out a) else a) (line_free s l).
Proof.
  intros H. unfold line_free. rewrite (line_same a s l H), (exists_same (on_line l) (lks s) (a_lks a ++ a_end a)) by apply (r_lk _ _ H). destruct (a_line a l); cbn [andb]; [|easy]. destruct (existsb (on_line l) (a_lks a ++ a_end a)) eqn:X; cbn [negb]; [easy|].
  destruct H. constructor; cbn; try assumption; [congruence| | | |].
  - intros i t. destruct (Nat.eqb_spec i l) as [->|]; cbn; [easy|apply r_k0].
  - intros i t E. apply andb_prop in E as [E1 E2]. apply r_s0 in E2. unfold a_ts, a_line in *. cbn [a_lns]. apply andb_prop in E2 as [E2 ->]. rewrite andb_true_r. apply existsb_exists in E2 as (j & I & J). apply Nat.eqb_eq in J. subst j.
    apply existsb_exists. exists i. split; [now apply filter_In|apply Nat.eqb_refl].
  - intros p I. rewrite (r_at0 p I), andb_true_r. apply negb_true_iff. apply (exists_none _ _ X p). apply in_or_app. now left.
  - intros i t E. apply andb_prop in E as [E1 E2]. apply negb_true_iff in E1. apply (ring_keep (hp s)); [easy| |now apply r_ring0]. cbn. now rewrite E1.
Qed.
Lemma at_eq i u l t : Nat.eqb i l && Nat.eqb u t = true <-> i = l /\ u = t.
Proof. now rewrite andb_true_iff, !Nat.eqb_eq. Qed.
Lemma nodes_none l t L : (forall p, In p L -> at_ts l t p = false) -> nodes l t L = [].
Proof. intros H. unfold nodes. induction L as [|p L IH]; [reflexivity|]. cbn [filter]. rewrite (H p) by (now left). apply IH. intros q I. apply H. now right. Qed.
Lemma sim_sign a s l t : R a s -> R (if a_ts a l t then mkA (a_lns a) (fun i u => Nat.eqb i l && Nat.eqb u t || a_sign a i u) (a_lks a) (a_end a) (a_out a) else a) (config_sign s l t).
Proof.
  intros H. unfold config_sign. rewrite (live_same a s l t H). destruct (a_ts a l t) eqn:LT; [|easy]. rewrite (r_k _ _ H). destruct (a_sign a l t) eqn:K.
  - assert (Q : forall i u, (Nat.eqb i l && Nat.eqb u t || a_sign a i u)%bool = a_sign a i u).
    { intros i u. destruct (Nat.eqb i l && Nat.eqb u t) eqn:E; [|easy]. apply at_eq in E as [-> ->]. now rewrite K. }
    destruct H. constructor; cbn; try assumption.
    + intros i u. rewrite Q. apply r_k0.
    + intros i u. rewrite Q. apply r_s0.
    + intros p. rewrite Q. apply r_at0.
    + intros i u. rewrite Q. apply r_ring0.
  - assert (NN : nodes l t (a_lks a) = []).
    { apply nodes_none. intros p I. destruct (at_ts l t p) eqn:E; [|easy]. unfold at_ts in E. apply at_eq in E as [E1 E2]. pose proof (r_at _ _ H p I) as X. rewrite E1, E2, K in X. discriminate X. }
    destruct H. constructor; cbn; try assumption.
    + intros i u. rewrite r_k0. now destruct (Nat.eqb i l && Nat.eqb u t).
    + intros i u E. destruct (Nat.eqb i l && Nat.eqb u t) eqn:Q; cbn in E; [apply at_eq in Q as [-> ->]; exact LT|now apply r_s0].
    + intros p I. rewrite (r_at0 p I). apply orb_true_r.
    + intros i u E. destruct (Nat.eqb i l && Nat.eqb u t) eqn:Q; cbn in E.
      * apply at_eq in Q as [-> ->]. change (ring (init_head (hp s) (Head l t)) (Head l t) (nodes l t (a_lks a))). rewrite NN. unfold ring, init_head, put, chain, nx, pv. cbn [app]. rewrite aeqb_refl. cbn. easy.
      * apply (ring_keep (hp s)); [easy| |now apply r_ring0]. unfold init_head, put. cbn [aeqb]. now rewrite Q.
Qed.
Lemma sim_other a s l t : R a s -> a_ts a l t = true -> existsb (at_ts l t) (a_lks a) = false ->
  R (mkA (a_lns a) (fun i u => negb (Nat.eqb i l && Nat.eqb u t) && a_sign a i u) (a_lks a) (a_end a) (a_out a)) (config_other s l t).
Proof.
  intros H LT X. unfold config_other. rewrite (live_same a s l t H), LT. destruct H. constructor; cbn; try assumption.
  - intros i u. rewrite r_k0. now destruct (Nat.eqb i l && Nat.eqb u t).
  - intros i u E. apply andb_prop in E as [_ E]. now apply r_s0.
  - intros p I. rewrite (r_at0 p I), andb_true_r. apply negb_true_iff. exact (exists_none _ _ X p I).
  - intros i u E. apply andb_prop in E as [E1 E2]. apply negb_true_iff in E1. apply (ring_keep (hp s)); [easy| |now apply r_ring0]. unfold put. cbn [aeqb]. now rewrite E1.
Qed.

Lemma sim_create a s k l t tei sapi : R a s -> exists s',
  link_create s k l t tei sapi = Ok s' /\ R (if a_ts a l t then
            if a_sign a l t then
              if existsb (is_k k) (a_lks a ++ a_end a) then a else
              mkA (a_lns a) (a_sign a) (a_lks a ++ [(k, mkK l t tei sapi)]) (a_end a) (a_out a ++ [Made k]) else a_emit a NoLink
          else a) s'.
Proof.
  intros H. unfold link_create. rewrite (live_same a s l t H). destruct (a_ts a l t) eqn:LT; [|now exists s]. rewrite (r_k _ _ H). destruct (a_sign a l t) eqn:K; [|eexists; split; [reflexivity|now apply sim_emit]].
  destruct (existsb (is_k k) (a_lks a ++ a_end a)) eqn:U.
  { apply has_k, (keys_same a s k H) in U. destruct (find_k (lks s) k) eqn:F; [now exists s|]. apply find_k_none in F. contradiction. }
  assert (UN : ~ In k (map fst (a_lks a ++ a_end a))) by (intros I; apply has_k in I; congruence).
  destruct (find_k (lks s) k) eqn:F; [exfalso; apply UN, (keys_same a s k H); apply (find_k_in _ _ _ (r_nd _ _ H)) in F; change k with (fst (k, l0)); now apply in_map|].
  set (h := put (hp s) (Link k) (Some (mkC (Link k) (Link k)))). cbn zeta. cbn [hp lks kind lns out].
  assert (NL : forall p, In p (a_lks a ++ a_end a) -> fst p <> k) by (intros p I X; apply UN; rewrite <- X; now apply in_map).
  assert (HK : forall x, x <> Link k -> h x = hp s x) by (intros x N; unfold h, put; now rewrite aeqb_neq).
  assert (RG : forall i u, a_sign a i u = true -> ring h (Head i u) (nodes i u (a_lks a))).
  { intros i u E. apply (ring_frame (hp s)); [|now apply (r_ring _ _ H)]. intros x I. apply nx_eq, HK. destruct I as [<-|I]; [discriminate|]. apply nodes_in in I as (p & I & _ & _ & ->). intros Q. injection Q as Q. apply (NL p); [|easy]. apply in_or_app. now left. }
  destruct (ring_add h (Head l t) (nodes l t (a_lks a)) (Link k)) as (h' & E & R' & FR & _).
  - now apply RG.
  - unfold h, put. rewrite aeqb_refl. discriminate.
  - change (Head l t :: nodes l t (a_lks a) ++ [Link k]) with ((Head l t :: nodes l t (a_lks a)) ++ [Link k]). apply NoDup_snoc'; [apply nodes_nodup, (r_nd_lks _ _ H)|]. intros [Q|I]; [discriminate Q|].
    apply nodes_in in I as (p & I & _ & _ & Q). injection Q as Q. apply (NL p); [|easy]. apply in_or_app. now left.
  - rewrite E. cbn [of_opt]. eexists. split; [reflexivity|]. unfold w_hp. cbn [hp lks kind lns out].
    assert (FR2 : forall x, x <> Head l t -> x <> Link k -> ~ In x (nodes l t (a_lks a)) -> nx h' x = nx (hp s) x /\ pv h' x = pv (hp s) x).
    { intros x A B C. destruct (FR x) as [-> ->]; [intros [X|X]; [now apply A|apply in_app_or in X as [X|[X|[]]]; [now apply C|now apply B]]|]. now apply nx_eq, HK. }
    destruct H. constructor; cbn [hp lks kind lns out a_lns a_sign a_lks a_end a_out]; try assumption.
    + intros p. rewrite !in_app_iff. rewrite r_lk0, in_app_iff. tauto.
    + rewrite map_app. apply NoDup_snoc'; [easy|]. cbn [fst]. now apply find_k_none.
    + rewrite <- app_assoc, map_app. cbn [app map fst]. apply NoDup_mid'; [rewrite <- map_app; easy|]. rewrite <- map_app. exact UN.
    + intros p I. apply in_app_or in I as [I|[<-|[]]]; [now apply r_at0|exact K].
    + intros p I. destruct (FR2 (Link (fst p))) as [-> _]; [discriminate| | |now apply r_en0].
      * intros Q. injection Q as Q. apply (NL p); [|easy]. apply in_or_app. now right.
      * intros X. apply nodes_in in X as (q & J & _ & _ & Q). injection Q as Q. rewrite map_app in r_nd3. apply (nodup_apart _ _ (fst p) r_nd3); [rewrite Q; now apply in_map|now apply in_map].
    + intros i u S. rewrite app_nodes. destruct (Nat.eqb i l && Nat.eqb u t) eqn:Q.
      * apply at_eq in Q as [-> ->]. assert (E1 : nodes l t [(k, mkK l t tei sapi)] = [Link k]) by (unfold nodes, at_ts; cbn [filter snd k_l k_t]; rewrite !Nat.eqb_refl; reflexivity). rewrite E1. exact R'.
      * assert (E1 : nodes i u [(k, mkK l t tei sapi)] = []) by (unfold nodes, at_ts; cbn [filter snd k_l k_t]; rewrite (Nat.eqb_sym l i), (Nat.eqb_sym t u), Q; reflexivity). rewrite E1, app_nil_r.
        apply (ring_frame (hp s)); [|now apply r_ring0]. intros x I. apply FR2.
        -- intros ->. destruct I as [X|I]; [injection X as -> ->; rewrite !Nat.eqb_refl in Q; discriminate Q|]. apply nodes_in in I as (p & _ & _ & _ & X). discriminate X.
        -- intros ->. destruct I as [X|I]; [discriminate X|]. apply nodes_in in I as (p & I & _ & _ & X). injection X as X. apply (NL p); [|easy]. apply in_or_app. now left.
        -- intros X. apply nodes_in in X as (p & I1 & A1 & A2 & ->). destruct I as [I|I]; [discriminate I|]. apply nodes_in in I as (q & I2 & B1 & B2 & X). injection X as X.
           assert (p = q) as <-; [|now rewrite <- A1, <- A2, B1, B2, !Nat.eqb_refl in Q]. rewrite map_app in r_nd3. apply nodup_left in r_nd3. revert I1 I2 X r_nd3. clear. induction (a_lks a) as [|y L IH]; [easy|]. cbn [map]. intros I1 I2 X N. apply NoDup_cons_iff in N as [N1 N2].
           destruct I1 as [->|I1], I2 as [->|I2]; [easy| | |now apply IH]; exfalso; apply N1; [rewrite X; now apply in_map|rewrite <- X; now apply in_map].
    + congruence.
Qed.

(** *** destroying: out of the list, and freed *)
Definition gone (k : nat) (L : list (nat * link)) : list (nat * link) := filter (fun q => negb (is_k k q)) L.
Lemma gone_in k L p : In p (gone k L) <-> In p L /\ fst p <> k.
Proof. unfold gone, is_k. rewrite filter_In, negb_true_iff, Nat.eqb_neq. tauto. Qed.
Lemma gone_none k L : existsb (is_k k) L = false -> gone k L = L.
Proof. intros E. unfold gone. induction L as [|p L IH]; [reflexivity|]. cbn [existsb filter] in *. apply orb_false_elim in E as [-> E]. cbn [negb]. now rewrite IH. Qed.
Lemma gone_split k L u p v : NoDup (map fst L) -> L = u ++ p :: v -> fst p = k -> gone k L = u ++ v.
Proof.
  intros N -> E. unfold gone. rewrite filter_app. cbn [filter]. unfold is_k at 2. rewrite E, Nat.eqb_refl. cbn [negb]. rewrite map_app in N. cbn [map] in N. apply NoDup_remove_2 in N. rewrite E, <- map_app in N.
  rewrite <- filter_app. apply (gone_none k (u ++ v)). destruct (existsb (is_k k) (u ++ v)) eqn:X; [|easy]. apply has_k in X. contradiction.
Qed.
Lemma gone_nodup k L : NoDup (map fst L) -> NoDup (map fst (gone k L)).
Proof.
  unfold gone. induction L as [|x r IH]; [constructor|]. cbn [map filter]. intros N. apply NoDup_cons_iff in N as [N1 N2]. destruct (negb (is_k k x)); [|auto]. cbn [map]. constructor; [|auto].
  intros I. apply N1. apply in_map_iff in I as (q & E & I). apply filter_In in I as [I _]. rewrite <- E. now apply in_map.
Qed.
Lemma find_is k L p : find (is_k k) L = Some p -> exists u v, L = u ++ p :: v /\ fst p = k.
Proof. intros F. pose proof (find_some _ _ F) as [I E]. unfold is_k in E. apply Nat.eqb_eq in E. apply in_split in I as (u & v & ->). now exists u, v. Qed.
Lemma sim_unlink a s k p : R a s -> find (is_k k) (a_lks a) = Some p -> is_empty (hp s) (Link k) = Some false /\ exists s',
  unlink s k = Ok s' /\ R (mkA (a_lns a) (a_sign a) (gone k (a_lks a)) (p :: a_end a) (a_out a)) s'.
Proof.
  intros H F. destruct (find_is _ _ _ F) as (u & v & E & PK). pose proof (r_nd_lks _ _ H) as ND.
  assert (IP : In p (a_lks a)) by (rewrite E; apply in_or_app; right; now left). set (l := k_l (snd p)). set (t := k_t (snd p)).
  pose proof (r_ring _ _ H l t (r_at _ _ H p IP)) as RG. pose proof (nodes_nodup l t _ ND) as NN. rewrite E, app_nodes in RG, NN.
  assert (EN : nodes l t (p :: v) = Link k :: nodes l t v) by (unfold nodes, at_ts; cbn [filter]; unfold l, t; rewrite !Nat.eqb_refl; cbn [andb map]; now rewrite PK). rewrite EN in RG, NN.
  destruct (ring_del (hp s) (Head l t) (nodes l t u) (Link k) (nodes l t v) RG NN) as (h' & D & R' & X1 & X2 & FR & _).
  split.
  { unfold is_empty. destruct (hp s (Link k)) as [c|] eqn:HC; [|exfalso; apply (ring_live _ _ _ (Link k) RG); [right; apply in_or_app; right; now left|exact HC]]. f_equal. apply aeqb_neq. intros Q.
    unfold ring in RG. rewrite <- app_assoc in RG. cbn [app] in RG. change (Head l t :: nodes l t u ++ Link k :: nodes l t v ++ [Head l t]) with ((Head l t :: nodes l t u) ++ Link k :: nodes l t v ++ [Head l t]) in RG. apply chain_app in RG as [_ RG].
    pose proof (hd_next _ _ _ _ RG) as NX. unfold nx in NX. rewrite HC in NX. cbn in NX. rewrite Q in NX. destruct (nodes l t v) as [|y r] eqn:NV; cbn [hd] in NX; [discriminate NX|]. injection NX as <-.
    change (Head l t :: nodes l t u ++ Link k :: Link k :: r) with ((Head l t :: nodes l t u) ++ Link k :: Link k :: r) in NN. apply NoDup_remove_2 in NN. apply NN. apply in_or_app. right. now left. }
  unfold unlink. rewrite D. cbn [of_opt]. eexists. split; [reflexivity|]. unfold w_hp. rewrite (gone_split k _ u p v ND E PK).
  assert (MEM : forall q, In q (a_lks a ++ a_end a) <-> In q ((u ++ v) ++ p :: a_end a)) by (intros q; rewrite E, !in_app_iff; cbn; tauto).
  destruct H. constructor; cbn [hp lks kind lns out a_lns a_sign a_lks a_end a_out]; try assumption.
  - intros q. now rewrite r_lk0.
  - apply (Permutation_NoDup (l := map fst (a_lks a ++ a_end a))); [|easy]. apply Permutation_map. rewrite E, <- !app_assoc. cbn [app]. apply Permutation_app_head. apply Permutation_middle.
  - intros q I. apply r_at0. rewrite E. apply in_app_or in I as [I|I]; apply in_or_app; [now left|right; now right].
  - intros q [<-|I]; [now rewrite PK|]. destruct (FR (Link (fst q))) as [-> _]; [|now apply r_en0]. intros [Q|I2]; [discriminate Q|]. rewrite <- EN, <- app_nodes, <- E in I2. apply nodes_in in I2 as (w & I2 & _ & _ & Q). injection Q as Q.
    rewrite map_app in r_nd3. apply (nodup_apart _ _ (fst q) r_nd3); [rewrite Q; now apply in_map|now apply in_map].
  - intros i w S. destruct (Nat.eqb i l && Nat.eqb w t) eqn:Q.
    + apply at_eq in Q as [-> ->]. now rewrite app_nodes.
    + assert (E1 : nodes i w (a_lks a) = nodes i w (u ++ v)).
      { rewrite E, !app_nodes. f_equal. unfold nodes, at_ts. cbn [filter]. fold l t. now rewrite (Nat.eqb_sym l i), (Nat.eqb_sym t w), Q. }
      rewrite <- E1. apply (ring_frame (hp s)); [|now apply r_ring0]. intros x I. apply FR. intros J. rewrite <- EN, <- app_nodes, <- E in J. destruct J as [<-|J].
      * destruct I as [X|I]; [injection X as -> ->; rewrite !Nat.eqb_refl in Q; discriminate Q|]. apply nodes_in in I as (q & _ & _ & _ & X). discriminate X.
      * destruct I as [<-|I]; [apply nodes_in in J as (q & _ & _ & _ & X); discriminate X|]. apply nodes_in in J as (q & I1 & A1 & A2 & ->). apply nodes_in in I as (q2 & I2 & B1 & B2 & X). injection X as X.
        assert (q = q2) as <-; [|now rewrite <- A1, <- A2, B1, B2, !Nat.eqb_refl in Q]. now apply (key_inj (a_lks a)).
Qed.
Lemma sim_freed a s k : R a s -> In k (map fst (a_end a)) -> R (mkA (a_lns a) (a_sign a) (a_lks a) (gone k (a_end a)) (a_out a ++ [Freed k])) (link_free s k).
Proof.
  intros H IK. unfold link_free. change (filter (fun p => negb (Nat.eqb (fst p) k)) (lks s)) with (gone k (lks s)). assert (NK : ~ In k (map fst (a_lks a))).
  { intros I. pose proof (r_nd2 _ _ H) as N. rewrite map_app in N. exact (nodup_apart _ _ k N I IK). }
  assert (HK : forall x, x <> Link k -> put (hp s) (Link k) None x = hp s x) by (intros x N; unfold put; now rewrite aeqb_neq).
  destruct H. constructor; cbn [hp lks kind lns out a_lns a_sign a_lks a_end a_out]; try assumption.
  - intros p. rewrite gone_in, r_lk0, !in_app_iff, gone_in. split; [intros [[I|I] N]; tauto|]. intros [I|[I N]]; [|tauto]. split; [tauto|]. intros X. apply NK. rewrite <- X. now apply in_map.
  - now apply gone_nodup.
  - assert (E : a_lks a ++ gone k (a_end a) = gone k (a_lks a ++ a_end a)).
    { unfold gone. rewrite filter_app. f_equal. symmetry. apply gone_none. destruct (existsb (is_k k) (a_lks a)) eqn:X; [|easy]. apply has_k in X. contradiction. }
    rewrite E. now apply gone_nodup.
  - intros p I. apply gone_in in I as [I N]. destruct (nx_eq (hp s) (put (hp s) (Link k) None) (Link (fst p))) as [-> _]; [apply HK; congruence|now apply r_en0].
  - intros i t S. apply (ring_frame (hp s)); [|now apply r_ring0]. intros x I. apply nx_eq, HK. intros ->. destruct I as [X|I]; [discriminate X|]. apply nodes_in in I as (p & I & _ & _ & X). injection X as X. apply NK. rewrite X. now apply in_map.
  - congruence.
Qed.
Lemma sim_twice a s k : R a s -> In k (map fst (a_end a)) -> is_empty (hp s) (Link k) = Some true.
Proof.
  intros H I. apply in_map_iff in I as (p & <- & I). pose proof (r_en _ _ H p I) as E. unfold nx in E. unfold is_empty. destruct (hp s (Link (fst p))) as [c|]; [|discriminate E]. cbn in *. assert (X : nxt c = Link (fst p)) by congruence. now rewrite X, aeqb_refl.
Qed.

(** ** All of it *)
Fixpoint op_all (P : op -> Prop) (L1 : forall l, P (Line l)) (L2 : forall l m, P (Clone l m)) (L3 : forall l, P (Free l)) (L4 : forall l t, P (Sign l t)) (L5 : forall l t, P (Other l t))
  (L6 : forall k l t tei sapi, P (Create k l t tei sapi)) (L7 : forall k os, Forall P os -> P (Destroy k os)) (L8 : forall l t tei sapi, P (Lookup l t tei sapi)) (o : op) : P o :=
  match o with
  | Line l => L1 l | Clone l m => L2 l m | Free l => L3 l | Sign l t => L4 l t | Other l t => L5 l t | Create k l t tei sapi => L6 k l t tei sapi | Lookup l t tei sapi => L8 l t tei sapi
  | Destroy k os => L7 k os ((fix go (os : list op) : Forall P os := match os with [] => Forall_nil P | o :: r => Forall_cons o (op_all P L1 L2 L3 L4 L5 L6 L7 L8 o) (go r) end) os)
  end.
Lemma a_destroy a k during : a_step a (Destroy k during) =
    if existsb (is_k k) (a_end a) then Some (a_emit a (Twice k)) else
    match find (is_k k) (a_lks a) with
    | None => Some a
    | Some p =>
      match a_run (mkA (a_lns a) (a_sign a) (gone k (a_lks a)) (p :: a_end a) (a_out a)) during with
      | Some a => Some (mkA (a_lns a) (a_sign a) (a_lks a) (gone k (a_end a)) (a_out a ++ [Freed k]))
      | None => None
      end
    end.
Proof. reflexivity. Qed.
Lemma destroy_is s k during : step s (Destroy k during) =
    match find_k (lks s) k with
    | None => Ok s
    | Some _ =>
      match is_empty (hp s) (Link k) with
      | None => Fault
      | Some true => Ok (emit s (Twice k))
      | Some false =>
        match unlink s k with
        | Ok s => match run s during with Ok s => Ok (link_free s k) | e => e end
        | e => e
        end
      end
    end.
Proof. reflexivity. Qed.
Definition good_op (o : op) : Prop := forall a a', a_step a o = Some a' -> a_end a' = a_end a /\ forall s, R a s -> exists s', step s o = Ok s' /\ R a' s'.
Lemma good_run os : Forall good_op os -> forall a a', a_run a os = Some a' -> a_end a' = a_end a /\ forall s, R a s -> exists s', run s os = Ok s' /\ R a' s'.
Proof.
  induction 1 as [|o os G F IH]; cbn [a_run run]; intros a a' E.
  - injection E as <-. split; [reflexivity|]. intros s H. now exists s.
  - destruct (a_step a o) as [b|] eqn:E1; [|discriminate E]. destruct (G a b E1) as [G1 G2]. destruct (IH b a' E) as [I1 I2]. split; [congruence|]. intros s H. destruct (G2 s H) as (s' & -> & H'). destruct (I2 s' H') as (s2 & E2 & H2). now exists s2.
Qed.
Lemma all_good o : good_op o.
Proof.
  induction o using op_all; intros a a' E.
  - cbn in E. injection E as <-. split; [now destruct (a_line a l)|]. intros s H. eexists. split; [reflexivity|]. now apply sim_line.
  - cbn [a_step] in E. destruct (a_line a l && negb (a_line a m)) eqn:C.
    + destruct (existsb (a_sign a l) (seq 0 32)) eqn:X; [discriminate E|]. injection E as <-. split; [reflexivity|]. intros s H. eexists. split; [reflexivity|]. now apply sim_clone.
    + injection E as <-. split; [reflexivity|]. intros s H. cbn [step]. unfold line_clone. rewrite !(line_same a s _ H), C. now exists s.
  - cbn [a_step] in E. assert (Q : a_end a' = a_end a) by (destruct (a_line a l && negb (existsb (on_line l) (a_lks a ++ a_end a))); injection E as <-; reflexivity). split; [exact Q|]. intros s H. eexists. split; [reflexivity|].
    pose proof (sim_free a s l H) as X. destruct (a_line a l && negb (existsb (on_line l) (a_lks a ++ a_end a))); injection E as <-; exact X.
  - cbn [a_step] in E. injection E as <-. split; [now destruct (a_ts a l t)|]. intros s H. eexists. split; [reflexivity|]. now apply sim_sign.
  - cbn [a_step] in E. destruct (a_ts a l t) eqn:LT.
    + destruct (existsb (at_ts l t) (a_lks a)) eqn:X; [discriminate E|]. injection E as <-. split; [reflexivity|]. intros s H. eexists. split; [reflexivity|]. now apply sim_other.
    + injection E as <-. split; [reflexivity|]. intros s H. cbn [step]. unfold config_other. rewrite (live_same a s l t H), LT. now exists s.
  - cbn [a_step] in E. injection E as <-. split; [destruct (a_ts a l t); [destruct (a_sign a l t); [destruct (existsb (is_k k) (a_lks a ++ a_end a))|]|]; reflexivity|]. intros s Hs. now apply sim_create.
  - rewrite a_destroy in E. destruct (existsb (is_k k) (a_end a)) eqn:X.
    { injection E as <-. split; [reflexivity|]. intros s Hs. rewrite destroy_is. apply has_k in X. assert (IK : In k (map fst (lks s))) by (apply (keys_same a s k Hs); rewrite map_app; apply in_or_app; now right).
      destruct (find_k (lks s) k) eqn:F; [|now apply find_k_none in F]. rewrite (sim_twice a s k Hs X). eexists. split; [reflexivity|]. now apply sim_emit. }
    destruct (find (is_k k) (a_lks a)) as [p|] eqn:F.
    + destruct (a_run (mkA (a_lns a) (a_sign a) (gone k (a_lks a)) (p :: a_end a) (a_out a)) os) as [b|] eqn:RN; [|discriminate E]. injection E as <-. destruct (good_run os H _ _ RN) as [G1 G2]. cbn [a_end] in G1.
      destruct (find_is _ _ _ F) as (u & v & EQ & PK). assert (GE : gone k (p :: a_end a) = a_end a).
      { unfold gone. cbn [filter]. unfold is_k at 1. rewrite PK, Nat.eqb_refl. cbn [negb]. now apply gone_none. }
      split; [cbn [a_end]; now rewrite G1|]. intros s Hs. rewrite destroy_is. destruct (sim_unlink a s k p Hs F) as (EM & s1 & U & H1). destruct (find_k (lks s) k) eqn:FK.
      2:{ exfalso. apply find_k_none in FK. apply FK. apply (keys_same a s k Hs). rewrite EQ, <- PK. apply in_map. apply in_or_app. left. apply in_or_app. right. now left. }
      rewrite EM, U. destruct (G2 s1 H1) as (s2 & -> & H2). eexists. split; [reflexivity|]. apply sim_freed; [exact H2|]. rewrite G1. left. exact PK.
    + injection E as <-. split; [reflexivity|]. intros s Hs. rewrite destroy_is. destruct (find_k (lks s) k) eqn:FK; [|now exists s]. exfalso. assert (IK : In k (map fst (lks s))).
      { destruct (in_dec Nat.eq_dec k (map fst (lks s))) as [I|N]; [easy|]. apply find_k_none in N. congruence. }
      apply (keys_same a s k Hs) in IK. rewrite map_app in IK. apply in_app_or in IK as [IK|IK]; apply has_k in IK; [|congruence]. apply existsb_exists in IK as (p & I & Q). pose proof (find_none _ _ F p I) as Y. congruence.
  - cbn [a_step] in E. injection E as <-. split; [now destruct (a_ts a l t && a_sign a l t)|]. intros s Hs. cbn [step]. rewrite (live_same a s l t Hs), (r_k _ _ Hs). destruct (a_ts a l t && a_sign a l t) eqn:C; [|now exists s].
    apply andb_prop in C as [_ C]. exists (emit s (Found l t tei sapi (a_find a l t tei sapi))). split; [exact (lookup_is a s l t tei sapi Hs C)|]. now apply sim_emit.
Qed.
Lemma lists_right os a : a_run a_init os = Some a -> exists s, run init os = Ok s /\ R a s.
Proof. intros E. destruct (good_run os (proj2 (Forall_forall good_op os) (fun o _ => all_good o)) a_init a E) as [_ G]. exact (G init r_init). Qed.
