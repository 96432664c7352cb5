(** Invariants of the DAHDI driver model: one timeslot at a time. *)
From Coq Require Import List Arith Lia Bool ZArith.
From Verif Require Import Base E1Model DahdiModel DahdiSpec.
Import ListNotations.
Open Scope Z_scope.

Ltac es := unfold emit, next, set_ts, w_fd, w_wr, w_lapd, w_q in *; cbn [spans port exist tsl tick out e_type e_fd e_reg e_wr e_lapd e_q e_tmr] in *.
Ltac esg := unfold emit, next, set_ts, w_fd, w_wr, w_lapd, w_q; cbn [spans port exist tsl tick out e_type e_fd e_reg e_wr e_lapd e_q e_tmr].

Definition here (l t l' t' : nat) : bool := Nat.eqb l' l && Nat.eqb t' t.
Lemma upd2 {A} (f : nat -> nat -> A) l t x l' t' : upd f l (upd (f l) t x) l' t' = if here l t l' t' then x else f l' t'.
Proof. unfold upd, here. destruct (Nat.eqb_spec l' l) as [->|]; [destruct (Nat.eqb_spec t' t) as [->|]|]; reflexivity. Qed.
Lemma here_spec l t l' t' : if here l t l' t' then l' = l /\ t' = t else l' <> l \/ t' <> t.
Proof. unfold here. destruct (Nat.eqb_spec l' l); destruct (Nat.eqb_spec t' t); cbn [andb]; auto. Qed.
Lemma here_refl l t : here l t l t = true. Proof. unfold here. now rewrite !Nat.eqb_refl. Qed.
Lemma type_eqb_spec a b : Bool.reflect (a = b) (type_eqb a b).
Proof. destruct a, b; constructor; congruence. Qed.
Ltac here_at := rewrite ?upd2, ?here_refl.

(** ** traces *)
Lemma life_app l t a : forall v b, life l t v (a ++ b) = match life l t v a with Some w => life l t w b | None => None end.
Proof. induction a as [|e a IH]; intros v b; [easy|]. cbn [app life]. destruct (mine l t e); [destruct (advance v e); [apply IH|easy]|apply IH]. Qed.
Lemma waiting_app l t i a : forall v b, waiting l t i v (a ++ b) = match waiting l t i v a with Some w => waiting l t i w b | None => None end.
Proof. induction a as [|e a IH]; intros v b; [easy|]. cbn [app waiting]. destruct (mine l t e); [destruct (passes i v e); [apply IH|easy]|apply IH]. Qed.
Lemma opens_app a b : opens (a ++ b) = opens a ++ opens b.
Proof. unfold opens. apply flat_map_app. Qed.
Lemma life_other l t v es : Forall (fun e => mine l t e = false) es -> life l t v es = Some v.
Proof. induction 1 as [|e es A F IH]; [easy|]. cbn [life]. now rewrite A. Qed.
Lemma waiting_other l t i v es : Forall (fun e => mine l t e = false) es -> waiting l t i v es = Some v.
Proof. induction 1 as [|e es A F IH]; [easy|]. cbn [waiting]. now rewrite A. Qed.
Definition of_slot (l t : nat) (e : eff) : Prop := slot_of e = Some (l, t).
Lemma not_mine l t l' t' es : Forall (of_slot l t) es -> here l t l' t' = false -> Forall (fun e => mine l' t' e = false) es.
Proof.
  intros F H. apply Forall_impl with (2 := F). intros e E. unfold mine. rewrite E. unfold here in H. rewrite Nat.eqb_sym, (Nat.eqb_sym t). exact H.
Qed.

(** ** queues *)
Definition keys (q : queues) : list nat := map fst q.
Lemma has_in i q : has i q = true <-> In i (keys q).
Proof. unfold has, keys. rewrite existsb_exists, in_map_iff. split; intros (p & A & B). - exists p. apply Nat.eqb_eq in B. auto. - exists p. subst. split; [easy|apply Nat.eqb_refl]. Qed.
Lemma queue_absent i q : ~ In i (keys q) -> queue i q = [].
Proof. induction q as [|[j ms] r IH]; [easy|]. cbn. intros N. destruct (Nat.eqb_spec j i); [tauto|]. apply IH. tauto. Qed.
Lemma queue_in i q m ms : NoDup (keys q) -> In (i, m :: ms) q -> queue i q = m :: ms.
Proof.
  induction q as [|[j x] r IH]; [easy|]. cbn. intros N [E|E].
  - injection E as -> ->. now rewrite Nat.eqb_refl.
  - inversion N as [|? ? N1 N2]; subst. destruct (Nat.eqb_spec j i) as [->|]; [|auto]. exfalso. apply N1. apply in_map_iff. now exists (i, m :: ms).
Qed.
Lemma take_spec q : forall i m q', NoDup (keys q) -> take q = Some (i, m, q') -> keys q' = keys q /\ queue i q = m :: queue i q' /\ forall j, j <> i -> queue j q' = queue j q.
Proof.
  induction q as [|[j ms] r IH]; intros i m q' N H; [discriminate|]. cbn [take] in H. inversion N as [|? ? N1 N2]; subst. destruct ms as [|x ms].
  - destruct (take r) as [[[a b] r']|]; [|discriminate]. injection H as -> -> <-. destruct (IH _ _ _ N2 eq_refl) as (A & B & C). cbn [keys map fst queue] in *. split; [unfold keys in *; cbn; now rewrite A|].
    assert (NE : j <> i). { intros ->. apply N1. destruct (in_dec Nat.eq_dec i (keys r)) as [I|I]; [exact I|]. rewrite (queue_absent i r I) in B. discriminate. }
    apply Nat.eqb_neq in NE. rewrite NE. split; [exact B|]. intros k K. destruct (Nat.eqb j k); [easy|]. now apply C.
  - injection H as <- <- <-. cbn [keys map fst queue]. rewrite Nat.eqb_refl. split; [easy|]. split; [easy|]. intros k K. destruct (Nat.eqb_spec j k); congruence.
Qed.
Lemma take_none q : NoDup (keys q) -> take q = None -> forall i, queue i q = [].
Proof.
  induction q as [|[j ms] r IH]; intros N H i; [easy|]. cbn [take] in H. inversion N as [|? ? N1 N2]; subst. destruct ms; [|discriminate]. destruct (take r) as [[[a b] r']|]; [discriminate|]. cbn [queue]. destruct (Nat.eqb j i); auto.
Qed.
Lemma append_keys i m q : keys (append i m q) = keys q.
Proof. unfold keys. induction q as [|[j ms] r IH]; [easy|]. cbn [append]. destruct (Nat.eqb j i); cbn [map fst]; [easy|]. now rewrite IH. Qed.
Lemma append_queue i m q j : queue j (append i m q) = if Nat.eqb j i && has i q then queue j q ++ [m] else queue j q.
Proof.
  induction q as [|[k ms] r IH]; [cbn; now rewrite andb_false_r|]. cbn [append queue has existsb fst]. destruct (Nat.eqb_spec k i) as [->|NE]; cbn [queue orb].
  - rewrite andb_true_r. rewrite (Nat.eqb_sym j i). destruct (Nat.eqb i j); easy.
  - destruct (Nat.eqb_spec k j) as [->|NE2].
    + apply Nat.eqb_neq in NE. now rewrite NE.
    + apply IH.
Qed.
Lemma filter_queue i q j : queue j (filter (fun p => negb (Nat.eqb (fst p) i)) q) = if Nat.eqb j i then [] else queue j q.
Proof.
  induction q as [|[k ms] r IH]; [cbn; now destruct (Nat.eqb j i)|]. cbn [filter fst]. destruct (Nat.eqb_spec k i) as [->|NE]; cbn [negb].
  - rewrite IH. cbn [queue]. destruct (Nat.eqb_spec j i); [easy|]. destruct (Nat.eqb_spec i j); congruence.
  - cbn [queue]. rewrite IH. destruct (Nat.eqb_spec k j) as [->|]; [|easy]. apply Nat.eqb_neq in NE. now rewrite NE.
Qed.
Lemma filter_keys i q : NoDup (keys q) -> NoDup (keys (filter (fun p => negb (Nat.eqb (fst p) i)) q)).
Proof.
  induction q as [|[k ms] r IH]; intros N; [easy|]. inversion N as [|? ? N1 N2]; subst. cbn [filter fst]. destruct (negb _); [|auto]. cbn [keys map fst]. constructor; [|now apply IH].
  intros I. apply N1. unfold keys in *. apply in_map_iff in I as (p & E & I). apply filter_In in I as [I _]. apply in_map_iff. now exists p.
Qed.
Lemma snoc_queue i q j : queue j (q ++ [(i, [])]) = queue j q.
Proof. induction q as [|[k ms] r IH]; [cbn; now destruct (Nat.eqb i j)|]. cbn [app queue]. now rewrite IH. Qed.

(** ** one timeslot *)
Definition fd_of (f : fdv) : option nat := match f with Open f | Zero f => Some f | _ => None end.
Definition held (f : fdv) : Prop := exists n, f = Open n.
Record Shape (x : ets) : Prop := {
  sh_zero : forall f, e_fd x <> Zero f;
  sh_reg : e_reg x = true -> held (e_fd x);
  sh_lapd : e_lapd x = true -> held (e_fd x);
  sh_keys : NoDup (keys (e_q x));
  sh_q : match e_type x with TS_SIGN => True | TS_RAW | TS_HDLC => exists ms, e_q x = [(0%nat, ms)] | _ => e_q x = [] end;
  sh_tmr : e_tmr x = true -> e_type x = TS_SIGN /\ e_q x <> []
}.
(** only timeslot (l, t) changes; [C]: channels opened *)
Record Loc (C : nat -> Prop) (l t : nat) (s s' : st) (es : list eff) : Prop := {
  lo_out : out s' = out s ++ es;
  lo_slot : Forall (of_slot l t) es;
  lo_oth : forall l' t', here l t l' t' = false -> tsl s' l' t' = tsl s l' t';
  lo_tick : (tick s <= tick s')%nat;
  lo_cfg : spans s' = spans s /\ port s' = port s /\ exist s' = exist s;
  lo_life : life l t (fd_of (e_fd (tsl s l t)), e_reg (tsl s l t)) es = Some (fd_of (e_fd (tsl s' l t)), e_reg (tsl s' l t));
  lo_wait : forall i, waiting l t i (queue i (e_q (tsl s l t))) es = Some (queue i (e_q (tsl s' l t)));
  lo_shape : Shape (tsl s' l t);
  lo_open : Forall (fun f => (tick s <= f < tick s')%nat) (opens es) /\ NoDup (opens es);
  lo_chan : forall c f, In (DOpen l t c f) es -> C c
}.
Lemma nodup_app {A} (a b : list A) : NoDup a -> NoDup b -> (forall x, In x a -> ~ In x b) -> NoDup (a ++ b).
Proof. induction 1 as [|x a N D IH]; intros B H; [easy|]. cbn [app]. constructor; [rewrite in_app_iff; intros [I|I]; [easy|]; apply (H x); [now left|easy]|]. apply IH; [easy|]. intros y I. apply H. now right. Qed.
Lemma loc_trans C l t a b c e1 e2 : Loc C l t a b e1 -> Loc C l t b c e2 -> Loc C l t a c (e1 ++ e2).
Proof.
  intros L M. constructor.
  - rewrite (lo_out _ _ _ _ _ _ M), (lo_out _ _ _ _ _ _ L), app_assoc. easy.
  - apply Forall_app. split; [apply L|apply M].
  - intros l' t' H. now rewrite (lo_oth _ _ _ _ _ _ M), (lo_oth _ _ _ _ _ _ L).
  - pose proof (lo_tick _ _ _ _ _ _ L). pose proof (lo_tick _ _ _ _ _ _ M). lia.
  - destruct (lo_cfg _ _ _ _ _ _ L) as (A & B & D). destruct (lo_cfg _ _ _ _ _ _ M) as (A' & B' & D'). repeat split; congruence.
  - rewrite life_app, (lo_life _ _ _ _ _ _ L). apply M.
  - intros i. rewrite waiting_app, (lo_wait _ _ _ _ _ _ L). apply M.
  - apply M.
  - rewrite opens_app. destruct (lo_open _ _ _ _ _ _ L) as [A B]. destruct (lo_open _ _ _ _ _ _ M) as [A' B']. pose proof (lo_tick _ _ _ _ _ _ L). pose proof (lo_tick _ _ _ _ _ _ M). split.
    + apply Forall_app. split; [eapply Forall_impl; [|exact A]|eapply Forall_impl; [|exact A']]; cbn; intros; lia.
    + apply nodup_app; [easy..|]. intros x I J. rewrite Forall_forall in A, A'. specialize (A _ I). specialize (A' _ J). lia.
  - intros ch f I. apply in_app_iff in I as [I|I]; [eapply (lo_chan _ _ _ _ _ _ L)|eapply (lo_chan _ _ _ _ _ _ M)]; eauto.
Qed.
Lemma loc_weaken (C D : nat -> Prop) l t s s' es : (forall c, C c -> D c) -> Loc C l t s s' es -> Loc D l t s s' es.
Proof. intros H L. destruct L. constructor; auto. intros. eapply H, lo_chan0; eauto. Qed.
Definition nochan : nat -> Prop := fun _ => False.
Lemma loc_nochan C l t s s' es : Loc nochan l t s s' es -> Loc C l t s s' es.
Proof. apply loc_weaken. easy. Qed.
(** an operation given by its result *)
Lemma loc_by l t s s' x es : Shape x -> (forall l' t', tsl s' l' t' = if here l t l' t' then x else tsl s l' t') -> out s' = out s ++ es -> (tick s <= tick s')%nat ->
  spans s' = spans s -> port s' = port s -> exist s' = exist s -> Forall (of_slot l t) es -> opens es = [] ->
  life l t (fd_of (e_fd (tsl s l t)), e_reg (tsl s l t)) es = Some (fd_of (e_fd x), e_reg x) -> (forall i, waiting l t i (queue i (e_q (tsl s l t))) es = Some (queue i (e_q x))) -> Loc nochan l t s s' es.
Proof.
  intros S T O K A B D F P L W. assert (E : tsl s' l t = x) by now rewrite T, here_refl. constructor; rewrite ?E; auto.
  - intros l' t' H. now rewrite T, H.
  - rewrite P. split; constructor.
  - intros c f I. exfalso. assert (J : In f (opens es)) by (unfold opens; apply in_flat_map; exists (DOpen l t c f); split; [easy|now left]). now rewrite P in J.
Qed.
Lemma loc_refl l t s : Shape (tsl s l t) -> Loc nochan l t s s [].
Proof. intros S. apply (loc_by l t s s (tsl s l t)); auto; [|now rewrite app_nil_r]. intros l' t'. pose proof (here_spec l t l' t') as H. destruct (here l t l' t'); [destruct H as [-> ->]|]; easy. Qed.
Lemma loc_set l t s x : Shape x -> e_fd x = e_fd (tsl s l t) -> e_reg x = e_reg (tsl s l t) -> e_q x = e_q (tsl s l t) -> Loc nochan l t s (set_ts s l t x) [].
Proof.
  intros S A B D. apply (loc_by l t s _ x); auto.
  - intros. esg. apply upd2.
  - esg. now rewrite app_nil_r.
  - now rewrite A, B.
  - intros i. now rewrite D.
Qed.
Lemma loc_next l t s : Shape (tsl s l t) -> Loc nochan l t s (next s) [].
Proof. intros S. apply (loc_by l t s _ (tsl s l t)); auto; [|esg; now rewrite app_nil_r|esg; lia]. intros l' t'. esg. pose proof (here_spec l t l' t') as H. destruct (here l t l' t'); [destruct H as [-> ->]|]; easy. Qed.
(** effects that concern neither descriptor nor queues *)
Definition idle (e : eff) : bool := match e with DMuxOut _ _ _ | DRx _ _ _ | DLapdRx _ _ _ | DSig _ _ _ | DCtr _ _ _ | DStray _ _ None _ | DDrop _ _ None _ => true | _ => false end.
Lemma mine_own l t e : of_slot l t e -> mine l t e = true.
Proof. intros E. unfold mine. now rewrite E, !Nat.eqb_refl. Qed.
Lemma loc_emit l t s e : Shape (tsl s l t) -> idle e = true -> of_slot l t e -> Loc nochan l t s (emit s e) [e].
Proof.
  intros S I O. apply (loc_by l t s _ (tsl s l t)); auto.
  - intros l' t'. esg. pose proof (here_spec l t l' t') as H. destruct (here l t l' t'); [destruct H as [-> ->]|]; easy.
  - destruct e; cbn in I; try easy.
  - cbn [life]. rewrite (mine_own _ _ _ O). destruct e; cbn in I; try easy.
  - intros i. cbn [waiting]. rewrite (mine_own _ _ _ O). destruct e as [| | | | | | | |? ? [] ?|? ? [] ?| | | | | | | | | | | |]; cbn in I; easy.
Qed.

(** ** updating *)
Definition sameT (x x' : ets) : Prop := e_type x' = e_type x /\ e_q x' = e_q x /\ e_tmr x' = e_tmr x.
Lemma shape_fd x f r : Shape x -> held f -> Shape (w_fd x f r).
Proof. intros S [n ->]. destruct S. constructor; esg; auto; try (intros; now exists n). congruence. Qed.
Lemma shape_wr x w : Shape x -> Shape (w_wr x w).
Proof. intros S. destruct S. constructor; esg; auto. Qed.
Lemma shape_nolapd x : Shape x -> Shape (w_lapd x false).
Proof. intros S. destruct S. constructor; esg; auto. discriminate. Qed.
Lemma shape_lapd x : Shape x -> held (e_fd x) -> Shape (w_lapd x true).
Proof. intros S H. destruct S. constructor; esg; auto. Qed.
Lemma unreg_loc s l t : Shape (tsl s l t) -> let s' := unreg_ts s l t in
  exists es, Loc nochan l t s s' es /\ tsl s' l t = w_fd (tsl s l t) (e_fd (tsl s l t)) false /\ (forall m f, ~ In (DMode l t m f) es).
Proof.
  intros S. cbv zeta. unfold unreg_ts. cbv zeta.
  assert (E : forall r, e_reg (tsl s l t) = r -> w_fd (tsl s l t) (e_fd (tsl s l t)) r = tsl s l t) by (intros r <-; destruct (tsl s l t); reflexivity).
  destruct (e_fd (tsl s l t)) as [| |f|f] eqn:F.
  - exists []. split; [now apply loc_refl|]. split; [|easy]. rewrite E; [easy|]. destruct (e_reg (tsl s l t)) eqn:G; [|easy]. destruct (sh_reg _ S G) as [n X]. congruence.
  - exists []. split; [now apply loc_refl|]. split; [|easy]. rewrite E; [easy|]. destruct (e_reg (tsl s l t)) eqn:G; [|easy]. destruct (sh_reg _ S G) as [n X]. congruence.
  - destruct (e_reg (tsl s l t)) eqn:G.
    + exists [DUnreg l t f]. split; [|split; [esg; now here_at|intros ? ? [X|[]]; discriminate]]. apply (loc_by l t s _ (w_fd (tsl s l t) (Open f) false)); try easy.
      * apply shape_fd; [easy|now exists f].
      * intros. esg. apply upd2.
      * repeat constructor.
      * cbn [life]. rewrite mine_own by reflexivity. cbn [advance fst snd]. esg. rewrite F, G. cbn [fd_of]. now rewrite Nat.eqb_refl.
      * intros i. cbn [waiting]. rewrite mine_own by reflexivity. reflexivity.
    + exists []. split; [now apply loc_refl|]. split; [|easy]. now rewrite E.
  - exfalso. now apply (sh_zero _ S f).
Qed.
Lemma none_loc s l t : Shape (tsl s l t) -> e_reg (tsl s l t) = false -> let s' := none_ts s l t in
  exists es, Loc nochan l t s s' es /\ tsl s' l t = w_fd (w_lapd (tsl s l t) false) Closed false.
Proof.
  intros S G. cbv zeta. unfold none_ts. cbv zeta. pose proof (shape_nolapd _ S) as S1. set (x := w_lapd (tsl s l t) false) in *.
  assert (S2 : Shape (w_fd x Closed false)). { destruct S1. constructor; esg; auto; try discriminate. }
  assert (EF : e_fd x = e_fd (tsl s l t)) by reflexivity. assert (EQ : e_q x = e_q (tsl s l t)) by reflexivity. assert (ER : e_reg x = false) by exact G. clearbody x. rewrite EF, ER.
  destruct (e_fd (tsl s l t)) as [| |f|f] eqn:F.
  - assert (X : w_fd x Closed false = x) by (destruct x; es; congruence). exists []. rewrite X. split; [|esg; now here_at]. apply loc_set; congruence.
  - exists []. split; [|esg; now here_at]. apply (loc_by l t s _ (w_fd x Closed false)); try easy.
    + intros. esg. apply upd2.
    + esg. now rewrite app_nil_r.
    + esg. now rewrite F, G.
    + intros i. esg. now rewrite EQ.
  - exists [DClose l t f]. split; [|esg; now here_at]. apply (loc_by l t s _ (w_fd x Closed false)); try easy.
    + intros. esg. apply upd2.
    + repeat constructor.
    + cbn [life]. rewrite mine_own by reflexivity. cbn [advance fst snd]. esg. rewrite F, G. cbn [fd_of]. now rewrite Nat.eqb_refl.
    + intros i. cbn [waiting]. rewrite mine_own by reflexivity. cbn [passes]. esg. now rewrite EQ.
  - exfalso. now apply (sh_zero _ S f).
Qed.
Definition opened_now (k : kern) (s : st) (l t c : nat) (es : list eff) (f : fdv) : Prop :=
  match e_fd (tsl s l t) with
  | Closed => match k_open k (tick s) with OpFail => f = Failed /\ es = [] | _ => f = Open (tick s) /\ es = [DOpen l t c (tick s)] end
  | old => f = old /\ es = []
  end.
Lemma open_loc k s l t c : no_zero k -> Shape (tsl s l t) -> e_reg (tsl s l t) = false -> (e_lapd (tsl s l t) = true -> held (e_fd (tsl s l t))) -> let s' := open_ts k s l t c in
  exists es, Loc (eq c) l t s s' es /\ tsl s' l t = w_fd (tsl s l t) (e_fd (tsl s' l t)) false /\ opened_now k s l t c es (e_fd (tsl s' l t)).
Proof.
  intros NZ S G LA. cbv zeta. unfold open_ts, opened_now. cbv zeta.
  assert (E : w_fd (tsl s l t) (e_fd (tsl s l t)) false = tsl s l t) by (destruct (tsl s l t); es; congruence).
  destruct (e_fd (tsl s l t)) as [| |f|f] eqn:F.
  - assert (NL : e_lapd (tsl s l t) = false) by (destruct (e_lapd (tsl s l t)); [destruct (LA eq_refl) as [n X]; discriminate|easy]).
    destruct (k_open k (tick s)) eqn:KO.
    + exists []. split; [|split; [esg; here_at; esg; now rewrite G|split; [esg; now here_at|easy]]]. apply loc_nochan, (loc_by l t s _ (w_fd (tsl s l t) Failed false)); try easy.
      * destruct S. constructor; esg; auto; try discriminate. congruence.
      * intros. esg. rewrite upd2. now rewrite G.
      * esg. now rewrite app_nil_r.
      * esg. lia.
      * esg. now rewrite F, G.
    + exfalso. now apply (NZ (tick s)).
    + exists [DOpen l t c (tick s)]. assert (X : tsl (emit (next (set_ts s l t (w_fd (tsl s l t) (Open (tick s)) (e_reg (tsl s l t))))) (DOpen l t c (tick s))) l t = w_fd (tsl s l t) (Open (tick s)) false) by (esg; here_at; now rewrite G).
      split; [|rewrite X; esg; auto]. constructor; rewrite ?X; try easy.
      * repeat constructor.
      * intros l' t' H. esg. now rewrite upd2, H.
      * esg. lia.
      * cbn [life]. rewrite mine_own by reflexivity. cbn [advance fst snd]. esg. rewrite F. reflexivity.
      * intros i. cbn [waiting]. rewrite mine_own by reflexivity. reflexivity.
      * apply shape_fd; [easy|now exists (tick s)].
      * cbn. split; [constructor; [lia|constructor]|constructor; [easy|constructor]].
      * intros c' f [H|[]]. congruence.
  - exists []. split; [apply loc_nochan; now apply loc_refl|]. rewrite F, E. auto.
  - exists []. split; [apply loc_nochan; now apply loc_refl|]. rewrite F, E. auto.
  - exfalso. now apply (sh_zero _ S f).
Qed.
(** [Some f]: set up with descriptor [f] *)
Definition ready_as (x x' : ets) (f : nat) : Prop := e_fd x' = Open f /\ e_reg x' = true /\ e_wr x' = false /\ e_lapd x' = (type_eqb (e_type x) TS_SIGN || e_lapd x).
Lemma ready_loc k s l t f : Shape (tsl s l t) -> e_reg (tsl s l t) = false -> e_fd (tsl s l t) = Open f -> let (s', o) := ready_ts k s l t f in
  exists es, Loc nochan l t s s' es /\ sameT (tsl s l t) (tsl s' l t) /\ opens es = [] /\
    (o = None /\ ready_as (tsl s l t) (tsl s' l t) f /\ In (DMode l t f (sigchan (e_type (tsl s l t)))) es \/
     e_reg (tsl s' l t) = false /\ e_fd (tsl s' l t) = Open f /\ (o = Some (-5) /\ (exists n, (tick s <= n)%nat /\ k_buf k n = false) \/ o = Some (-1) /\ exists n, (tick s <= n)%nat /\ k_reg k n = false)).
Proof.
  intros S G F. unfold ready_ts. cbv zeta. set (ty := e_type (tsl s l t)). 
  set (s1 := if sigchan ty then _ else s).
  assert (L1 : Loc nochan l t s s1 [] /\ tick s1 = tick s /\ sameT (tsl s l t) (tsl s1 l t) /\ e_fd (tsl s1 l t) = Open f /\ e_reg (tsl s1 l t) = false /\ e_lapd (tsl s1 l t) = e_lapd (tsl s l t)).
  { subst s1. destruct (sigchan ty); [|split; [now apply loc_refl|]; unfold sameT; auto 10]. split; [apply loc_set; auto; now apply shape_wr|]. esg. unfold sameT. here_at. esg. auto 10. }
  destruct L1 as (L1 & K1 & T1 & F1 & G1 & P1). clearbody s1. destruct (k_buf k (tick s1)) eqn:KB; cbn [negb].
  2: { exists []. split; [apply (loc_trans _ _ _ _ _ _ [] [] L1), loc_next, L1|]. cbn [tsl next]. split; [easy|]. split; [easy|]. right. split; [easy|]. split; [easy|]. left. split; [easy|]. exists (tick s1). split; [lia|easy]. }
  set (s2 := emit (next s1) _).
  assert (L2 : Loc nochan l t s1 s2 [DMode l t f (sigchan ty)]).
  { apply (loc_by l t s1 _ (tsl s1 l t)); try (subst s2; esg; (easy || lia)); [apply L1|..].
    - intros l' t'. subst s2. esg. pose proof (here_spec l t l' t') as H. destruct (here l t l' t'); [destruct H as [-> ->]|]; easy.
    - repeat constructor.
    - cbn [life]. rewrite mine_own by reflexivity. cbn [advance fst snd]. rewrite F1, G1. cbn [fd_of]. now rewrite Nat.eqb_refl.
    - intros i. cbn [waiting]. now rewrite mine_own by reflexivity. }
  assert (K2 : tick s2 = Datatypes.S (tick s1)) by reflexivity. assert (E2 : tsl s2 l t = tsl s1 l t) by reflexivity. clearbody s2. rewrite E2.
  set (s3 := set_ts s2 l t _). assert (S1 : Shape (tsl s1 l t)) by apply L1.
  assert (E3 : tsl s3 l t = w_wr (tsl s1 l t) false) by (subst s3; esg; now here_at).
  assert (L3 : Loc nochan l t s2 s3 []) by (subst s3; apply loc_set; rewrite ?E2; auto; now apply shape_wr).
  assert (K3 : tick s3 = tick s2) by reflexivity. clearbody s3.
  set (s4 := if type_eqb ty TS_SIGN then _ else s3).
  assert (L4 : Loc nochan l t s3 s4 [] /\ tick s4 = tick s3 /\ tsl s4 l t = w_lapd (tsl s3 l t) (type_eqb ty TS_SIGN || e_lapd (tsl s l t))).
  { subst s4. assert (S3 : Shape (tsl s3 l t)) by apply L3. destruct (type_eqb ty TS_SIGN).
    - split; [apply loc_set; auto; apply shape_lapd; auto; rewrite E3; exists f; exact F1|]. split; [easy|]. esg. now here_at.
    - split; [now apply loc_refl|]. split; [easy|]. cbn [orb]. rewrite E3. rewrite <- P1. destruct (tsl s1 l t); reflexivity. }
  destruct L4 as (L4 & K4 & E4). clearbody s4.
  assert (LL : Loc nochan l t s s4 [DMode l t f (sigchan ty)]).
  { pose proof (loc_trans _ _ _ _ _ _ _ _ L1 L2) as A. pose proof (loc_trans _ _ _ _ _ _ _ _ L3 L4) as B. pose proof (loc_trans _ _ _ _ _ _ _ _ A B) as D. exact D. }
  assert (T4 : sameT (tsl s l t) (tsl s4 l t)) by (rewrite E4, E3; unfold sameT in *; esg; tauto).
  assert (F4 : e_fd (tsl s4 l t) = Open f) by (rewrite E4, E3; now esg). assert (G4 : e_reg (tsl s4 l t) = false) by (rewrite E4, E3; now esg).
  assert (W4 : e_wr (tsl s4 l t) = false) by (rewrite E4, E3; now esg). assert (P4 : e_lapd (tsl s4 l t) = type_eqb ty TS_SIGN || e_lapd (tsl s l t)) by (rewrite E4; now esg).
  destruct (k_reg k (tick s4)) eqn:KR.
  - set (s5 := emit _ _). assert (L5 : Loc nochan l t s4 s5 [DReg l t f]).
    { apply (loc_by l t s4 _ (w_fd (tsl s4 l t) (e_fd (tsl s4 l t)) true)); try (subst s5; esg; (easy || lia)).
      - rewrite F4. apply shape_fd; [apply L4|now exists f].
      - intros. subst s5. esg. apply upd2.
      - repeat constructor.
      - cbn [life]. rewrite mine_own by reflexivity. cbn [advance fst snd]. esg. rewrite F4, G4. cbn [fd_of]. now rewrite Nat.eqb_refl.
      - intros i. cbn [waiting]. now rewrite mine_own by reflexivity. }
    assert (E5 : tsl s5 l t = w_fd (tsl s4 l t) (e_fd (tsl s4 l t)) true) by (subst s5; esg; now here_at). clearbody s5.
    exists [DMode l t f (sigchan ty); DReg l t f]. split; [exact (loc_trans _ _ _ _ _ _ _ _ LL L5)|]. rewrite E5. split; [unfold sameT in *; esg; exact T4|]. split; [easy|]. left. split; [easy|]. split; [|now left].
    unfold ready_as. esg. auto.
  - exists [DMode l t f (sigchan ty)]. split; [pose proof (loc_trans _ _ _ _ _ _ _ _ LL (loc_next l t s4 (lo_shape _ _ _ _ _ _ L4))) as A; exact A|]. cbn [tsl next]. split; [easy|]. split; [easy|]. right. split; [easy|]. split; [easy|]. right. split; [easy|]. exists (tick s4). split; [lia|easy].
Qed.
Definition trouble (k : kern) (x : ets) (n0 : nat) : Prop := e_fd x = Failed \/ exists n, (n0 <= n)%nat /\ (k_open k n = OpFail \/ k_buf k n = false \/ k_reg k n = false).
Definition went_up (x x' : ets) (l t c n0 : nat) (es : list eff) : Prop :=
  exists f, e_fd x' = Open f /\ e_reg x' = true /\ e_wr x' = false /\ e_lapd x' = (type_eqb (e_type x) TS_SIGN || type_eqb (e_type x) TS_HDLC && e_lapd x) /\
    In (DMode l t f (sigchan (e_type x))) es /\ (e_fd x = Open f \/ e_fd x = Closed /\ In (DOpen l t c f) es /\ (n0 <= f)%nat).
Definition went_down (x' : ets) : Prop := e_fd x' = Closed /\ e_reg x' = false /\ e_lapd x' = false.
Definition turned (k : kern) (x x' : ets) (l t c n0 : nat) (es : list eff) (o : option Z) : Prop :=
  match e_type x with
  | TS_NONE => o = None /\ went_down x'
  | _ => o = None /\ went_up x x' l t c n0 es \/ (exists rc, o = Some rc /\ rc < 0) /\ e_reg x' = false /\ trouble k x n0
  end.
Lemma update_ts_loc k s l t c : no_zero k -> Shape (tsl s l t) -> let (s', o) := update_ts k s l t c in
  exists es, Loc (eq c) l t s s' es /\ sameT (tsl s l t) (tsl s' l t) /\ turned k (tsl s l t) (tsl s' l t) l t c (tick s) es o.
Proof.
  intros NZ S. unfold update_ts, turned. cbv zeta. destruct (unreg_loc s l t S) as (e1 & L1 & E1 & _). cbv zeta in *. set (s1 := unreg_ts s l t) in *. clearbody s1.
  assert (TY : e_type (tsl s1 l t) = e_type (tsl s l t)) by (rewrite E1; now esg). assert (G1 : e_reg (tsl s1 l t) = false) by (rewrite E1; now esg). assert (S1 : Shape (tsl s1 l t)) by apply L1.
  assert (T1 : sameT (tsl s l t) (tsl s1 l t)) by (rewrite E1; unfold sameT; now esg). pose proof (lo_tick _ _ _ _ _ _ L1) as K1.
  rewrite TY. destruct (type_eqb_spec (e_type (tsl s l t)) TS_NONE) as [TN|TN].
  { destruct (none_loc s1 l t S1 G1) as (e2 & L2 & E2). cbv zeta in *. exists (e1 ++ e2). split; [apply loc_nochan; eapply loc_trans; eauto|]. rewrite E2. split; [unfold sameT in *; esg; exact T1|]. rewrite TN. split; [easy|]. unfold went_down. now esg. }
  set (s2 := if sigchan _ then s1 else _).
  assert (L2 : Loc nochan l t s1 s2 [] /\ tick s2 = tick s1 /\ tsl s2 l t = w_lapd (tsl s1 l t) (sigchan (e_type (tsl s l t)) && e_lapd (tsl s1 l t))).
  { subst s2. destruct (sigchan _); cbn [andb].
    - split; [now apply loc_refl|]. split; [easy|]. destruct (tsl s1 l t); reflexivity.
    - split; [apply loc_set; auto; now apply shape_nolapd|]. split; [easy|]. esg. now here_at. }
  destruct L2 as (L2 & K2 & E2). clearbody s2. assert (S2 : Shape (tsl s2 l t)) by apply L2. assert (G2 : e_reg (tsl s2 l t) = false) by (rewrite E2; now esg).
  destruct (open_loc k s2 l t c NZ S2 G2 (sh_lapd _ S2)) as (e3 & L3 & E3 & O3). cbv zeta in *. set (s3 := open_ts k s2 l t c) in *. clearbody s3.
  assert (LL : Loc (eq c) l t s s3 (e1 ++ e3)). { eapply loc_trans; [apply loc_nochan; exact L1|]. eapply (loc_trans _ _ _ _ _ _ []); [apply loc_nochan; exact L2|exact L3]. }
  assert (T3 : sameT (tsl s l t) (tsl s3 l t)) by (rewrite E3, E2; unfold sameT in *; esg; exact T1). pose proof (lo_tick _ _ _ _ _ _ L3) as K3.
  assert (G3 : e_reg (tsl s3 l t) = false) by (rewrite E3; now esg). assert (P3 : e_lapd (tsl s3 l t) = sigchan (e_type (tsl s l t)) && e_lapd (tsl s l t)) by (rewrite E3, E2, E1; now esg).
  assert (F2 : e_fd (tsl s2 l t) = e_fd (tsl s l t)) by (rewrite E2, E1; now esg). unfold opened_now in O3. rewrite F2 in O3.
  assert (UP : forall f, e_fd (tsl s3 l t) = Open f -> (e_fd (tsl s l t) = Open f \/ e_fd (tsl s l t) = Closed /\ In (DOpen l t c f) e3 /\ (tick s <= f)%nat) ->
    let (s', o) := ready_ts k s3 l t f in exists es, Loc (eq c) l t s s' es /\ sameT (tsl s l t) (tsl s' l t) /\
      (o = None /\ went_up (tsl s l t) (tsl s' l t) l t c (tick s) es \/ (exists rc, o = Some rc /\ rc < 0) /\ e_reg (tsl s' l t) = false /\ trouble k (tsl s l t) (tick s))).
  { intros f F3 OR. pose proof (ready_loc k s3 l t f (lo_shape _ _ _ _ _ _ L3) G3 F3) as R. destruct (ready_ts k s3 l t f) as [s4 o]. destruct R as (e4 & L4 & T4 & _ & R).
    exists ((e1 ++ e3) ++ e4). split; [eapply loc_trans; [exact LL|now apply loc_nochan]|]. split; [unfold sameT in *; intuition congruence|].
    assert (TYY : e_type (tsl s3 l t) = e_type (tsl s l t)) by apply T3. rewrite TYY in R.
    destruct R as [(-> & (R1 & R2 & R3 & R4) & R5)|(R1 & R2 & R3)].
    - left. split; [easy|]. exists f. split; [easy|]. split; [easy|]. split; [easy|]. split; [rewrite R4, TYY, P3; destruct (e_type (tsl s l t)); reflexivity|]. split; [apply in_app_iff; now right|].
      destruct OR as [OR|(O1 & O2 & O4)]; [now left|]. right. split; [easy|]. split; [|easy]. apply in_app_iff. left. apply in_app_iff. now right.
    - right. destruct R3 as [(-> & n & N1 & N2)|(-> & n & N1 & N2)]; (split; [eexists; split; [reflexivity|lia]|]; split; [easy|]; right; exists n; split; [lia|]; tauto). }
  assert (X : let (s', o) := match e_fd (tsl s3 l t) with Open f | Zero f => ready_ts k s3 l t f | _ => (s3, Some (-5)) end in exists es, Loc (eq c) l t s s' es /\ sameT (tsl s l t) (tsl s' l t) /\
      (o = None /\ went_up (tsl s l t) (tsl s' l t) l t c (tick s) es \/ (exists rc, o = Some rc /\ rc < 0) /\ e_reg (tsl s' l t) = false /\ trouble k (tsl s l t) (tick s))).
  { destruct (e_fd (tsl s l t)) as [| |f|f] eqn:F.
    - destruct (k_open k (tick s2)) eqn:KO; [|exfalso; now apply (NZ (tick s2))|].
      + destruct O3 as [O3 _]. rewrite O3. exists (e1 ++ e3). split; [easy|]. split; [easy|]. right. split; [exists (-5); split; [easy|lia]|]. split; [easy|]. right. exists (tick s2). split; [lia|]. now left.
      + destruct O3 as [O3 O4]. rewrite O3. apply UP; [easy|]. right. split; [easy|]. split; [rewrite O4; now left|lia].
    - destruct O3 as [O3 _]. rewrite O3. exists (e1 ++ e3). split; [easy|]. split; [easy|]. right. split; [exists (-5); split; [easy|lia]|]. split; [easy|]. now left.
    - destruct O3 as [O3 _]. rewrite O3. apply UP; [easy|]. now left.
    - exfalso. now apply (sh_zero _ S f). }
  destruct (match e_fd (tsl s3 l t) with Open f | Zero f => _ | _ => _ end) as [s4 o]. destruct X as (e4 & X1 & X2 & X3). exists e4. split; [easy|]. split; [easy|]. destruct (e_type (tsl s l t)); auto; congruence.
Qed.

(** ** all timeslots *)
Definition spans_of (k : kern) (n : nat) : report := fun i => k_span k n (S i).
Definition chan_ok (k : kern) (t c : nat) : Prop := exists n p, k_ctl k n = true /\ (S p < k_max k)%nat /\ channel (spans_of k n) p t c.
Definition J (l t : nat) (x : ets) (es : list eff) : Prop := life l t (None, false) es = Some (fd_of (e_fd x), e_reg x) /\ forall i, waiting l t i [] es = Some (queue i (e_q x)).
Record Inv (k : kern) (s : st) : Prop := {
  v_j : forall l t, J l t (tsl s l t) (out s);
  v_shape : forall l t, Shape (tsl s l t);
  v_def : forall l t, valid s l t = false -> tsl s l t = ets0;
  v_open : NoDup (opens (out s)) /\ Forall (fun f => (f < tick s)%nat) (opens (out s));
  v_spans : forall p b n, spans s p = Some (b, n) -> exists m, k_ctl k m = true /\ (S p < k_max k)%nat /\ spans_of k m p = Some n /\ b = (1 + total (spans_of k m) p)%nat;
  v_chan : forall l t c f, In (DOpen l t c f) (out s) -> valid s l t = true /\ chan_ok k t c
}.
Lemma inv_loc k C l t s s' es : Inv k s -> Loc C l t s s' es -> valid s l t = true -> (forall c, C c -> chan_ok k t c) -> Inv k s'.
Proof.
  intros I L V CC. destruct (lo_cfg _ _ _ _ _ _ L) as (A1 & A2 & A3). assert (VV : forall l' t', valid s' l' t' = valid s l' t') by (intros; unfold valid; now rewrite A3).
  constructor.
  - intros l' t'. destruct (v_j k s I l' t') as [J1 J2]. unfold J. rewrite (lo_out _ _ _ _ _ _ L). rewrite life_app, J1. pose proof (here_spec l t l' t') as H. destruct (here l t l' t') eqn:HH.
    + destruct H as [-> ->]. split; [apply L|]. intros i. rewrite waiting_app, J2. apply L.
    + rewrite (lo_oth _ _ _ _ _ _ L _ _ HH). pose proof (not_mine _ _ _ _ _ (lo_slot _ _ _ _ _ _ L) HH) as N. split; [now apply life_other|]. intros i. rewrite waiting_app, J2. now apply waiting_other.
  - intros l' t'. pose proof (here_spec l t l' t') as H. destruct (here l t l' t') eqn:HH; [destruct H as [-> ->]; apply L|]. rewrite (lo_oth _ _ _ _ _ _ L _ _ HH). apply I.
  - intros l' t' E. rewrite VV in E. pose proof (here_spec l t l' t') as H. destruct (here l t l' t') eqn:HH; [destruct H as [-> ->]; congruence|]. rewrite (lo_oth _ _ _ _ _ _ L _ _ HH). now apply I.
  - rewrite (lo_out _ _ _ _ _ _ L), opens_app. destruct (v_open k s I) as [O1 O2]. destruct (lo_open _ _ _ _ _ _ L) as [P1 P2]. pose proof (lo_tick _ _ _ _ _ _ L) as K. split.
    + apply nodup_app; [easy..|]. intros x X Y. rewrite Forall_forall in O2, P1. specialize (O2 _ X). specialize (P1 _ Y). lia.
    + apply Forall_app. split; [eapply Forall_impl; [|exact O2]|eapply Forall_impl; [|exact P1]]; cbn; intros; lia.
  - rewrite A1. apply I.
  - intros l' t' c f. rewrite (lo_out _ _ _ _ _ _ L), in_app_iff, VV. intros [X|X]; [now apply (v_chan k s I) in X|].
    pose proof (lo_slot _ _ _ _ _ _ L) as F. rewrite Forall_forall in F. specialize (F _ X). unfold of_slot in F. cbn in F. injection F as -> ->. split; [easy|]. apply CC. eapply (lo_chan _ _ _ _ _ _ L); eauto.
Qed.
Lemma inv_emit k s e : Inv k s -> slot_of e = None -> Inv k (emit s e).
Proof.
  intros I E. assert (N : forall l t, mine l t e = false) by (intros; unfold mine; now rewrite E). constructor.
  - intros l t. destruct (v_j k s I l t) as [J1 J2]. unfold J. esg. rewrite life_app, J1. cbn [life]. rewrite N. split; [easy|]. intros i. rewrite waiting_app, J2. cbn [waiting]. now rewrite N.
  - exact (v_shape k s I).
  - exact (v_def k s I).
  - esg. rewrite opens_app. replace (opens [e]) with (@nil nat) by (destruct e; cbn in E |- *; congruence). rewrite app_nil_r. apply I.
  - exact (v_spans k s I).
  - intros l t c f. esg. rewrite in_app_iff. intros [X|[X|[]]]; [now apply (v_chan k s I) in X|]. subst e. discriminate.
Qed.
Lemma inv_init k : Inv k st_init.
Proof.
  constructor; try easy.
  - intros l t. constructor; cbn; easy || constructor.
  - cbn. split; constructor.
Qed.
Lemma inv_next k s : Inv k s -> Inv k (next s).
Proof. intros I. constructor; try apply I. destruct (v_open k s I) as [A B]. split; [exact A|]. eapply Forall_impl; [|exact B]. cbn. intros. lia. Qed.

(** ** reading the spans *)
Lemma read_spans k m n : forall c0, let r := fold_left (read_span k m) (seq 0 n) (c0, 1%nat) in
  snd r = (1 + total (spans_of k m) n)%nat /\ (forall p, (n <= p)%nat -> fst r p = c0 p) /\ forall p, (p < n)%nat -> fst r p = match spans_of k m p with Some c => Some ((1 + total (spans_of k m) p)%nat, c) | None => None end.
Proof.
  induction n as [|n IH]; intros c0; cbv zeta; [cbn; repeat split; intros; lia|]. rewrite seq_S, fold_left_app. specialize (IH c0). cbv zeta in IH. destruct IH as (A & B & D). set (a := fold_left _ (seq 0 n) _) in *. clearbody a. cbn [plus fold_left].
  unfold read_span. change (k_span k m (S n)) with (spans_of k m n). cbn [total]. destruct (spans_of k m n) as [c|] eqn:E; cbn [fst snd]; unfold upd.
  - split; [lia|]. split.
    + intros p P. destruct (Nat.eqb_spec p n); [lia|]. apply B. lia.
    + intros p P. destruct (Nat.eqb_spec p n) as [->|]; [now rewrite E, A|]. apply D. lia.
  - split; [lia|]. split.
    + intros p P. destruct (Nat.eqb_spec p n); [lia|]. apply B. lia.
    + intros p P. destruct (Nat.eqb_spec p n) as [->|]; [now rewrite E|]. apply D. lia.
Qed.
Lemma reread_inv k s : Inv k s -> Inv k (reread k s) /\ tsl (reread k s) = tsl s /\ out (reread k s) = out s /\ port (reread k s) = port s /\ exist (reread k s) = exist s /\ tick (reread k s) = S (tick s) /\
  (k_ctl k (tick s) = true -> forall p b n, spans (reread k s) p = Some (b, n) -> spans_of k (tick s) p = Some n /\ b = (1 + total (spans_of k (tick s)) p)%nat) /\
  (k_ctl k (tick s) = true -> forall p, (S p < k_max k)%nat -> spans (reread k s) p = match spans_of k (tick s) p with Some c => Some ((1 + total (spans_of k (tick s)) p)%nat, c) | None => None end) /\
  (k_ctl k (tick s) = false -> spans (reread k s) = spans s).
Proof.
  intros I. unfold reread. destruct (k_ctl k (tick s)) eqn:KC; [|split; [now apply inv_next|]; esg; easy].
  pose proof (read_spans k (tick s) (k_max k - 1) (spans s)) as R. cbv zeta in *. destruct R as (_ & B & D). set (c := fst _) in *.
  assert (X : forall p b n, c p = Some (b, n) -> (S p < k_max k)%nat /\ spans_of k (tick s) p = Some n /\ b = (1 + total (spans_of k (tick s)) p)%nat).
  { intros p b n E. destruct (le_lt_dec (k_max k - 1) p) as [LE|LT].
    - exfalso. rewrite B in E by lia. apply (v_spans k s I) in E as (? & _ & ? & _). lia.
    - rewrite D in E by lia. destruct (spans_of k (tick s) p); [|discriminate]. injection E as <- <-. split; [lia|easy]. }
  split; [|esg; repeat split; try easy; intros; try (now apply X in H0); rewrite D by lia; easy].
  constructor; try (exact (v_j k s I) || exact (v_shape k s I) || exact (v_def k s I) || exact (v_chan k s I)).
  - destruct (v_open k s I) as [O1 O2]. split; [exact O1|]. eapply Forall_impl; [|exact O2]. cbn. intros. lia.
  - cbn [spans]. intros p b n E. apply X in E as (E1 & E2 & E3). exists (tick s). auto.
Qed.

(** ** a line *)
Definition is_up (x x' : ets) (l t c n0 : nat) (es : list eff) : Prop := match e_type x with TS_NONE => went_down x' | _ => went_up x x' l t c n0 es end.
Lemma up_more x x' l t c n0 n1 es a b : is_up x x' l t c n1 es -> (n0 <= n1)%nat -> is_up x x' l t c n0 (a ++ es ++ b).
Proof.
  unfold is_up. intros H N. destruct (e_type x); try exact H; destruct H as (f & A & B & D & E & F & G); exists f; repeat (split; [assumption|]); (split; [rewrite !in_app_iff; auto|]); (destruct G as [G|(G1 & G2 & G3)]; [now left|right; split; [easy|]; split; [rewrite !in_app_iff; auto|lia]]).
Qed.
Definition looped (k : kern) (l base : nat) (ts : list nat) (s s' : st) (rc : Z) : Prop :=
  Inv k s' /\ spans s' = spans s /\ port s' = port s /\ exist s' = exist s /\ (tick s <= tick s')%nat /\ (forall l' t', sameT (tsl s l' t') (tsl s' l' t')) /\
  (forall l' t', l' <> l \/ ~ In t' ts -> tsl s' l' t' = tsl s l' t') /\
  exists es, out s' = out s ++ es /\ (Forall (fun e => exists t, In t ts /\ of_slot l t e) es /\ forall t c f, In (DOpen l t c f) es -> c = (base + t)%nat) /\
  (rc = 0 /\ (forall t, In t ts -> (t < 32)%nat /\ is_up (tsl s l t) (tsl s' l t) l t (base + t) (tick s) es) \/
   rc < 0 /\ exists t, In t ts /\ e_reg (tsl s' l t) = false /\ e_type (tsl s l t) <> TS_NONE /\ trouble k (tsl s l t) (tick s)).
Lemma sameT_refl x : sameT x x. Proof. unfold sameT. auto. Qed.
Lemma loop_ok k l base ts : no_zero k -> NoDup ts -> forall s, Inv k s -> exist s l = true -> (forall t, In t ts -> (t < 32)%nat -> chan_ok k t (base + t)) ->
  match update_loop k l base ts s with Ok (s', rc) => looped k l base ts s s' rc | Bad r => r = BeyondSlots /\ exists t, In t ts /\ (32 <= t)%nat end.
Proof.
  intros NZ. induction 1 as [|t r NI ND IH]; intros s I EX CH.
  { cbn [update_loop]. unfold looped. do 4 (split; [easy|]). split; [lia|]. split; [intros; apply sameT_refl|]. split; [easy|]. exists []. rewrite app_nil_r. split; [easy|]. split; [split; [constructor|intros ? ? ? []]|]. left. split; [easy|]. intros t []. }
  cbn [update_loop]. destruct (Nat.leb_spec 32 t) as [TT|TT]; [split; [easy|]; exists t; split; [now left|easy]|].
  pose proof (update_ts_loc k s l t (base + t) NZ (v_shape k s I l t)) as U. destruct (update_ts k s l t (base + t)) as [s1 o]. destruct U as (e1 & L1 & T1 & U).
  assert (V : valid s l t = true) by (unfold valid; rewrite EX; now apply Nat.ltb_lt in TT as ->).
  assert (I1 : Inv k s1). { eapply inv_loc; eauto. intros c <-. apply CH; [now left|easy]. }
  destruct (lo_cfg _ _ _ _ _ _ L1) as (A1 & A2 & A3). pose proof (lo_tick _ _ _ _ _ _ L1) as K1.
  assert (ST : forall l' t', sameT (tsl s l' t') (tsl s1 l' t')). { intros l' t'. pose proof (here_spec l t l' t') as H. destruct (here l t l' t') eqn:HH; [destruct H as [-> ->]; exact T1|]. rewrite (lo_oth _ _ _ _ _ _ L1 _ _ HH). apply sameT_refl. }
  assert (OTH : forall l' t', l' <> l \/ t' <> t -> tsl s1 l' t' = tsl s l' t'). { intros l' t' H. apply (lo_oth _ _ _ _ _ _ L1). pose proof (here_spec l t l' t') as X. destruct (here l t l' t'); [|easy]. destruct X as [-> ->]. destruct H; easy. }
  assert (SL : Forall (fun e => exists t0, In t0 (t :: r) /\ of_slot l t0 e) e1). { eapply Forall_impl; [|exact (lo_slot _ _ _ _ _ _ L1)]. intros e E. exists t. split; [now left|exact E]. }
  assert (CN : forall t0 c f, In (DOpen l t0 c f) e1 -> c = (base + t0)%nat). { intros t0 c f H. pose proof (lo_slot _ _ _ _ _ _ L1) as FF. rewrite Forall_forall in FF. specialize (FF _ H). unfold of_slot in FF. cbn in FF. injection FF as ->. symmetry. eapply (lo_chan _ _ _ _ _ _ L1); eauto. }
  unfold turned in U. assert (U' : o = None /\ is_up (tsl s l t) (tsl s1 l t) l t (base + t) (tick s) e1 \/ (exists rc, o = Some rc /\ rc < 0) /\ e_reg (tsl s1 l t) = false /\ trouble k (tsl s l t) (tick s) /\ e_type (tsl s l t) <> TS_NONE).
  { unfold is_up. destruct (e_type (tsl s l t)); try (destruct U as [U|(U1 & U2 & U3)]; [left; exact U|right; split; [exact U1|]; split; [exact U2|]; split; [exact U3|easy]]). now left. }
  clear U. destruct U' as [(-> & U)|((rc & -> & RC) & U1 & U2 & U3)].
  - assert (EX1 : exist s1 l = true) by congruence. specialize (IH s1 I1 EX1). destruct (update_loop k l base r s1) as [[s2 rc]|q].
    + destruct IH as (I2 & B1 & B2 & B3 & K2 & ST2 & OT2 & e2 & O2 & SL2 & R); [intros; apply CH; [now right|easy]|]. split; [easy|]. split; [congruence|]. split; [congruence|]. split; [congruence|]. split; [lia|].
      split; [intros l' t'; specialize (ST l' t'); specialize (ST2 l' t'); unfold sameT in *; intuition congruence|]. split.
      { intros l' t' H. rewrite OT2 by (destruct H as [H|H]; [now left|right; intros X; apply H; now right]). apply OTH. destruct H as [H|H]; [now left|right; intros ->; apply H; now left]. }
      exists (e1 ++ e2). split; [rewrite O2, (lo_out _ _ _ _ _ _ L1), app_assoc; easy|]. destruct SL2 as [SL2 CN2]. split; [split; [apply Forall_app; split; [exact SL|]; eapply Forall_impl; [|exact SL2]; intros e (t0 & X & Y); exists t0; split; [now right|exact Y]|intros t0 c f H; apply in_app_iff in H as [H|H]; eauto]|].
      destruct R as [(-> & R)|(RC & t' & R1 & R2 & R3 & R4)].
      * left. split; [easy|]. intros t' [<-|IN].
        -- split; [exact TT|]. rewrite OT2 by now right. apply (up_more _ _ _ _ _ (tick s) _ _ [] e2) in U; [exact U|easy].
        -- destruct (R t' IN) as [R0 R1]. split; [exact R0|]. clear R. rename R1 into R. rewrite OTH in R by (right; intros ->; easy). apply (up_more _ _ _ _ _ (tick s) _ _ e1 []) in R; [|easy]. now rewrite app_nil_r in R.
      * right. split; [easy|]. exists t'. split; [now right|]. split; [easy|]. rewrite OTH in R3, R4 by (right; intros ->; easy). split; [easy|]. destruct R4 as [R4|(n & N1 & N2)]; [now left|]. right. exists n. split; [lia|easy].
    + destruct IH as (-> & t' & X & Y); [intros; apply CH; [now right|easy]|]. split; [easy|]. exists t'. split; [now right|easy].
  - split; [easy|]. repeat (split; [assumption|]). split; [intros l' t' H; apply OTH; destruct H as [H|H]; [now left|right; intros ->; apply H; now left]|].
    exists e1. split; [apply L1|]. split; [split; [exact SL|exact CN]|]. right. split; [easy|]. exists t. split; [now left|]. auto.
Qed.
Definition updated (k : kern) (l : nat) (s s' : st) (rc : Z) : Prop :=
  Inv k s' /\ port s' = port s /\ exist s' = exist s /\ (tick s < tick s')%nat /\ (forall l' t', sameT (tsl s l' t') (tsl s' l' t')) /\
  (forall l' t', l' <> l -> tsl s' l' t' = tsl s l' t') /\
  exists es, out s' = out s ++ DUpdate l :: es /\ (Forall (fun e => exists t, of_slot l t e) es /\ forall t c f, In (DOpen l t c f) es -> exists base num, spans s' (port s l) = Some (base, num) /\ (t < num)%nat /\ c = (base + t)%nat) /\
  (spans s' (port s l) = None /\ rc = -5 /\ tsl s' = tsl s /\ es = [] \/
   exists base num, spans s' (port s l) = Some (base, num) /\ (forall t, (num <= t)%nat -> tsl s' l t = tsl s l t) /\
    (rc = 0 /\ (forall t, (t < num)%nat -> (t < 32)%nat /\ is_up (tsl s l t) (tsl s' l t) l t (base + t) (tick s) es) \/
     rc < 0 /\ exists t, (t < num)%nat /\ e_reg (tsl s' l t) = false /\ e_type (tsl s l t) <> TS_NONE /\ trouble k (tsl s l t) (tick s))).
Definition reads (k : kern) (s s' : st) : Prop :=
  (k_ctl k (tick s) = true -> forall p b n, spans s' p = Some (b, n) -> spans_of k (tick s) p = Some n /\ b = (1 + total (spans_of k (tick s)) p)%nat) /\
  (k_ctl k (tick s) = true -> forall p, (S p < k_max k)%nat -> spans s' p = match spans_of k (tick s) p with Some c => Some ((1 + total (spans_of k (tick s)) p)%nat, c) | None => None end) /\
  (k_ctl k (tick s) = false -> spans s' = spans s).
Lemma update_ok k l s : no_zero k -> Inv k s -> exist s l = true ->
  match line_update k s l with Ok (s', rc) => updated k l s s' rc /\ reads k s s' /\ (port s l < k_max k)%nat
  | Bad r => r = OutOfTable /\ (k_max k <= port s l)%nat \/ r = BeyondSlots /\ exists m n, spans_of k m (port s l) = Some n /\ (32 < n)%nat end.
Proof.
  intros NZ I EX. unfold line_update, reads. pose proof (inv_emit k s (DUpdate l) I eq_refl) as I0. destruct (reread_inv k _ I0) as (I1 & T1 & O1 & P1 & E1 & K1 & C1 & C2 & C3). cbv zeta. set (s1 := reread k _) in *. clearbody s1.
  cbn [tsl out port exist tick emit spans] in *. rewrite P1. destruct (Nat.leb_spec (k_max k) (port s l)) as [PP|PP]; [now left|].
  destruct (spans s1 (port s l)) as [[base num]|] eqn:SP.
  - assert (CH : forall t, In t (seq 0 num) -> (t < 32)%nat -> chan_ok k t (base + t)).
    { intros t IN _. apply in_seq in IN. destruct (v_spans k s1 I1 _ _ _ SP) as (m & M1 & M2 & M3 & M4). exists m, (port s l). split; [easy|]. split; [easy|]. exists num. split; [easy|]. split; [lia|]. now rewrite M4. }
    assert (EX1 : exist s1 l = true) by now rewrite E1.
    pose proof (loop_ok k l base (seq 0 num) NZ (seq_NoDup _ _) s1 I1 EX1 CH) as U. destruct (update_loop k l base (seq 0 num) s1) as [[s2 rc]|].
    + destruct U as (I2 & B1 & B2 & B3 & K2 & ST & OT & es & O2 & SL & R). rewrite T1 in *. rewrite B1. split; [|auto]. split; [easy|]. split; [congruence|]. split; [congruence|]. split; [lia|]. split; [easy|]. split; [intros; apply OT; now left|].
      exists es. split; [now rewrite O2, O1, <- app_assoc|]. destruct SL as [SL CN]. split; [split; [eapply Forall_impl; [|exact SL]; intros e (t & _ & E); now exists t|intros t c f H; exists base, num; split; [congruence|]; split; [|now apply CN in H]; rewrite Forall_forall in SL; destruct (SL _ H) as (t0 & Y & X); unfold of_slot in X; cbn in X; injection X as ->; apply in_seq in Y; lia]|]. right. exists base, num. split; [congruence|]. split; [intros t X; apply OT; right; rewrite in_seq; lia|].
      destruct R as [(-> & R)|(RC & t & R1 & R2 & R3 & R4)].
      * left. split; [easy|]. intros t X. destruct (R t) as [R1 R2]; [apply in_seq; lia|]. split; [easy|]. apply (up_more _ _ _ _ _ (tick s) _ _ [] []) in R2; [|lia]. now rewrite app_nil_r in R2.
      * right. split; [easy|]. exists t. apply in_seq in R1. split; [lia|]. split; [easy|]. split; [easy|]. destruct R4 as [R4|(n & N1 & N2)]; [now left|]. right. exists n. split; [lia|easy].
    + destruct U as (-> & t & X & Y). right. split; [easy|]. apply in_seq in X. destruct (v_spans k s1 I1 _ _ _ SP) as (m & _ & _ & M & _). exists m, num. split; [easy|lia].
  - split; [|auto]. split; [easy|]. split; [easy|]. split; [easy|]. split; [lia|]. rewrite T1. split; [intros; apply sameT_refl|]. split; [easy|]. exists []. rewrite O1. split; [easy|]. split; [split; [constructor|intros ? ? ? []]|]. left. auto.
Qed.
