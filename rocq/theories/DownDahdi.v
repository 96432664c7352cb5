(** C81, DAHDI: a line taken out of service, then freed. *)
From Coq Require Import List Arith Lia Bool ZArith.
From Verif Require Import Base E1Model DahdiModel DahdiSpec DahdiProofs DahdiRunProofs DahdiProps.
Import ListNotations.
Open Scope Z_scope.

(** ** Model: the end of a line *)
(** e1_input.c:530-573 e1inp_line_use_cb: as in DownMisdn.v, the line is freed with its timeslots
    (osmo_fd, delay timer) and no function of the driver is called.  [strikes]: the select loop, a
    timer or LAPD calls the driver with memory of line [l] *)
Definition strikes (s : st) (l : nat) (v : ev) : bool :=
  match v with
  | Create _ _ | App _ => false
  | Ready a t _ _ _ _ => Nat.eqb a l && e_reg (tsl s l t)
  | TxTimer a t => Nat.eqb a l && e_tmr (tsl s l t)
  | LapdOut a t _ => Nat.eqb a l && e_lapd (tsl s l t)
  end.
Definition used_after_free (s : st) (l : nat) (vs : list ev) : bool := existsb (strikes s l) vs.
(** events of line [l] that are not of the application *)
Definition by_itself (l : nat) (v : ev) : Prop := match v with Create _ _ | App _ => False | Ready a _ _ _ _ _ | TxTimer a _ | LapdOut a _ _ => a = l end.

Lemma life_opened l t es : forall v f b, life l t v es = Some (Some f, b) -> fst v = Some f \/ exists c, In (DOpen l t c f) es.
Proof.
  induction es as [|e r IH]; intros v f b; cbn [life]; [intros [= ->]; now left|].
  destruct (mine l t e) eqn:M; [|intros H; destruct (IH _ _ _ H) as [X|[c X]]; [now left|right; exists c; now right]].
  destruct (advance v e) as [w|] eqn:A; [|discriminate]. intros H. destruct (IH _ _ _ H) as [X|[c X]]; [|right; exists c; now right].
  unfold mine in M. destruct e; cbn [advance slot_of] in A, M.
  1: { destruct (fst v); [discriminate|]. injection A as <-. cbn in X. injection X as <-. right. apply andb_true_iff in M as [M1 M2]. apply Nat.eqb_eq in M1, M2. subst. eexists. now left. }
  all: try (destruct (_ && _) in A; [|discriminate]); try (destruct (match fst v with Some _ => _ | None => _ end); [|discriminate]); try (injection A as <-; cbn [fst] in X); try (now left); try discriminate X.
Qed.

(** ** C81, DAHDI *)
(** All timeslots of the line unused and an update that succeeds; the line was never moved to
    another port and its span has always been of the same size: every channel of the line is
    closed, nothing of the line happens any more by itself, the line may be freed. *)
Theorem C81_dahdi k vs s s' l n : no_zero k -> run k st_init vs = Ok s -> forallb unmoved vs = true -> (forall m n', k_span k m (S (port s l)) = Some n' -> n' = n) ->
  exist s l = true -> (forall t, e_type (tsl s l t) = TS_NONE) -> line_update k s l = Ok (s', 0) ->
  (forall t, life l t (None, false) (out s') = Some (None, false)) /\ (forall v, by_itself l v -> step k s' v = Ok s') /\ (forall vs2, used_after_free s' l vs2 = false).
Proof.
  intros NZ R UM SP EX TY LU. pose proof (reach k vs s NZ R) as I.
  pose proof (update_ok k l s NZ I EX) as U. rewrite LU in U. destruct U as ((I' & _) & _). 
  destruct (C60_update k vs s l s' 0 NZ R EX LU) as (SM & OT & es & O & UP & _). destruct (UP eq_refl) as (m & num & M1 & M2 & M3 & M4 & BE & IN). clear UP. apply SP in M3. subst num.
  assert (F : forall t, ~ held (e_fd (tsl s' l t))).
  { intros t [f H]. destruct (le_lt_dec n t) as [A|A].
    - rewrite (BE t A) in H. pose proof (C60_life k vs s l t NZ R) as L. rewrite H in L. destruct (life_opened _ _ _ _ _ _ L) as [X|[c X]]; [discriminate X|].
      destruct (C60_channel k vs s l t c f NZ R UM X) as (_ & _ & m' & _ & n' & C1 & C2 & _). apply SP in C1. lia.
    - specialize (IN t A). rewrite (TY t) in IN. destruct IN as (X & _). congruence. }
  assert (SH : forall t, Shape (tsl s' l t)) by (intros t; apply (v_shape k s' I')).
  assert (RG : forall t, e_reg (tsl s' l t) = false) by (intros t; destruct (e_reg (tsl s' l t)) eqn:E; [|easy]; elim (F t); now apply (sh_reg _ (SH t))).
  assert (LA : forall t, e_lapd (tsl s' l t) = false) by (intros t; destruct (e_lapd (tsl s' l t)) eqn:E; [|easy]; elim (F t); now apply (sh_lapd _ (SH t))).
  assert (TM : forall t, e_tmr (tsl s' l t) = false) by (intros t; destruct (e_tmr (tsl s' l t)) eqn:E; [|easy]; destruct (sh_tmr _ (SH t) E) as [X _]; destruct (SM l t) as (Y & _); congruence).
  split; [|split].
  - intros t. destruct (v_j k s' I' l t) as [L _]. rewrite L, RG. f_equal. f_equal. destruct (e_fd (tsl s' l t)) as [| |f|f] eqn:E; try easy; [elim (F t); exists f; exact E|elim (sh_zero _ (SH t) f E)].
  - intros v B. destruct v as [a p|cs|a t x r w act|a t|a t m']; cbn [by_itself] in B; try easy; subst a; cbn [step]; [now rewrite RG|now rewrite TM|now rewrite LA].
  - intros vs2. induction vs2 as [|v r IH]; [easy|]. unfold used_after_free in *. cbn [existsb]. rewrite IH, orb_false_r. destruct v; cbn [strikes]; rewrite ?RG, ?TM, ?LA, ?andb_false_r; reflexivity.
Qed.
(** refuted: a line that is merely released (the channel is still polled); a line moved to a
    smaller span before the last update: the timeslot beyond the new span stays polled *)
Theorem C81_dahdi_put_refuted : match run real st_init [Create 0 0; App [CConfig 0 1 TS_RAW; CUpdate 0]] with
  Ok s => used_after_free s 0 [Ready 0 1 false (Some (RdData [1])) false []] = true | Bad _ => False end.
Proof. now vm_compute. Qed.
Definition uneven : kern := mkK 32 (fun _ => true) (fun _ p => match p with 1%nat => Some 31%nat | 2%nat => Some 4%nat | _ => None end) (fun _ => OpOk) (fun _ => true) (fun _ => true) (fun _ => 160) (fun _ => Some EvAlarm) (fun _ => repeat 1 160) (fun _ => (0, 0)).
Definition rets (es : list eff) : list Z := flat_map (fun e => match e with DRet _ rc => [rc] | _ => [] end) es.
Theorem C81_dahdi_moved_refuted : match run uneven st_init [Create 0 0; App [CConfig 0 9 TS_RAW; CUpdate 0; CPort 0 1; CConfig 0 9 TS_NONE; CUpdate 0]] with
  Ok s => forallb (fun t => type_eqb (e_type (tsl s 0%nat t)) TS_NONE) (seq 0 32) = true /\ rets (out s) = [0; 0] /\ used_after_free s 0 [Ready 0 9 false (Some (RdData [1])) false []] = true | Bad _ => False end.
Proof. now vm_compute. Qed.
Example C81_dahdi_met : let vs := start ++ [App [CSend 0 0 7 [1]]; Ready 0 0 false None true []; App [CUnlink 0 0 7; CUnlink 0 0 4; CConfig 0 0 TS_NONE; CConfig 0 1 TS_NONE; CConfig 0 2 TS_NONE; CConfig 0 3 TS_NONE]] in
  forallb unmoved vs = true /\ (forall m n, k_span real m 2 = Some n -> n = 31%nat) /\
  match run real st_init vs with
  Ok s => forallb (fun t => type_eqb (e_type (tsl s 0%nat t)) TS_NONE) (seq 0 32) = true /\ match line_update real s 0 with Ok (s', rc) => rc = 0 | Bad _ => False end /\
    used_after_free s 0 [Ready 0 0 false None true []] = true /\ used_after_free s 0 [LapdOut 0 0 [1]] = true | Bad _ => False end.
Proof. cbv zeta. split; [reflexivity|]. split; [intros m n [= <-]; reflexivity|]. now vm_compute. Qed.
(** before anything was configured nothing happens by itself *)
Theorem C60_start k v : (forall l p, v <> Create l p) -> (forall cs, v <> App cs) -> step k st_init v = Ok st_init.
Proof. intros A B. destruct v; try reflexivity; [now elim (A l p)|now elim (B cs)]. Qed.
