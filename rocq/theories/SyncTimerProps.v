(** C85: the timer of the synchroniser changes nothing. *)
From Coq Require Import List Arith Lia Bool ZArith.
From Verif Require Import Base RtpSpec SyncModel SyncSpec SyncProofs SyncProps.
Import ListNotations.

Definition untimed (ops : list op) : list op := filter (fun o => match o with Timeout => false | _ => true end) ops.

Definition aligned_st (s : sync) : bool := match s_fsm s with FRAME_ALIGNED => true | _ => false end.
(** equal up to the timer and which of the two searching states it is *)
Record Sim (a b : sync) : Prop := {
  m_hist : s_hist a = s_hist b; m_idx : s_idx a = s_idx b; m_pats : s_pats a = s_pats b; m_err : s_err a = s_err b;
  m_al : aligned_st a = aligned_st b; m_n : s_aligns a = s_aligns b;
  m_timer : s_timer a = true -> aligned_st a = false }.
Definition sim2 {A} (x y : option (sync * A)) : Prop :=
  match x, y with Some (s, o), Some (t, p) => Sim s t /\ o = p | None, None => True | _, _ => False end.
Definition sim1 (x y : option sync) : Prop := match x, y with Some s, Some t => Sim s t | None, None => True | _, _ => False end.

Ltac fields s := let h := fresh "h" in let i := fresh "i" in let p := fresh "p" in let e := fresh "e" in let f := fresh "f" in let t := fresh "t" in let n := fresh "n" in destruct s as [h i p e f t n].
Ltac unsim H := destruct H as [? ? ? ? ? ? ?]; cbn [s_hist s_idx s_pats s_err s_fsm s_aligns s_timer] in *; subst.

Lemma add_bit_sim a b x : Sim a b -> sim1 (rx_history_add_bit a x) (rx_history_add_bit b x).
Proof.
  intros H. fields a. fields b. unsim H. unfold rx_history_add_bit. cbn [s_hist s_idx]. destruct (put _ _ _); [|exact Logic.I].
  cbn [sim1]. split; try reflexivity; assumption.
Qed.
Lemma add_bits_sim a b x : Sim a b -> sim1 (rx_history_add_bits a x) (rx_history_add_bits b x).
Proof.
  intros H. fields a. fields b. unsim H. unfold rx_history_add_bits, primary. cbn [s_hist s_idx s_pats].
  destruct (get _ 0) as [[p|]|]; [|exact Logic.I|exact Logic.I]. destruct (_ && _); [exact Logic.I|]. destruct (blit _ _ _); [|exact Logic.I].
  cbn [sim1]. split; try reflexivity; assumption.
Qed.
Lemma align_sim junk a b : Sim a b -> s_fsm a = s_fsm b -> sim1 (rx_history_align junk a) (rx_history_align junk b).
Proof.
  intros H F. fields a. fields b. unsim H. unfold rx_history_align, primary. cbn [s_hist s_idx s_pats s_err s_fsm s_timer s_aligns].
  destruct (get _ 0) as [[p|]|]; [|exact Logic.I|exact Logic.I]. destruct (forM _ _ _ _); [|exact Logic.I].
  cbn [sim1]. split; try reflexivity; assumption.
Qed.

Lemma chg_sim junk a b to t u : to <> WAIT_FRAME_ALIGN -> Sim a b -> (to = FRAME_ALIGNED -> t = false) ->
  sim2 (state_chg junk a to t) (state_chg junk b to u).
Proof.
  intros NW H T. unfold state_chg.
  assert (M : may_change (s_fsm a) to = may_change (s_fsm b) to).
  { pose proof (m_al _ _ H) as A. unfold aligned_st in A. destruct to; try congruence; destruct (s_fsm a), (s_fsm b); try discriminate A; reflexivity. }
  rewrite M. clear M. destruct (may_change (s_fsm b) to); cbn [negb]; [|exact (conj H eq_refl)].
  assert (S1 : Sim (set_fsm a to t) (set_fsm b to u)).
  { destruct H. split; cbn [set_fsm s_hist s_idx s_pats s_err s_aligns s_timer]; try assumption; [reflexivity|].
    intros ->. destruct to; try reflexivity. now specialize (T eq_refl). }
  destruct to; try congruence.
  - pose proof (align_sim junk _ _ S1 eq_refl) as X. destruct (rx_history_align junk (set_fsm a _ _)) as [x|], (rx_history_align junk (set_fsm b _ _)) as [y|]; try contradiction; [|exact Logic.I].
    cbn [sim1] in X. unfold primary. rewrite (m_pats _ _ X), (m_hist _ _ X). destruct (get _ 0) as [[p|]|]; [|exact Logic.I|exact Logic.I].
    destruct (slice _ _ _); [|exact Logic.I]. split; [exact X|reflexivity].
  - split; [exact S1|reflexivity].
Qed.
Lemma wait_sim junk a b x : Sim a b -> sim2 (wait_step junk a x) (wait_step junk b x).
Proof.
  intros H. unfold wait_step. pose proof (add_bit_sim a b x H) as X.
  destruct (rx_history_add_bit a x) as [a1|], (rx_history_add_bit b x) as [b1|]; try contradiction; [|exact Logic.I]. cbn [sim1] in X.
  unfold primary. rewrite (m_pats _ _ X), (m_hist _ _ X), (m_idx _ _ X). destruct (get _ 0) as [[p|]|]; [|exact Logic.I|exact Logic.I].
  destruct (correlate _ _ _) as [rc|]; [|exact Logic.I]. destruct (rc =? 0); [|exact (conj X eq_refl)].
  apply chg_sim; [discriminate|exact X|reflexivity].
Qed.
Definition sim3 (x y : option (sync * list out * bits)) : Prop :=
  match x, y with Some (s, o, r), Some (t, p, q) => Sim s t /\ o = p /\ r = q | None, None => True | _, _ => False end.
Lemma aligned_sim junk a b x : Sim a b -> sim3 (aligned_step junk a x) (aligned_step junk b x).
Proof.
  intros H. unfold aligned_step. unfold primary. rewrite (m_pats _ _ H), (m_idx _ _ H).
  destruct (get _ 0) as [[p|]|]; [|exact Logic.I|exact Logic.I]. cbv zeta.
  destruct (length x <? _).
  - pose proof (add_bits_sim a b x H) as X. destruct (rx_history_add_bits a x) as [a1|], (rx_history_add_bits b x) as [b1|]; try contradiction; [|exact Logic.I]. split; [exact X|split; reflexivity].
  - pose proof (add_bits_sim a b (firstn (p_len p - s_idx b) x) H) as X.
    destruct (rx_history_add_bits a _) as [a1|], (rx_history_add_bits b _) as [b1|]; try contradiction; [|exact Logic.I]. cbn [sim1] in X.
    unfold correlate_all. rewrite (m_hist _ _ X), (m_idx _ _ X), (m_pats _ _ X). destruct (correlate_loop _ _ _ _) as [rc|]; [|exact Logic.I].
    set (a2 := if 0 <? rc then set_err a1 _ else set_err a1 0%Z). set (b2 := if 0 <? rc then set_err b1 _ else set_err b1 0%Z).
    assert (X2 : Sim a2 b2).
    { unfold a2, b2. rewrite (m_err _ _ X). destruct (0 <? rc); destruct X; (split; cbn [set_err s_hist s_idx s_pats s_err s_aligns s_timer]; try assumption; reflexivity). }
    clearbody a2 b2. clear X. rewrite (m_err _ _ X2). destruct ((0 <? rc) && _).
    + assert (X3 : Sim (set_hist a2 (s_hist a2) 0) (set_hist b2 (s_hist b2) 0)).
      { destruct X2; (split; cbn [set_hist s_hist s_idx s_pats s_err s_aligns s_timer]; try assumption; reflexivity). }
      pose proof (chg_sim junk _ _ FRAME_ALIGNMENT_LOST true true ltac:(discriminate) X3 ltac:(discriminate)) as Y.
      destruct (state_chg junk (set_hist a2 _ 0) _ _) as [[a4 o4]|], (state_chg junk (set_hist b2 _ 0) _ _) as [[b4 p4]|]; try contradiction; [|exact Logic.I].
      destruct Y as (Y & ->). split; [exact Y|split; reflexivity].
    + rewrite (m_hist _ _ X2), (m_idx _ _ X2). destruct (slice _ _ _); [|exact Logic.I]. split; [|split; reflexivity].
      destruct X2; (split; cbn [set_hist s_hist s_idx s_pats s_err s_aligns s_timer]; try assumption; reflexivity).
Qed.
Lemma bits_sim junk fuel : forall a b x, Sim a b -> sim2 (rx_bits fuel junk a x) (rx_bits fuel junk b x).
Proof.
  induction fuel as [|f IH]; intros a b [|x r] H; cbn [rx_bits]; try (split; [exact H|reflexivity]); try exact Logic.I.
  assert (Y : sim3 (match s_fsm a with FRAME_ALIGNED => aligned_step junk a (x :: r) | _ => do (s, o) <- wait_step junk a x; Some (s, o, r) end)
                   (match s_fsm b with FRAME_ALIGNED => aligned_step junk b (x :: r) | _ => do (s, o) <- wait_step junk b x; Some (s, o, r) end)).
  { pose proof (m_al _ _ H) as A. unfold aligned_st in A. pose proof (wait_sim junk a b x H) as W. pose proof (aligned_sim junk a b (x :: r) H) as L.
    assert (Q : sim3 (do (s, o) <- wait_step junk a x; Some (s, o, r)) (do (s, o) <- wait_step junk b x; Some (s, o, r))).
    { destruct (wait_step junk a x) as [[s o]|], (wait_step junk b x) as [[t p]|]; try contradiction; [|exact Logic.I]. destruct W. split; [assumption|split; [assumption|reflexivity]]. }
    destruct (s_fsm a), (s_fsm b); try discriminate A; assumption. }
  destruct (match s_fsm a with FRAME_ALIGNED => _ | _ => _ end) as [[[s o] q]|], (match s_fsm b with FRAME_ALIGNED => _ | _ => _ end) as [[[t p] q']|]; try contradiction; [|exact Logic.I].
  destruct Y as (Y & -> & ->). specialize (IH _ _ q' Y). destruct (rx_bits f junk s q') as [[s1 o1]|], (rx_bits f junk t q') as [[t1 p1]|]; try contradiction; [|exact Logic.I].
  destruct IH as (IH & ->). split; [exact IH|reflexivity].
Qed.
Lemma pats_sim a b p : Sim a b -> Sim (set_pats a p) (set_pats b p).
Proof. intros H. destruct H; (split; cbn [set_pats s_hist s_idx s_pats s_err s_aligns s_timer]; try assumption; reflexivity). Qed.
Lemma op_sim junk a b o : o <> Timeout -> Sim a b -> sim2 (do_op junk a o) (do_op junk b o).
Proof.
  intros N H. destruct o as [x|i|i k|]; [| | |congruence]; cbn [do_op].
  - now apply bits_sim.
  - unfold osmo_trau_sync_set_pat. apply chg_sim; [discriminate|now apply pats_sim|discriminate].
  - unfold osmo_trau_sync_set_secondary_pat. destruct (_ && _); [|exact Logic.I]. unfold primary. rewrite (m_pats _ _ H).
    destruct (get _ 0) as [[p|]|]; [|exact Logic.I|exact Logic.I]. destruct (_ =? _); [|exact Logic.I]. destruct (put _ _ _); [|exact Logic.I].
    apply chg_sim; [discriminate|now apply pats_sim|discriminate].
Qed.
Lemma timeout_sim junk a b : Sim a b -> exists a', trau_sync_timeout junk a = Some (a', []) /\ Sim a' b.
Proof.
  intros H. unfold trau_sync_timeout. destruct (s_timer a) eqn:T; [|exists a; now split].
  pose proof (m_timer _ _ H T) as NA. unfold state_chg. destruct a as [h i p e f t n]. cbn [s_fsm set_fsm s_hist s_idx s_pats s_err s_aligns s_timer] in *.
  unfold aligned_st in NA. cbn [s_fsm] in NA.
  destruct f; try discriminate NA; cbn [may_change negb]; eexists; (split; [reflexivity|]); destruct H; (split; cbn [s_hist s_idx s_pats s_err s_fsm s_aligns s_timer] in *; try assumption; easy).
Qed.

(** Whether and when the timer expires makes no difference to what is delivered: without its
    expiries the same calls give the same frames and losses, in the same order. *)
Theorem C85_timer_invisible : forall junk i ops,
  option_map (fun r => concat (snd r)) (do_ops junk (osmo_trau_sync_alloc i) ops) =
  option_map (fun r => concat (snd r)) (do_ops junk (osmo_trau_sync_alloc i) (untimed ops)).
Proof.
  intros junk i ops. assert (S0 : Sim (osmo_trau_sync_alloc i) (osmo_trau_sync_alloc i)) by (split; try reflexivity).
  revert S0. generalize (osmo_trau_sync_alloc i) at 1 3. generalize (osmo_trau_sync_alloc i). intros b a. revert a b.
  induction ops as [|o ops IH]; intros a b H; [reflexivity|].
  assert (D : o = Timeout \/ o <> Timeout /\ untimed (o :: ops) = o :: untimed ops) by (destruct o; auto; right; split; [discriminate|reflexivity|discriminate|reflexivity|discriminate|reflexivity]).
  destruct D as [->|(N & ->)]; cbn [do_ops].
  - cbn [do_op]. destruct (timeout_sim junk a b H) as (a' & -> & S1). specialize (IH _ _ S1). change (untimed (Timeout :: ops)) with (untimed ops).
    rewrite <- IH. destruct (do_ops junk a' ops) as [[s2 xs]|]; reflexivity.
  - pose proof (op_sim junk a b o N H) as X. destruct (do_op junk a o) as [[s1 x]|], (do_op junk b o) as [[t1 y]|]; try contradiction; [|reflexivity].
    destruct X as (X & ->). specialize (IH _ _ X). destruct (do_ops junk s1 ops) as [[s2 xs]|], (do_ops junk t1 (untimed ops)) as [[t2 ys]|]; cbn [option_map snd concat] in *; try discriminate IH; [|reflexivity].
    injection IH as ->. reflexivity.
Qed.
(** a timer that expires: after three bad frames *)
Example C85_timer_example : exists s, 
  option_map snd (do_ops (fun _ _ => false) (osmo_trau_sync_alloc PAT_V110) [Rx (repeat false 8 ++ concat (repeat (true :: repeat false 7) 9)); Rx (repeat true 240)]) = Some s /\
  concat (map (map (fun o => match o with Lost => 1 | Frame _ => 2 end)) s) = [2; 2; 2; 1].
Proof. vm_compute. eexists. split; reflexivity. Qed.
Print Assumptions C85_timer_invisible.
