(** C87: proofs; the statements are in SyncReProps.v. *)
From Coq Require Import List Arith Lia Bool ZArith.
From Verif Require Import Base RtpSpec SyncModel SyncSpec SyncProofs SyncProps SyncHealSpec SyncHealProofs SyncReModel SyncReSpec.
Import ListNotations.
Opaque HIST.

Lemma is_al s : is_aligned s = true <-> s_fsm s = FRAME_ALIGNED.
Proof. unfold is_aligned. destruct (s_fsm s); split; congruence. Qed.
Lemma is_al_f s : is_aligned s = false <-> s_fsm s <> FRAME_ALIGNED.
Proof. unfold is_aligned. destruct (s_fsm s); split; congruence. Qed.

(** between calls *)
Definition G (junk : nat -> nat -> bool) (c : conf) (s : sync) : Prop :=
  Inv (sync_patterns (fst c)) s /\ Tail junk (sync_patterns (fst c)) s /\ s_pats s = slots (fst c) (snd c) /\
  (s_timer s = true -> s_fsm s <> FRAME_ALIGNED).

Lemma setting_app c a b : setting c (a ++ b) = setting (setting c a) b.
Proof. revert c. induction a as [|[o|x] a IH]; intros c; cbn; [reflexivity|apply IH..]. Qed.
Lemma lengths_app a : forall c b, lengths_ok c (a ++ b) <-> lengths_ok c a /\ lengths_ok (setting c a) b.
Proof.
  induction a as [|[[f|]|x] a IH]; intros c b; cbn [app lengths_ok setting]; [tauto| |apply IH..].
  rewrite IH. tauto.
Qed.
Lemma lengths_sets c l : lengths_ok c (map ESet l).
Proof. revert c. induction l as [|x l IH]; intros c; cbn; [exact Logic.I|apply IH]. Qed.

Lemma lost_timer junk s s' o : state_chg junk s FRAME_ALIGNMENT_LOST false = Some (s', o) -> s_timer s' = true -> s_timer s = true.
Proof.
  unfold state_chg. destruct (negb _); intros E.
  - now assert (s' = s) as -> by congruence.
  - assert (s' = set_fsm s FRAME_ALIGNMENT_LOST false) as -> by congruence. discriminate.
Qed.

Lemma set_secs_ok junk i l : forall s secs, Inv (sync_patterns i) s -> s_fsm s <> FRAME_ALIGNED -> s_pats s = slots i secs ->
  Forall (fun x => 1 <= snd x <= 7 /\ frame_len (fst x) = frame_len i) l ->
  exists s', set_secs junk s l = Some s' /\ Inv (sync_patterns i) s' /\ s_fsm s' <> FRAME_ALIGNED /\
    s_pats s' = slots i (secs ++ l) /\ s_hist s' = s_hist s /\ s_idx s' = s_idx s /\ s_err s' = s_err s.
Proof.
  induction l as [|[j k] l IH]; intros s secs I F P OK; cbn [set_secs].
  - exists s. rewrite app_nil_r. now repeat (split; [easy|]).
  - inversion OK as [|? ? [K1 K2] OK']; subst. cbn [fst snd] in *.
    destruct (set_sec_ok junk _ s j k I K1) as (s1 & E & I1 & R1 & F1 & H1 & X1 & P1); [now rewrite len_frame|].
    rewrite E. destruct (IH s1 (secs ++ [(j, k)]) I1 F1) as (s2 & E2 & I2 & F2 & P2 & H2 & X2 & R2); [|exact OK'|].
    + rewrite P1, P. now rewrite slot_snoc.
    + exists s2. rewrite E2. split; [reflexivity|]. split; [exact I2|]. split; [exact F2|].
      split; [now rewrite P2, <- app_assoc|]. split; [congruence|]. split; congruence.
Qed.

(** needs only the buffer's size and the index *)
Lemma set_conf_ok junk s c : length (s_hist s) = HIST -> s_idx s < HIST -> conf_ok c ->
  exists s', set_conf junk s c = Some s' /\ Inv (sync_patterns (fst c)) s' /\ s_fsm s' <> FRAME_ALIGNED /\
    s_pats s' = slots (fst c) (snd c) /\ s_hist s' = s_hist s /\ s_idx s' = s_idx s /\ s_err s' = s_err s.
Proof.
  intros Hh Hi OK. unfold set_conf, osmo_trau_sync_set_pat.
  destruct (state_chg_lost junk (set_pats s (Some (sync_patterns (fst c)) :: repeat None 7)) false) as (s1 & E & A & B & C & D & F).
  rewrite E. cbn in A, B, C, D.
  assert (I1 : Inv (sync_patterns (fst c)) s1).
  { unfold Inv. rewrite A, B, C. split; [assumption|]. split; [assumption|]. split; [apply good_pat|].
    split; [reflexivity|]. split; [reflexivity|]. split; [|intros; contradiction].
    intros q Hq. apply (in_fresh q (sync_patterns (fst c)) 7) in Hq. subst. split; [apply good_pat|reflexivity]. }
  destruct (set_secs_ok junk (fst c) (snd c) s1 [] I1 F) as (s2 & E2 & I2 & F2 & P2 & H2 & X2 & R2); [exact C|exact OK|].
  exists s2. split; [exact E2|]. split; [exact I2|]. split; [exact F2|]. split; [exact P2|]. split; [congruence|]. split; congruence.
Qed.

Lemma set_confs_ok junk l : forall s c, length (s_hist s) = HIST -> s_idx s < HIST -> Forall conf_ok (c :: l) ->
  exists s', set_confs junk s (c :: l) = Some s' /\ let k := setting c (map ESet l) in
    Inv (sync_patterns (fst k)) s' /\ s_fsm s' <> FRAME_ALIGNED /\
    s_pats s' = slots (fst k) (snd k) /\ s_hist s' = s_hist s /\ s_idx s' = s_idx s /\ s_err s' = s_err s.
Proof.
  induction l as [|d l IH]; intros s c Hh Hi OK.
  - cbn [set_confs map setting]. destruct (set_conf_ok junk s c Hh Hi (Forall_inv OK)) as (s' & E & R). rewrite E. eauto.
  - cbn [set_confs]. destruct (set_conf_ok junk s c Hh Hi (Forall_inv OK)) as (s1 & E & _ & _ & _ & H1 & X1 & R1). rewrite E.
    destruct (IH s1 d ltac:(congruence) ltac:(congruence) (Forall_inv_tail OK)) as (s2 & E2 & I2 & F2 & P2 & H2 & X2 & R2).
    cbn [set_confs] in E2. rewrite E2. exists s2. split; [reflexivity|]. cbv zeta in *. cbn [map setting].
    split; [exact I2|]. split; [exact F2|]. split; [exact P2|]. split; [congruence|]. split; congruence.
Qed.

Lemma notify_ok junk cb t s o c : policy_ok cb -> length (s_hist s) = HIST -> s_idx s < HIST ->
  let cs := cb (t ++ [EOut o]) in let t' := t ++ EOut o :: map ESet cs in
  exists s', notify junk cb t s o = Some (t', s') /\ s_hist s' = s_hist s /\ s_idx s' = s_idx s /\ s_err s' = s_err s /\
    ((cs = [] /\ s' = s) \/ (cs <> [] /\ let k := setting c t' in
       Inv (sync_patterns (fst k)) s' /\ s_fsm s' <> FRAME_ALIGNED /\ s_pats s' = slots (fst k) (snd k))).
Proof.
  intros PO Hh Hi. cbv zeta. unfold notify. pose proof (PO (t ++ [EOut o])) as OK.
  destruct (cb (t ++ [EOut o])) as [|x l] eqn:C.
  - cbn [set_confs]. exists s. split; [reflexivity|]. split; [easy|]. split; [easy|]. split; [easy|]. now left.
  - destruct (set_confs_ok junk l s x Hh Hi OK) as (s' & E & I & F & P & A & B & D). rewrite E.
    exists s'. split; [reflexivity|]. split; [exact A|]. split; [exact B|]. split; [exact D|]. right. split; [discriminate|].
    rewrite setting_app. cbn [setting map]. now repeat (split; [easy|]).
Qed.

(** * One pass of a loop *)
(** lines 513-537 up to the callback *)
Definition acore (s : sync) (ubb : bits) : option (sync * option out * bits) :=
  do p <- primary s;
  let remaining := p_len p - s_idx s in
  if length ubb <? remaining then
    do s <- rx_history_add_bits s ubb; Some (s, None, [])
  else
    do s <- rx_history_add_bits s (firstn remaining ubb);
    let ubb := skipn remaining ubb in
    do rc <- correlate_all s;
    let s := if 0 <? rc then set_err s (inc32 (s_err s)) else set_err s 0%Z in
    if (0 <? rc) && (3 <=? s_err s)%Z then Some (set_hist s (s_hist s) 0, Some Lost, ubb)
    else do f <- slice (s_hist s) 0 (s_idx s); Some (s, Some (Frame f), ubb).

Lemma aligned_core junk cb t s ubb : aligned_step_re junk cb t s ubb =
  do (s, o, r) <- acore s ubb;
  match o with
  | None => Some (t, s, r, false)
  | Some Lost => do (t, s) <- notify junk cb t s Lost; do (t, s) <- state_chg_re junk cb t s FRAME_ALIGNMENT_LOST true; Some (t, s, r, true)
  | Some (Frame f) => do (t, s) <- notify junk cb t s (Frame f); Some (t, set_hist s (s_hist s) 0, r, false)
  end.
Proof.
  unfold aligned_step_re, acore. destruct (primary s) as [p|]; [|reflexivity]. cbv zeta.
  destruct (length ubb <? p_len p - s_idx s).
  - destruct (rx_history_add_bits s ubb); reflexivity.
  - destruct (rx_history_add_bits s _) as [s1|]; [|reflexivity]. destruct (correlate_all s1) as [rc|]; [|reflexivity].
    destruct (_ && _); [reflexivity|]. destruct (slice _ _ _); reflexivity.
Qed.
Lemma aligned_core0 junk s ubb : aligned_step junk s ubb =
  do (s, o, r) <- acore s ubb;
  match o with
  | None => Some (s, [], r)
  | Some Lost => do (s, o) <- state_chg junk s FRAME_ALIGNMENT_LOST true; Some (s, Lost :: o, r)
  | Some (Frame f) => Some (set_hist s (s_hist s) 0, [Frame f], r)
  end.
Proof.
  unfold aligned_step, acore. destruct (primary s) as [p|]; [|reflexivity]. cbv zeta.
  destruct (length ubb <? p_len p - s_idx s).
  - destruct (rx_history_add_bits s ubb); reflexivity.
  - destruct (rx_history_add_bits s _) as [s1|]; [|reflexivity]. destruct (correlate_all s1) as [rc|]; [|reflexivity].
    destruct (_ && _); [reflexivity|]. destruct (slice _ _ _); reflexivity.
Qed.

Lemma add_ok p s b : Inv p s -> s_idx s + length b <= p_len p ->
  rx_history_add_bits s b = Some (set_hist s (splice (s_hist s) (s_idx s) b) (s_idx s + length b)).
Proof.
  intros I HL. pose proof I as (Hh & Hi & Gd & _). destruct Gd as (_ & _ & G3).
  unfold rx_history_add_bits. rewrite (primary_inv p s I).
  assert (((s_idx s <=? p_len p) && (p_len p - s_idx s <? length b)) = false) as ->.
  { apply andb_false_intro2. apply Nat.ltb_ge. lia. }
  rewrite blit_splice by lia. reflexivity.
Qed.
Lemma splice_tail (h x : bits) i L : i + length x <= L -> L <= length h -> skipn L (splice h i x) = skipn L h.
Proof.
  intros A B. unfold splice. rewrite skipn_app, firstn_length_le by lia.
  rewrite skipn_all2 by (rewrite firstn_length_le; lia). cbn [app].
  rewrite skipn_app. rewrite skipn_all2 by lia. cbn [app]. rewrite skipn_skipn'. f_equal. lia.
Qed.

Lemma acore_short p s b : Inv p s -> s_idx s + length b < p_len p ->
  acore s b = Some (set_hist s (splice (s_hist s) (s_idx s) b) (s_idx s + length b), None, []).
Proof.
  intros I HL. unfold acore. rewrite (primary_inv p s I).
  destruct (Nat.ltb_spec (length b) (p_len p - s_idx s)); [|lia].
  rewrite (add_ok p) by (assumption || lia). reflexivity.
Qed.
Lemma acore_full p s b : Inv p s -> s_idx s < p_len p -> p_len p <= s_idx s + length b ->
  exists s1 o, acore s b = Some (s1, Some o, skipn (p_len p - s_idx s) b) /\ length (s_hist s1) = HIST /\
    skipn (p_len p) (s_hist s1) = skipn (p_len p) (s_hist s) /\ s_pats s1 = s_pats s /\ s_fsm s1 = s_fsm s /\
    s_timer s1 = s_timer s /\ s_aligns s1 = s_aligns s /\
    match o with Lost => s_idx s1 = 0 | Frame f => s_idx s1 = p_len p /\ length f = p_len p end.
Proof.
  intros I HA HL. pose proof I as (Hh & Hi & Gd & H8 & HP & HQ & _). pose proof Gd as (G1 & G2 & G3).
  unfold acore. rewrite (primary_inv p s I). cbv zeta.
  destruct (Nat.ltb_spec (length b) (p_len p - s_idx s)); [lia|].
  assert (LF : length (firstn (p_len p - s_idx s) b) = p_len p - s_idx s) by (rewrite firstn_length; lia).
  rewrite (add_ok p) by (assumption || lia). rewrite LF.
  replace (s_idx s + (p_len p - s_idx s)) with (p_len p) by lia.
  set (s1 := set_hist s _ _).
  assert (L1 : length (s_hist s1) = HIST) by (cbn; rewrite splice_length; lia).
  assert (T1 : skipn (p_len p) (s_hist s1) = skipn (p_len p) (s_hist s)) by (cbn; apply splice_tail; lia).
  assert (X1 : s_idx s1 = p_len p) by reflexivity.
  destruct (correlate_loop_0 (s_hist s1) (s_idx s1) (p_len p) (s_pats s1) (160 * 8) L1) as (n & En & Hn).
  { lia. } { exact HQ. }
  unfold correlate_all. rewrite En. cbv zeta.
  assert (Y : s_pats s1 = s_pats s /\ s_fsm s1 = s_fsm s /\ s_timer s1 = s_timer s /\ s_aligns s1 = s_aligns s) by (now repeat split).
  clearbody s1. destruct Y as (Y1 & Y2 & Y3 & Y4).
  set (s2 := if 0 <? n then _ else _).
  assert (Z : s_hist s2 = s_hist s1 /\ s_idx s2 = s_idx s1 /\ s_pats s2 = s_pats s1 /\ s_fsm s2 = s_fsm s1 /\ s_timer s2 = s_timer s1 /\ s_aligns s2 = s_aligns s1)
    by (unfold s2; destruct (0 <? n); now repeat split).
  destruct Z as (Z1 & Z2 & Z3 & Z4 & Z5 & Z6). clearbody s2.
  destruct (_ && _).
  - exists (set_hist s2 (s_hist s2) 0), Lost. split; [reflexivity|]. cbn.
    split; [congruence|]. split; [congruence|]. split; [congruence|]. split; [congruence|]. split; [congruence|]. split; [congruence|]. reflexivity.
  - rewrite slice_some by (rewrite Z1, Z2, X1, L1; lia). eexists s2, _. split; [reflexivity|].
    split; [congruence|]. split; [congruence|]. split; [congruence|]. split; [congruence|]. split; [congruence|]. split; [congruence|].
    split; [congruence|]. cbn [skipn]. rewrite firstn_length_le; [congruence|]. rewrite Z1, Z2, X1, L1. lia.
Qed.
(** a frame begun with [a] *)
Lemma acore_split p s a b : Inv p s -> s_idx s + length a < p_len p ->
  acore s (a ++ b) = acore (set_hist s (splice (s_hist s) (s_idx s) a) (s_idx s + length a)) b.
Proof.
  intros I HL. pose proof I as (Hh & Hi & Gd & H8 & HP & HQ & _). pose proof Gd as (G1 & G2 & G3).
  unfold acore. set (s1 := set_hist s _ _).
  change (primary s1) with (primary s). rewrite (primary_inv p s I). cbv zeta.
  change (s_idx s1) with (s_idx s + length a). rewrite app_length.
  replace (length b <? p_len p - (s_idx s + length a)) with (length a + length b <? p_len p - s_idx s)
    by (destruct (Nat.ltb_spec (length a + length b) (p_len p - s_idx s)); destruct (Nat.ltb_spec (length b) (p_len p - (s_idx s + length a))); lia || reflexivity).
  assert (ADD : forall x, s_idx s + length a + length x <= p_len p ->
    rx_history_add_bits s (a ++ x) = rx_history_add_bits s1 x).
  { intros x Hx. rewrite (add_ok p s (a ++ x) I) by (rewrite app_length; lia).
    unfold rx_history_add_bits. change (primary s1) with (primary s). rewrite (primary_inv p s I).
    change (s_idx s1) with (s_idx s + length a).
    assert (((s_idx s + length a <=? p_len p) && (p_len p - (s_idx s + length a) <? length x)) = false) as ->.
    { apply andb_false_intro2. apply Nat.ltb_ge. lia. }
    change (s_hist s1) with (splice (s_hist s) (s_idx s) a).
    rewrite blit_splice by (rewrite splice_length by lia; lia).
    unfold set_hist. cbn [s_hist s_idx s_pats s_err s_fsm s_timer s_aligns s1]. f_equal. f_equal; [|rewrite app_length; lia].
    unfold splice. rewrite firstn_app, firstn_length_le by lia.
    rewrite (firstn_all2 (firstn (s_idx s) (s_hist s))) by (rewrite firstn_length_le; lia).
    rewrite firstn_app. replace (s_idx s + length a - s_idx s - length a) with 0 by lia. rewrite firstn_O, app_nil_r.
    rewrite (firstn_all2 a) by lia.
    rewrite (skipn_app _ (firstn (s_idx s) (s_hist s))), firstn_length_le by lia.
    rewrite (skipn_all2 (firstn (s_idx s) (s_hist s))) by (rewrite firstn_length_le; lia). cbn [app].
    rewrite skipn_app. rewrite (skipn_all2 a) by lia. cbn [app]. rewrite skipn_skipn', app_length, <- !app_assoc.
    do 3 f_equal. f_equal. lia. }
  destruct (Nat.ltb_spec (length a + length b) (p_len p - s_idx s)).
  - rewrite ADD by lia. reflexivity.
  - rewrite firstn_app, firstn_all2 by lia. replace (p_len p - s_idx s - length a) with (p_len p - (s_idx s + length a)) by lia.
    rewrite ADD by (rewrite firstn_length; lia).
    rewrite skipn_app, skipn_all2 by lia. cbn [app]. replace (p_len p - s_idx s - length a) with (p_len p - (s_idx s + length a)) by lia. reflexivity.
Qed.

Lemma wait_core junk cb t s b : s_fsm s <> FRAME_ALIGNED -> wait_step_re junk cb t s b =
  do (s, o) <- wait_step junk s b;
  match o with [] => Some (t, s, false) | x :: _ => do (t, s) <- notify junk cb t s x; Some (t, s, true) end.
Proof.
  intros F. unfold wait_step_re, wait_step. destruct (rx_history_add_bit s b) as [s1|] eqn:E; [|reflexivity].
  assert (F1 : s_fsm s1 = s_fsm s).
  { unfold rx_history_add_bit in E. destruct (put _ _ _); [|discriminate E].
    match type of E with Some ?x = _ => assert (s1 = x) as -> by congruence end. reflexivity. }
  destruct (primary s1) as [p|]; [|reflexivity]. destruct (correlate _ _ _) as [rc|]; [|reflexivity].
  destruct (rc =? 0); [|reflexivity]. unfold state_chg_re, state_chg.
  rewrite F1. assert (may_change (s_fsm s) FRAME_ALIGNED = true) as -> by (destruct (s_fsm s); first [reflexivity|congruence]).
  cbn [negb]. destruct (rx_history_align junk _) as [s2|]; [|reflexivity]. destruct (primary s2) as [q|]; [|reflexivity].
  destruct (slice _ _ _); reflexivity.
Qed.

Definition pass (junk : nat -> nat -> bool) (cb : policy) (al : bool) (t : list ev) (s : sync) (bit : bool) (r : bits) : option (list ev * sync * bits * bool) :=
  if al then do (t, s, rest, lost) <- aligned_step_re junk cb t s (bit :: r); Some (t, s, rest, if lost then is_aligned s else true)
  else do (t, s, found) <- wait_step_re junk cb t s bit; Some (t, s, r, if found then is_aligned s else false).
Lemma rx_re_pass f junk cb al t s bit r : rx_re (S f) junk cb al t s (bit :: r) =
  do (t, s, rest, al) <- pass junk cb al t s bit r; rx_re f junk cb al t s rest.
Proof.
  cbn [rx_re]. unfold pass. destruct al.
  - destruct (aligned_step_re _ _ _ _ _) as [[[[? ?] ?] ?]|]; reflexivity.
  - destruct (wait_step_re _ _ _ _ _) as [[[? ?] ?]|]; reflexivity.
Qed.

Lemma searching_nil : searching [].
Proof. exact Logic.I. Qed.
Lemma searching_snoc t e : searching (t ++ [e]) <-> match e with EOut (Frame _) => False | _ => True end.
Proof. unfold searching. rewrite rev_app_distr. cbn. destruct e as [[f|]|c]; tauto. Qed.
Lemma searching_sets t e l : l <> [] -> searching (t ++ e :: map ESet l).
Proof.
  intros H. destruct (exists_last H) as (l' & x & ->). rewrite map_app. cbn [map].
  replace (t ++ e :: map ESet l' ++ [ESet x]) with ((t ++ e :: map ESet l') ++ [ESet x]) by now rewrite <- app_assoc.
  now apply searching_snoc.
Qed.

(** in a loop: [al] says which *)
Definition Lp (junk : nat -> nat -> bool) (c : conf) (al : bool) (s : sync) : Prop :=
  G junk c s /\ (if al then s_idx s < frame_len (fst c) else s_fsm s <> FRAME_ALIGNED).
Lemma Lp_start junk c s : G junk c s -> Lp junk c (is_aligned s) s.
Proof.
  intros H. split; [exact H|]. destruct (is_aligned s) eqn:A.
  - apply is_al in A. destruct H as (I & _). rewrite <- len_frame. now apply I.
  - now apply is_al_f.
Qed.

Lemma G_lost junk c s : Inv (sync_patterns (fst c)) s -> s_fsm s <> FRAME_ALIGNED -> s_pats s = slots (fst c) (snd c) -> G junk c s.
Proof. intros I F P. split; [exact I|]. split; [intros Q; contradiction|]. split; [exact P|]. intros _. exact F. Qed.
Lemma Inv_idx0 p s : Inv p s -> Inv p (set_hist s (s_hist s) 0).
Proof.
  intros (A & B & C & D & E & F & H). pose proof C as (_ & X & _). unfold Inv. cbn [set_hist s_hist s_idx s_pats s_fsm].
  split; [exact A|]. split; [pose proof HIST_pos; lia|]. split; [exact C|]. split; [exact D|]. split; [exact E|]. split; [exact F|]. intros _. lia.
Qed.

(** what one pass does *)
Definition after (junk : nat -> nat -> bool) (cb : policy) (c0 : conf) (al : bool) (t : list ev) (s : sync) (r : bits)
  (x : list ev * sync * bits * bool) : Prop :=
  let '(t', s', rest, al') := x in
  Lp junk (setting c0 t') al' s' /\ (lengths_ok c0 t -> lengths_ok c0 t') /\ length rest <= length r /\
  (exists es, t' = t ++ es) /\
  (prompt cb -> al = is_aligned s -> (searching t <-> al = false) -> al' = is_aligned s' /\ (searching t' <-> al' = false)).

Lemma pass_wait junk cb c0 t s bit r : policy_ok cb -> Lp junk (setting c0 t) false s ->
  exists x, pass junk cb false t s bit r = Some x /\ after junk cb c0 false t s r x.
Proof.
  intros PO (Gs & F). pose proof Gs as (I & T & P & TM). unfold pass. rewrite wait_core by exact F.
  set (c := setting c0 t) in *.
  destruct (wait_ok junk _ s bit I F) as (s1 & o & E & I1 & P1 & S). rewrite E.
  destruct (wait_tail junk _ s bit s1 o I F E) as [(-> & _ & F1)|((f & ->) & _ & T1)].
  - eexists. split; [reflexivity|]. cbn [after]. split.
    { split; [|exact F1]. apply G_lost; [exact I1|exact F1|exact (eq_trans P1 P)]. }
    split; [easy|]. split; [lia|]. split; [exists []; now rewrite app_nil_r|]. intros _ _ SE. split; [|exact SE].
    symmetry. now apply is_al_f.
  - assert (LF : length f = frame_len (fst c)).
    { destruct (step_len _ _ _ _ _ _ (proj1 (proj2 (good_pat (fst c)))) S (view_inv _ _ I)) as (_ & Q).
      rewrite <- len_frame. apply Q. now left. }
    assert (A1 : s_fsm s1 = FRAME_ALIGNED).
    { unfold view_of in S. destruct (s_fsm s1); [|reflexivity|]; inversion S. }
    assert (TM1 : s_timer s1 = false).
    { unfold wait_step in E. destruct (rx_history_add_bit s bit) as [s0|]; [|discriminate E]. destruct (primary s0); [|discriminate E].
      destruct (correlate _ _ _) as [rc|]; [|discriminate E]. destruct (rc =? 0); [|exfalso; congruence].
      unfold state_chg in E. destruct (negb _); [exfalso; congruence|].
      unfold rx_history_align in E. destruct (primary _); [|discriminate E]. cbv zeta in E.
      destruct (forM _ _ _ _) as [h|]; [|discriminate E].
      match type of E with match ?x with _ => _ end = _ => destruct x; [|discriminate E] end.
      match type of E with match ?x with _ => _ end = _ => destruct x; [|discriminate E] end.
      match type of E with Some (?x, _) = _ => assert (s1 = x) as -> by congruence end. reflexivity. }
    destruct (notify_ok junk cb t s1 (Frame f) c0 PO (proj1 I1) (proj1 (proj2 I1))) as (s2 & E2 & H2 & X2 & _ & D).
    cbv zeta in *. rewrite E2. eexists. split; [reflexivity|]. cbn [after].
    assert (LEN : lengths_ok c0 t -> lengths_ok c0 (t ++ EOut (Frame f) :: map ESet (cb (t ++ [EOut (Frame f)])))).
    { intros L. apply lengths_app. split; [exact L|]. cbn [lengths_ok]. split; [exact LF|]. apply lengths_sets. }
    destruct D as [(C & ->)|(C & I2 & F2 & P2)].
    + rewrite C in *. cbn [map] in *. assert (SA : is_aligned s1 = true) by now apply is_al.
      rewrite SA. split.
      { rewrite setting_app. cbn [setting]. fold c. split.
        - split; [exact I1|]. split; [exact T1|]. split; [congruence|]. congruence.
        - rewrite <- len_frame. now apply I1. }
      split; [exact LEN|]. split; [lia|]. split; [eauto|]. intros _ _ _. split; [reflexivity|]. rewrite searching_snoc. split; [tauto|discriminate].
    + assert (SA : is_aligned s2 = false) by now apply is_al_f. rewrite SA. split.
      { split; [|exact F2]. now apply G_lost. }
      split; [exact LEN|]. split; [lia|]. split; [eauto|]. intros _ _ _. split; [reflexivity|].
      split; [reflexivity|]. intros _. now apply searching_sets.
Qed.

Lemma pass_aligned junk cb c0 t s bit r : policy_ok cb -> Lp junk (setting c0 t) true s ->
  exists x, pass junk cb true t s bit r = Some x /\ after junk cb c0 true t s r x.
Proof.
  intros PO (Gs & HA). pose proof Gs as (I & T & P & TM). unfold pass. rewrite aligned_core.
  set (c := setting c0 t) in *. rewrite <- len_frame in HA. set (p := sync_patterns (fst c)) in *.
  pose proof I as (Hh & Hi & Gd & _). pose proof Gd as (G1 & G2 & G3).
  destruct (Nat.lt_ge_cases (s_idx s + length (bit :: r)) (p_len p)) as [C|C].
  { rewrite (acore_short p s (bit :: r) I C). eexists. split; [reflexivity|]. cbn [after].
    split.
    { split; [|rewrite <- len_frame; exact C]. split.
      - pose proof I as (_ & _ & _ & H8 & HP & HQ & _). unfold Inv. cbn [set_hist s_hist s_idx s_pats s_fsm].
        split; [rewrite splice_length; lia|]. split; [lia|]. split; [exact Gd|]. split; [exact H8|]. split; [exact HP|]. split; [exact HQ|]. intros _. exact C.
      - split; [|split; [exact P|exact TM]]. intros Q. destruct (T Q) as (Q1 & Q2). cbn [set_hist s_aligns s_hist]. split; [exact Q1|].
        fold p in Q2. fold c. fold p. etransitivity; [|exact Q2]. apply splice_tail; lia. }
    split; [easy|]. split; [cbn; lia|]. split; [exists []; now rewrite app_nil_r|]. intros _ A SE. split; [|exact SE]. exact A. }
  destruct (acore_full p s (bit :: r) I HA C) as (s1 & o & E & L1 & T1 & P1 & F1 & M1 & A1 & O).
  rewrite E.
  assert (RL : length (skipn (p_len p - s_idx s) (bit :: r)) <= length r) by (rewrite skipn_length; cbn [length]; lia).
  destruct o as [f|].
  - destruct O as (X1 & LF). assert (LF0 : length f = frame_len (fst c)) by (rewrite <- len_frame; exact LF). clear LF. rename LF0 into LF.
    destruct (notify_ok junk cb t s1 (Frame f) c0 PO L1 ltac:(rewrite X1; exact G3)) as (s2 & E2 & H2 & X2 & _ & D).
    cbv zeta in *. rewrite E2. eexists. split; [reflexivity|]. cbn [after].
    assert (LEN : lengths_ok c0 t -> lengths_ok c0 (t ++ EOut (Frame f) :: map ESet (cb (t ++ [EOut (Frame f)])))).
    { intros L. apply lengths_app. split; [exact L|]. cbn [lengths_ok]. split; [exact LF|]. apply lengths_sets. }
    destruct D as [(CC & ->)|(CC & I2 & F2 & P2)].
    + rewrite CC in *. cbn [map] in *. split.
      { rewrite setting_app. cbn [setting]. fold c. split; [|rewrite <- len_frame; fold p; cbn [set_hist s_idx]; lia].
        split.
        - pose proof I as (_ & _ & _ & H8 & HP & HQ & _). unfold Inv. cbn [set_hist s_hist s_idx s_pats s_fsm]. fold p.
          rewrite P1. split; [exact L1|]. split; [lia|]. split; [exact Gd|]. split; [exact H8|]. split; [exact HP|]. split; [exact HQ|]. intros _. lia.
        - cbn [set_hist s_pats s_timer s_fsm]. split; [|split; [exact (eq_trans P1 P)|rewrite M1, F1; exact TM]].
          intros Q. cbn [set_hist s_fsm] in Q. rewrite F1 in Q. destruct (T Q) as (Q1 & Q2). cbn [set_hist s_aligns s_hist]. rewrite A1.
          split; [exact Q1|]. exact (eq_trans T1 Q2). }
      split; [exact LEN|]. split; [exact RL|]. split; [eauto|]. intros _ A _. split.
      * symmetry. apply is_al. cbn [set_hist s_fsm]. rewrite F1. now apply is_al.
      * rewrite searching_snoc. split; [tauto|discriminate].
    + split.
      { split.
        - apply G_lost; [now apply Inv_idx0|exact F2|exact P2].
        - cbn [set_hist s_idx]. rewrite <- len_frame. destruct (good_pat (fst (setting c0 (t ++ EOut (Frame f) :: map ESet (cb (t ++ [EOut (Frame f)])))))) as (_ & Q & _). lia. }
      split; [exact LEN|]. split; [exact RL|]. split; [eauto|]. intros PR _ SE. exfalso.
      destruct (PR t (Frame f) CC) as [Q|Q]; [discriminate Q|]. apply SE in Q. discriminate Q.
  - destruct (notify_ok junk cb t s1 Lost c0 PO L1 ltac:(lia)) as (s2 & E2 & H2 & X2 & _ & D).
    cbv zeta in *. rewrite E2.
    set (t' := t ++ EOut Lost :: map ESet (cb (t ++ [EOut Lost]))) in *.
    assert (CH : exists s3, state_chg_re junk cb t' s2 FRAME_ALIGNMENT_LOST true = Some (t', s3) /\ s_hist s3 = s_hist s2 /\ s_idx s3 = s_idx s2 /\ s_pats s3 = s_pats s2 /\ s_fsm s3 <> FRAME_ALIGNED).
    { unfold state_chg_re. destruct (s_fsm s2) eqn:Q; cbn [may_change negb]; eexists; (split; [reflexivity|]); cbn; rewrite ?Q; repeat split; congruence. }
    destruct CH as (s3 & E3 & H3 & X3 & P3 & F3). rewrite E3. eexists. split; [reflexivity|]. cbn [after].
    assert (SA : is_aligned s3 = false) by now apply is_al_f. rewrite SA.
    assert (I3 : Inv (sync_patterns (fst (setting c0 t'))) s3 /\ s_pats s3 = slots (fst (setting c0 t')) (snd (setting c0 t'))).
    { destruct D as [(CC & ->)|(CC & I2 & F2 & P2)].
      - assert (setting c0 t' = c) as -> by (unfold t'; rewrite CC, setting_app; reflexivity). fold p.
        pose proof I as (_ & _ & _ & H8 & HP & HQ & _). split; [|congruence]. unfold Inv.
        rewrite H3, X3, P3, P1, O. split; [exact L1|]. split; [lia|]. split; [exact Gd|]. split; [exact H8|]. split; [exact HP|]. split; [exact HQ|]. intros Q; contradiction.
      - split; [|congruence]. pose proof I2 as (B1 & B2 & B3 & B4 & B5 & B6 & _). unfold Inv. rewrite H3, X3, P3.
        split; [exact B1|]. split; [exact B2|]. split; [exact B3|]. split; [exact B4|]. split; [exact B5|]. split; [exact B6|]. intros Q; contradiction. }
    split; [split; [now apply G_lost|exact F3]|]. split.
    { intros L. apply lengths_app. split; [exact L|]. cbn [lengths_ok]. apply lengths_sets. }
    split; [exact RL|]. split; [eexists; reflexivity|]. intros _ _ _. split; [reflexivity|]. split; [reflexivity|]. intros _. unfold t'.
    destruct (cb (t ++ [EOut Lost])) as [|y l]; [now apply searching_snoc|]. now apply searching_sets.
Qed.

Lemma pass_ok junk cb c0 al t s bit r : policy_ok cb -> Lp junk (setting c0 t) al s ->
  exists x, pass junk cb al t s bit r = Some x /\ after junk cb c0 al t s r x.
Proof. destruct al; [apply pass_aligned|apply pass_wait]. Qed.

(** * A whole delivery *)
Lemma rx_ok junk cb c0 : policy_ok cb -> forall f al t s l, length l <= f -> Lp junk (setting c0 t) al s ->
  exists t' s', rx_re f junk cb al t s l = Some (t', s') /\ G junk (setting c0 t') s' /\
    (lengths_ok c0 t -> lengths_ok c0 t') /\ (exists es, t' = t ++ es) /\
    (prompt cb -> al = is_aligned s -> (searching t <-> al = false) -> (searching t' <-> is_aligned s' = false)).
Proof.
  intros PO. induction f as [|f IH]; intros al t s l HL L.
  - destruct l; [|cbn in HL; lia]. exists t, s. split; [reflexivity|]. split; [apply L|]. split; [easy|]. split; [exists []; now rewrite app_nil_r|].
    intros _ <- SE. exact SE.
  - destruct l as [|b r].
    { exists t, s. split; [reflexivity|]. split; [apply L|]. split; [easy|]. split; [exists []; now rewrite app_nil_r|]. intros _ <- SE. exact SE. }
    rewrite rx_re_pass. destruct (pass_ok junk cb c0 al t s b r PO L) as ((((t1 & s1) & rest) & al1) & E & L1 & K1 & R1 & (es & X1) & PR1).
    rewrite E. cbn [length] in HL. destruct (IH al1 t1 s1 rest ltac:(lia) L1) as (t2 & s2 & E2 & G2 & K2 & (es2 & X2) & PR2).
    exists t2, s2. split; [exact E2|]. split; [exact G2|]. split; [auto|]. split; [exists (es ++ es2); now rewrite X2, X1, app_assoc|].
    intros A B C. destruct (PR1 A B C) as (D & F). exact (PR2 A D F).
Qed.

Lemma pass_app junk cb c0 al t s b a r : policy_ok cb -> Lp junk (setting c0 t) al s ->
  (al = true -> frame_len (fst (setting c0 t)) <= s_idx s + length (b :: a)) ->
  pass junk cb al t s b (a ++ r) = do (t', s', rest, al') <- pass junk cb al t s b a; Some (t', s', rest ++ r, al').
Proof.
  intros PO L H. unfold pass. destruct al.
  2: { destruct (wait_step_re junk cb t s b) as [[[? ?] ?]|]; reflexivity. }
  specialize (H eq_refl). destruct L as ((I & _) & HA). rewrite <- len_frame in H, HA.
  rewrite !aligned_core. pose proof I as (Hh & Hi & Gd & _).
  assert (E : acore s (b :: a ++ r) = do (s1, o, r1) <- acore s (b :: a); Some (s1, o, r1 ++ r)).
  { unfold acore. rewrite (primary_inv _ s I). cbv zeta. change (b :: a ++ r) with ((b :: a) ++ r).
    set (x := b :: a) in *. clearbody x. set (n := p_len _ - s_idx s) in *.
    assert (Hn : n <= length x) by (unfold n; lia).
    assert ((length (x ++ r) <? n) = false) as -> by (apply Nat.ltb_ge; rewrite app_length; lia).
    assert ((length x <? n) = false) as -> by (apply Nat.ltb_ge; lia).
    rewrite firstn_app, skipn_app. replace (n - length x) with 0 by lia. rewrite firstn_O, app_nil_r, skipn_O.
    destruct (rx_history_add_bits s (firstn n x)) as [s1|]; [|reflexivity].
    destruct (correlate_all s1) as [rc|]; [|reflexivity]. destruct (_ && _); [reflexivity|]. destruct (slice _ _ _); reflexivity. }
  rewrite E. destruct (acore s (b :: a)) as [[[s1 o] r1]|] eqn:E0; [|reflexivity].
  destruct o as [[f|]|].
  - destruct (notify _ _ _ _ _) as [[? ?]|]; reflexivity.
  - destruct (notify _ _ _ _ _) as [[? ?]|]; [|reflexivity]. destruct (state_chg_re _ _ _ _ _ _) as [[? ?]|]; reflexivity.
  - (* a whole frame was there *)
    exfalso. destruct (acore_full _ s (b :: a) I HA H) as (? & ? & E2 & _). rewrite E2 in E0. discriminate E0.
Qed.

Lemma short_pass junk cb t s b a p : Inv p s -> s_idx s + length (b :: a) < p_len p ->
  pass junk cb true t s b a = Some (t, set_hist s (splice (s_hist s) (s_idx s) (b :: a)) (s_idx s + length (b :: a)), [], true).
Proof. intros I H. unfold pass. rewrite aligned_core, (acore_short p s (b :: a) I H). reflexivity. Qed.

Lemma rx_split junk cb c0 : policy_ok cb -> prompt cb -> forall n a b f1 f2 f3 t s,
  length (a ++ b) <= n -> length (a ++ b) <= f1 -> length a <= f2 -> length b <= f3 ->
  G junk (setting c0 t) s -> (searching t <-> is_aligned s = false) ->
  rx_re f1 junk cb (is_aligned s) t s (a ++ b) =
  do (t', s') <- rx_re f2 junk cb (is_aligned s) t s a; rx_re f3 junk cb (is_aligned s') t' s' b.
Proof.
  intros PO PR. induction n as [|n IH]; intros a b f1 f2 f3 t s HN H1 H2 H3 Gs SE.
  { rewrite app_length in HN. destruct a; [|cbn in HN; lia]. destruct b; [|cbn in HN; lia]. destruct f1, f2, f3; reflexivity. }
  destruct a as [|x a].
  - cbn [app]. assert (Z : rx_re f2 junk cb (is_aligned s) t s [] = Some (t, s)) by (destruct f2; reflexivity). rewrite Z.
    cbn [app] in *. destruct b as [|y b]; [destruct f1, f3; reflexivity|].
    destruct f1 as [|f1]; [cbn in H1; lia|]. destruct f3 as [|f3]; [cbn in H3; lia|]. rewrite !rx_re_pass.
    destruct (pass_ok junk cb c0 _ t s y b PO (Lp_start _ _ _ Gs)) as ((((t1 & s1) & rest) & al1) & E & L1 & _ & R1 & _ & Q).
    rewrite E. destruct (Q PR eq_refl SE) as (-> & SE1). cbn [length] in *.
    rewrite <- (app_nil_r rest).
    rewrite (IH rest [] f1 (length rest) 0 t1 s1) by (rewrite ?app_nil_r; cbn [length]; lia || assumption || apply L1).
    rewrite (IH rest [] f3 (length rest) 0 t1 s1) by (rewrite ?app_nil_r; cbn [length]; lia || assumption || apply L1). reflexivity.
  - change ((x :: a) ++ b) with (x :: a ++ b) in *. cbn [length] in H2. destruct f1 as [|f1]; [cbn in H1; lia|]. destruct f2 as [|f2]; [lia|].
    pose proof (Lp_start _ _ _ Gs) as Ls. rewrite (rx_re_pass f2).
    destruct (is_aligned s) eqn:AL.
    + destruct (Nat.lt_ge_cases (s_idx s + length (x :: a)) (frame_len (fst (setting c0 t)))) as [C|C].
      * (* the frame is not complete after [a] *)
        pose proof Gs as (I & _). rewrite <- len_frame in C.
        destruct (pass_ok junk cb c0 true t s x a PO Ls) as (y & E & AF).
        rewrite (short_pass junk cb t s x a _ I C) in E. rewrite (short_pass junk cb t s x a _ I C).
        set (s1 := set_hist s _ _) in *. assert (y = (t, s1, [], true)) as -> by congruence. cbn [after] in AF. destruct AF as (L1 & _ & _ & _ & Q).
        destruct (Q PR (eq_sym AL) SE) as (AL1 & SE1).
        assert (Z : rx_re f2 junk cb true t s1 [] = Some (t, s1)) by (destruct f2; reflexivity). rewrite Z. rewrite <- AL1.
        destruct b as [|z b].
        { rewrite app_nil_r, rx_re_pass, (short_pass junk cb t s x a _ I C). fold s1. destruct f1, f3; reflexivity. }
        destruct f3 as [|f3]; [cbn in H3; lia|]. rewrite !rx_re_pass.
        assert (PE : pass junk cb true t s x (a ++ z :: b) = pass junk cb true t s1 z b).
        { unfold pass. rewrite !aligned_core. change (x :: a ++ z :: b) with ((x :: a) ++ z :: b).
          rewrite (acore_split _ s (x :: a) (z :: b) I C). reflexivity. }
        rewrite PE.
        destruct (pass_ok junk cb c0 true t s1 z b PO L1) as ((((t2 & s2) & rest) & al2) & E2 & L2 & _ & R2 & _ & Q2).
        rewrite E2. destruct (Q2 PR AL1 SE1) as (-> & SE2). cbn [length] in *. rewrite app_length in *. cbn [length] in *.
        rewrite <- (app_nil_r rest).
        rewrite (IH rest [] f1 (length rest) 0 t2 s2) by (rewrite ?app_nil_r; cbn [length]; lia || assumption || apply L2).
        rewrite (IH rest [] f3 (length rest) 0 t2 s2) by (rewrite ?app_nil_r; cbn [length]; lia || assumption || apply L2). reflexivity.
      * rewrite rx_re_pass, (pass_app junk cb c0 true t s x a b PO Ls (fun _ => C)).
        destruct (pass_ok junk cb c0 true t s x a PO Ls) as ((((t1 & s1) & rest) & al1) & E & L1 & _ & R1 & _ & Q).
        rewrite E. destruct (Q PR (eq_sym AL) SE) as (-> & SE1). cbn [length] in *.
        assert (LE : length (rest ++ b) <= length (a ++ b)) by (rewrite !app_length; lia).
        apply IH; [lia|lia|lia|lia|apply L1|exact SE1].
    + rewrite rx_re_pass, (pass_app junk cb c0 false t s x a b PO Ls ltac:(discriminate)).
      destruct (pass_ok junk cb c0 false t s x a PO Ls) as ((((t1 & s1) & rest) & al1) & E & L1 & _ & R1 & _ & Q).
      rewrite E. destruct (Q PR (eq_sym AL) SE) as (-> & SE1). cbn [length] in *.
      assert (LE : length (rest ++ b) <= length (a ++ b)) by (rewrite !app_length; lia).
      apply IH; [lia|lia|lia|lia|apply L1|exact SE1].
Qed.

(** * A callback that asks for nothing *)
Lemma quiet_app cb t es : quiet cb t -> quiet cb (t ++ es).
Proof. intros Q x Hx. rewrite <- app_assoc. apply Q. destruct es; [exact Hx|discriminate]. Qed.
Lemma notify_quiet junk cb t s o : quiet cb t -> notify junk cb t s o = Some (t ++ [EOut o], s).
Proof. intros Q. unfold notify. rewrite (Q [EOut o]) by discriminate. reflexivity. Qed.

Definition old_pass (junk : nat -> nat -> bool) (s : sync) (bit : bool) (r : bits) : option (sync * list out * bits) :=
  match s_fsm s with
  | FRAME_ALIGNED => aligned_step junk s (bit :: r)
  | _ => do (s, o) <- wait_step junk s bit; Some (s, o, r)
  end.
Lemma pass_quiet junk cb c t s b r : quiet cb t -> G junk c s ->
  pass junk cb (is_aligned s) t s b r = do (s1, o, rest) <- old_pass junk s b r; Some (t ++ map EOut o, s1, rest, is_aligned s1).
Proof.
  intros Q Gs. pose proof Gs as (I & _). unfold pass, old_pass. destruct (is_aligned s) eqn:AL.
  - pose proof (proj1 (is_al s) AL) as F. rewrite F. rewrite aligned_core, aligned_core0.
    destruct (Lp_start _ _ _ Gs) as (_ & HA). rewrite AL, <- len_frame in HA.
    destruct (Nat.lt_ge_cases (s_idx s + length (b :: r)) (p_len (sync_patterns (fst c)))) as [C|C].
    + rewrite (acore_short _ s (b :: r) I C). cbn [map]. rewrite app_nil_r. do 2 f_equal. symmetry. now apply is_al.
    + destruct (acore_full _ s (b :: r) I HA C) as (s1 & o & E & _ & _ & _ & F1 & _). rewrite E.
      destruct o as [f|]; rewrite notify_quiet by exact Q.
      * cbn [map]. do 2 f_equal. symmetry. apply is_al. cbn. congruence.
      * unfold state_chg_re, state_chg. rewrite F1, F. cbn [may_change negb]. reflexivity.
  - apply is_al_f in AL. rewrite wait_core by exact AL.
    destruct (wait_ok junk _ s b I AL) as (s1 & o & E & _ & _ & S). 
    assert (match s_fsm s with FRAME_ALIGNED => aligned_step junk s (b :: r) | _ => do (s0, o0) <- wait_step junk s b; Some (s0, o0, r) end =
      do (s0, o0) <- wait_step junk s b; Some (s0, o0, r)) as -> by (destruct (s_fsm s); congruence).
    rewrite E. destruct (wait_tail junk _ s b s1 o I AL E) as [(-> & _ & F1)|((f & ->) & _ & _)].
    + cbn [map]. rewrite app_nil_r. do 2 f_equal. symmetry. now apply is_al_f.
    + rewrite notify_quiet by exact Q. reflexivity.
Qed.

Lemma old_rx f junk s b r : rx_bits (S f) junk s (b :: r) =
  do (s, o, rest) <- old_pass junk s b r; do (s, o') <- rx_bits f junk s rest; Some (s, o ++ o').
Proof. reflexivity. Qed.

Lemma rx_quiet junk cb c0 : policy_ok cb -> forall f t s l, length l <= f -> quiet cb t -> G junk (setting c0 t) s ->
  rx_re f junk cb (is_aligned s) t s l = do (s', o) <- rx_bits f junk s l; Some (t ++ map EOut o, s').
Proof.
  intros PO. induction f as [|f IH]; intros t s l HL Q Gs.
  - destruct l; [|cbn in HL; lia]. cbn. now rewrite app_nil_r.
  - destruct l as [|b r]; [cbn; now rewrite app_nil_r|]. rewrite rx_re_pass, old_rx.
    destruct (pass_ok junk cb c0 _ t s b r PO (Lp_start _ _ _ Gs)) as ((((t1 & s1) & rest) & al1) & E & L1 & _ & R1 & _).
    rewrite (pass_quiet junk cb _ t s b r Q Gs) in E. rewrite (pass_quiet junk cb _ t s b r Q Gs).
    destruct (old_pass junk s b r) as [[[s2 o] rest2]|]; [|discriminate E].
    assert (t1 = t ++ map EOut o /\ s1 = s2 /\ rest = rest2) as (-> & -> & ->) by (repeat split; congruence).
    cbn [length] in HL. rewrite IH; [|lia|now apply quiet_app|apply L1].
    destruct (rx_bits f junk s2 rest2) as [[s3 o3]|]; [|reflexivity]. now rewrite map_app, app_assoc.
Qed.

(** * Histories *)
Lemma uops_ok junk cb c0 : policy_ok cb -> forall ops t s, Forall uop_ok ops -> G junk (setting c0 t) s ->
  exists t' s', do_uops junk cb t s ops = Some (t', s') /\ G junk (setting c0 t') s' /\ (lengths_ok c0 t -> lengths_ok c0 t') /\
    (exists es, t' = t ++ es) /\
    (prompt cb -> (searching t <-> is_aligned s = false) -> (searching t' <-> is_aligned s' = false)).
Proof.
  intros PO. induction ops as [|o ops IH]; intros t s OK Gs.
  { exists t, s. split; [reflexivity|]. split; [exact Gs|]. split; [easy|]. split; [exists []; now rewrite app_nil_r|]. easy. }
  cbn [do_uops].
  assert (ST : exists t1 s1, do_uop junk cb t s o = Some (t1, s1) /\ G junk (setting c0 t1) s1 /\ (lengths_ok c0 t -> lengths_ok c0 t1) /\
    (exists es, t1 = t ++ es) /\ (prompt cb -> (searching t <-> is_aligned s = false) -> (searching t1 <-> is_aligned s1 = false))).
  { pose proof Gs as (I & T & P & TM). destruct o as [b|c|]; cbn [do_uop].
    - destruct (rx_ok junk cb c0 PO (length b) (is_aligned s) t s b (le_n _) (Lp_start _ _ _ Gs)) as (t1 & s1 & E & G1 & K & X & PR).
      exists t1, s1. split; [exact E|]. split; [exact G1|]. split; [exact K|]. split; [exact X|]. intros A B. now apply PR.
    - destruct (set_conf_ok junk s c (proj1 I) (proj1 (proj2 I)) (Forall_inv OK)) as (s1 & E & I1 & F1 & P1 & _). rewrite E.
      eexists _, _. split; [reflexivity|]. rewrite setting_app. cbn [setting]. split; [now apply G_lost|].
      split. { intros L. apply lengths_app. split; [exact L|exact Logic.I]. }
      split; [eexists; reflexivity|]. intros _ _. rewrite searching_snoc. split; [intros _; now apply is_al_f|tauto].
    - destruct (timeout_ok junk _ s I) as (s1 & E & I1). rewrite E. eexists _, _. split; [reflexivity|].
      assert (X : s1 = s \/ (s_fsm s <> FRAME_ALIGNED /\ s_fsm s1 <> FRAME_ALIGNED /\ s_pats s1 = s_pats s)).
      { unfold trau_sync_timeout in E. destruct (s_timer s) eqn:TS; [|left; congruence]. right. split; [now apply TM|].
        destruct (state_chg_wait junk (set_fsm s (s_fsm s) false) false) as (s2 & E2 & _ & _ & C & _ & F).
        assert (s1 = s2) as -> by congruence. split; [exact F|exact C]. }
      split. { destruct X as [->|(_ & F & C)]; [exact Gs|]. apply G_lost; [exact I1|exact F|congruence]. }
      split; [easy|]. split; [exists []; now rewrite app_nil_r|]. intros _ SE. destruct X as [->|(F0 & F & C)]; [exact SE|].
      apply is_al_f in F0, F. rewrite F. rewrite F0 in SE. exact SE. }
  destruct ST as (t1 & s1 & E & G1 & K1 & (e1 & X1) & R1). rewrite E.
  destruct (IH t1 s1 (Forall_inv_tail OK) G1) as (t2 & s2 & E2 & G2 & K2 & (e2 & X2) & R2).
  exists t2, s2. split; [exact E2|]. split; [exact G2|]. split; [auto|]. split; [exists (e1 ++ e2); now rewrite X2, X1, app_assoc|]. auto.
Qed.

Lemma alloc_G junk i : G junk (i, []) (osmo_trau_sync_alloc i).
Proof.
  split; [apply alloc_inv|]. split; [intros Q; discriminate Q|]. split; [symmetry; exact (slots_nil i)|]. discriminate.
Qed.
