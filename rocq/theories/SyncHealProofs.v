(** C85: what the synchroniser's window holds after a loss, and how it comes
    back.  Proofs; the statements are in SyncHealProps.v. *)
From Coq Require Import List Arith Lia Bool ZArith.
From Verif Require Import Base RtpSpec SyncModel SyncSpec SyncProofs SyncProps SyncHealSpec.
Import ListNotations.
Opaque HIST.

Definition Tail (junk : nat -> nat -> bool) (p : pattern) (s : sync) : Prop :=
  s_fsm s = FRAME_ALIGNED -> 1 <= s_aligns s /\
    skipn (p_len p) (s_hist s) = skipn (p_len p) (vec HIST (junk (s_aligns s - 1))).

(** one step of the view together with the number of times it aligned *)
Definition jstep (junk : nat -> nat -> bool) ps p (v : view) (n : nat) b o v' n' : Prop :=
  step ps p v b o v' /\
  n' = (match v, o with Searching _ _, _ :: _ => S n | _, _ => n end) /\
  (2 * p_len p <= HIST -> o = [Lost] -> exists e, v' = Searching (stale junk (p_len p) (n - 1)) e).
Inductive jsteps (junk : nat -> nat -> bool) ps p : view -> nat -> bits -> list out -> view -> nat -> Prop :=
| js_nil v n : jsteps junk ps p v n [] [] v n
| js_cons v n b o v' n' bs o' v'' n'' : jstep junk ps p v n b o v' n' -> jsteps junk ps p v' n' bs o' v'' n'' ->
    jsteps junk ps p v n (b :: bs) (o ++ o') v'' n''.

Lemma align_tail junk p s s' : length (s_hist s) = HIST -> p_len p < HIST -> primary s = Some p ->
  rx_history_align junk s = Some s' ->
  s_aligns s' = S (s_aligns s) /\ s_fsm s' = s_fsm s /\
  skipn (p_len p) (s_hist s') = skipn (p_len p) (vec HIST (junk (s_aligns s))).
Proof.
  intros Hh HL HP E. unfold rx_history_align in E. rewrite HP in E. pose proof HIST_pos.
  destruct (align_loop (s_hist s) (fun i => ((HIST + s_idx s - p_len p) mod HIST + i) mod HIST) (p_len p) 0
              (vec HIST (junk (s_aligns s))) Hh) as (t & Et & L & ET).
  { intros i. apply Nat.mod_upper_bound. lia. }
  { rewrite vec_length. lia. }
  cbv zeta in E. rewrite Et in E.
  assert (s' = mkSync t 0 (s_pats s) (s_err s) (s_fsm s) (s_timer s) (S (s_aligns s))) as -> by congruence.
  cbn [s_aligns s_hist s_fsm]. split; [reflexivity|]. split; [reflexivity|]. rewrite ET. unfold splice. cbn [firstn app].
  rewrite skipn_app, map_length, seq_length, Nat.sub_diag, skipn_O.
  rewrite skipn_all2 by (rewrite map_length, seq_length; lia). cbn [app]. f_equal.
Qed.

Lemma wait_tail junk p s b s' o : Inv p s -> s_fsm s <> FRAME_ALIGNED -> wait_step junk s b = Some (s', o) ->
  (o = [] /\ s_aligns s' = s_aligns s /\ s_fsm s' <> FRAME_ALIGNED) \/
  ((exists f, o = [Frame f]) /\ s_aligns s' = S (s_aligns s) /\ Tail junk p s').
Proof.
  intros I NF E. pose proof I as (Hh & Hi & G & H8 & HP & HQ & _). pose proof HIST_pos.
  pose proof G as (G1 & G2 & G3).
  unfold wait_step, rx_history_add_bit in E. rewrite put_splice in E by lia.
  set (s1 := set_hist s _ _) in *.
  assert (P1 : primary s1 = Some p) by exact (primary_inv p s I).
  assert (L1 : length (s_hist s1) = HIST) by (unfold s1; cbn; rewrite splice_length; cbn; lia).
  assert (A1 : s_aligns s1 = s_aligns s) by reflexivity.
  assert (F1 : s_fsm s1 = s_fsm s) by reflexivity.
  clearbody s1. rewrite P1 in E.
  destruct (correlate (s_hist s1) (s_idx s1) p) as [rc|]; [|discriminate E].
  destruct (rc =? 0).
  - right. unfold state_chg in E.
    assert (M : may_change (s_fsm s1) FRAME_ALIGNED = true) by (rewrite F1; destruct (s_fsm s); cbn; congruence).
    rewrite M in E. cbn [negb] in E.
    destruct (rx_history_align junk (set_fsm s1 FRAME_ALIGNED false)) as [s2|] eqn:EA; [|discriminate E].
    destruct (align_tail junk p (set_fsm s1 FRAME_ALIGNED false) s2 L1 G3 P1 EA) as (A2 & F2 & T2).
    cbn [set_fsm s_aligns s_fsm] in A2, F2, T2.
    destruct (primary s2) as [q|]; [|discriminate E].
    destruct (slice (s_hist s2) 0 (p_len q)) as [f|]; [|discriminate E].
    assert (s2 = s') as <- by congruence. assert (o = [Frame f]) as -> by congruence.
    split; [eauto|]. split; [congruence|]. intros _. rewrite A2. split; [lia|].
    replace (S (s_aligns s1) - 1) with (s_aligns s1) by lia. exact T2.
  - left. assert (s1 = s') as <- by congruence. split; [congruence|]. split; congruence.
Qed.

Lemma window_stale junk h L n : 0 < L -> 2 * L <= HIST -> length h = HIST ->
  skipn L h = skipn L (vec HIST (junk n)) -> window h 0 L = stale junk L n.
Proof.
  intros H0 HL Hh E. unfold window, stale.
  assert (SQ : seq (HIST - L) L = map (fun i => HIST - L + i) (seq 0 L)).
  { clear. replace (HIST - L) with (HIST - L + 0) at 1 by lia. generalize 0. generalize (HIST - L). clear. intros a.
    induction L as [|L IH]; intros z; cbn [seq map]; [reflexivity|]. f_equal. rewrite <- IH. f_equal. lia. }
  rewrite SQ, map_map. apply map_ext_in. intros i Hi. apply in_seq in Hi.
  replace (HIST + 0 - L + i) with (HIST - L + i) by lia. rewrite Nat.mod_small by lia.
  assert (N : nth_error h (HIST - L + i) = Some (junk n (HIST - L + i))).
  { replace (HIST - L + i) with (L + (HIST - L - L + i)) by lia. rewrite <- nth_error_skipn, E, nth_error_skipn.
    unfold vec. rewrite nth_error_map.
    replace (L + (HIST - L - L + i)) with (HIST - L + i) by lia.
    rewrite (nth_error_nth' _ 0) by (rewrite seq_length; lia). cbn [option_map]. now rewrite seq_nth by lia. }
  now apply nth_error_nth.
Qed.

Lemma aligned_tail junk p s b s' o r : Inv p s -> Tail junk p s -> s_fsm s = FRAME_ALIGNED ->
  aligned_step junk s [b] = Some (s', o, r) ->
  s_aligns s' = s_aligns s /\ Tail junk p s' /\
  (2 * p_len p <= HIST -> o = [Lost] -> exists e, view_of p s' = Searching (stale junk (p_len p) (s_aligns s - 1)) e).
Proof.
  intros I T F E. pose proof I as (Hh & Hi & G & H8 & HP & HQ & HA). pose proof G as (G1 & G2 & G3).
  specialize (HA F). pose proof HIST_pos as HPos.
  destruct (T F) as (T1 & T2).
  unfold aligned_step in E. rewrite (primary_inv p s I) in E.
  rewrite (add_bits_ok p s [b] I F) in E by (cbn; lia).
  assert (TL : skipn (p_len p) (splice (s_hist s) (s_idx s) [b]) = skipn (p_len p) (s_hist s)).
  { unfold splice. cbn [length]. rewrite skipn_app, firstn_length_le by lia.
    rewrite skipn_all2 by (rewrite firstn_length_le; lia). cbn [app].
    replace (p_len p - s_idx s) with (S (p_len p - s_idx s - 1)) by lia. cbn [skipn].
    rewrite skipn_skipn'. f_equal. lia. }
  cbn [length] in E.
  destruct (1 <? p_len p - s_idx s) eqn:C.
  { match type of E with Some (?x, _, _) = _ => assert (s' = x) as -> by congruence end.
    assert (o = []) as -> by congruence.
    split; [reflexivity|]. split; [|intros _; discriminate].
    intros _. cbn [set_hist s_hist s_aligns]. rewrite TL. split; assumption. }
  apply Nat.ltb_ge in C.
  replace (p_len p - s_idx s) with 1 in E by lia. cbn [firstn skipn] in E.
  rewrite (add_bits_ok p s [b] I F) in E by (cbn; lia).
  cbn [length] in E.
  set (s1 := set_hist s _ _) in *.
  assert (X : s_hist s1 = splice (s_hist s) (s_idx s) [b] /\ s_fsm s1 = s_fsm s /\ s_aligns s1 = s_aligns s) by (now repeat split).
  destruct X as (X1 & X2 & X3).
  assert (L1 : length (s_hist s1) = HIST) by (rewrite X1, splice_length; cbn; lia).
  clearbody s1.
  destruct (correlate_all s1) as [rc|]; [|discriminate E]. cbv zeta in E.
  set (s2 := if 0 <? rc then set_err s1 (inc32 (s_err s1)) else set_err s1 0%Z) in *.
  assert (Y : s_hist s2 = s_hist s1 /\ s_fsm s2 = s_fsm s1 /\ s_aligns s2 = s_aligns s1) by (unfold s2; destruct (0 <? rc); now repeat split).
  destruct Y as (Y1 & Y2 & Y3). clearbody s2.
  destruct ((0 <? rc) && (3 <=? s_err s2)%Z).
  - unfold state_chg in E. cbn [set_hist s_fsm] in E. rewrite Y2, X2, F in E. cbn [may_change negb] in E.
    match type of E with Some (?x, _, _) = _ => assert (s' = x) as -> by congruence end.
    cbn [set_fsm set_hist s_aligns s_hist]. split; [congruence|]. split.
    { intros Q. cbn [set_fsm set_hist s_fsm] in Q. discriminate Q. }
    intros H2 _. eexists. unfold view_of. cbn [set_fsm set_hist s_fsm s_hist s_idx]. f_equal.
    apply window_stale; [lia|lia|congruence|]. rewrite Y1, X1, TL. exact T2.
  - destruct (slice (s_hist s2) 0 (s_idx s2)) as [f|]; [|discriminate E].
    match type of E with Some (?x, _, _) = _ => assert (s' = x) as -> by congruence end.
    assert (o = [Frame f]) as -> by congruence.
    cbn [set_hist s_aligns]. split; [congruence|]. split; [|intros _; discriminate].
    intros _. cbn [set_hist s_hist s_aligns]. rewrite Y1, X1, TL, Y3, X3. split; assumption.
Qed.

Lemma bit_tail junk p s b : Inv p s -> Tail junk p s ->
  exists s' o, bit_step junk s b = Some (s', o) /\ Inv p s' /\ Tail junk p s' /\ s_pats s' = s_pats s /\
    jstep junk (s_pats s) p (view_of p s) (s_aligns s) b o (view_of p s') (s_aligns s').
Proof.
  intros I T. unfold bit_step. destruct (s_fsm s) eqn:F.
  2: { destruct (aligned_one junk p s b I F) as (s' & o & E & I' & P & S & _). rewrite E.
       destruct (aligned_tail junk p s b s' o [] I T F E) as (A & T' & LO).
       exists s', o. split; [reflexivity|]. split; [exact I'|]. split; [exact T'|]. split; [exact P|].
       split; [exact S|]. split; [|exact LO]. unfold view_of at 1. now rewrite F. }
  all: destruct (wait_ok junk p s b I ltac:(congruence)) as (s' & o & E & I' & P & S); rewrite E;
    exists s', o; split; [reflexivity|]; split; [exact I'|];
    destruct (wait_tail junk p s b s' o I ltac:(congruence) E) as [(-> & A & NA)|((f & ->) & A & T')];
    [split; [intros Q; contradiction|]|split; [exact T'|]]; (split; [exact P|]); (split; [exact S|]);
    (split; [|intros _; discriminate]); unfold view_of at 1; rewrite F; exact A.
Qed.

Lemma bits_tail junk p l : forall s, Inv p s -> Tail junk p s ->
  exists s' o, bit_steps junk s l = Some (s', o) /\ Inv p s' /\ Tail junk p s' /\ s_pats s' = s_pats s /\
    jsteps junk (s_pats s) p (view_of p s) (s_aligns s) l o (view_of p s') (s_aligns s').
Proof.
  induction l as [|b l IH]; intros s I T; cbn [bit_steps].
  - exists s, []. split; [reflexivity|]. split; [exact I|]. split; [exact T|]. split; [reflexivity|]. constructor.
  - destruct (bit_tail junk p s b I T) as (s1 & o1 & E1 & I1 & T1 & P1 & S1). rewrite E1.
    destruct (IH s1 I1 T1) as (s2 & o2 & E2 & I2 & T2 & P2 & S2). rewrite E2.
    exists s2, (o1 ++ o2). split; [reflexivity|]. split; [exact I2|]. split; [exact T2|]. split; [congruence|].
    econstructor; [exact S1|]. now rewrite P1 in S2.
Qed.

Lemma js_s junk ps p v n l o v' n' : jsteps junk ps p v n l o v' n' -> steps ps p v l o v'.
Proof. induction 1 as [|v n b o v' n' bs o' v'' n'' (S & _) _ IH]; [constructor|]. econstructor; eassumption. Qed.
Lemma js_app junk ps p a : forall v n b o v' n', jsteps junk ps p v n (a ++ b) o v' n' ->
  exists o1 v1 n1 o2, jsteps junk ps p v n a o1 v1 n1 /\ jsteps junk ps p v1 n1 b o2 v' n' /\ o = o1 ++ o2.
Proof.
  induction a as [|x a IH]; intros v n b o v' n' S; cbn [app] in S.
  - exists [], v, n, o. split; [constructor|]. now split.
  - inversion S as [|? ? ? o1 v1 n1 ? o2 ? ? S1 S2]; subst. destruct (IH _ _ _ _ _ _ S2) as (p1 & w & m & p2 & A & B & ->).
    exists (o1 ++ p1), w, m, p2. split; [econstructor; eassumption|]. split; [assumption|]. now rewrite app_assoc.
Qed.

Lemma Forall_tail {A} (P : A -> Prop) l m : Forall P l -> Forall P (skipn m l).
Proof. rewrite !Forall_forall. intros H x I. apply H. rewrite <- (firstn_skipn m l). apply in_or_app. now right. Qed.

Section Heal.
Variables (junk : nat -> nat -> bool) (ps : list (option pattern)) (p : pattern).
Hypothesis HL : 1 < p_len p.
Hypothesis H2 : 2 * p_len p <= HIST.
Hypothesis PIN : In (Some p) ps.
Hypothesis QUIET : forall n l, 0 < length l < p_len p -> ~ matches p (skipn (length l) (stale junk (p_len p) n) ++ l).
Variable fs : list (list bool).
Hypothesis FS : Forall (fun f => length f = p_len p /\ matches p f) fs.
Hypothesis CLEAN : forall k, k + p_len p <= length (concat fs) -> k mod p_len p <> 0 ->
  ~ matches_any ps (firstn (p_len p) (skipn k (concat fs))).

Lemma in_range e : (0 <= (e + 1) mod 2 ^ 32 < 2 ^ 32)%Z.
Proof. apply Z.mod_pos_bound. lia. Qed.

Lemma collect_js e n : forall l acc o v n', length acc + length l < p_len p ->
  jsteps junk ps p (Aligned acc e) n l o v n' -> o = [] /\ v = Aligned (acc ++ l) e /\ n' = n.
Proof.
  induction l as [|b l IH]; intros acc o v n' H S; cbn [length] in H.
  - inversion S; subst. now rewrite app_nil_r.
  - inversion S as [|? ? ? o1 v1 n1 ? o2 ? ? (S1 & N1 & _) S2]; subst. inversion S1; subst; try lia.
    apply IH in S2; [|rewrite app_length; cbn; lia]. destruct S2 as (-> & -> & ->). now rewrite <- app_assoc.
Qed.

Lemma cut_run acc e n l o v n' : length acc < p_len p -> length acc + length l = p_len p ->
  jsteps junk ps p (Aligned acc e) n l o v n' -> n' = n /\
  ((matches_any ps (acc ++ l) /\ o = [Frame (acc ++ l)] /\ v = Aligned [] 0) \/
   (~ matches_any ps (acc ++ l) /\ ((e + 1) mod 2 ^ 32 < 3)%Z /\ o = [Frame (acc ++ l)] /\ v = Aligned [] ((e + 1) mod 2 ^ 32)) \/
   (~ matches_any ps (acc ++ l) /\ (3 <= (e + 1) mod 2 ^ 32)%Z /\ o = [Lost] /\
      v = Searching (stale junk (p_len p) (n - 1)) ((e + 1) mod 2 ^ 32))).
Proof.
  intros HA HS S. assert (HN : l <> []) by (intros ->; cbn in HS; lia).
  destruct (exists_last HN) as (l' & b & ->). rewrite app_length in HS. cbn in HS.
  destruct (js_app _ _ _ _ _ _ _ _ _ _ S) as (o1 & v1 & n1 & o2 & A & B & ->).
  destruct (collect_js e n l' acc o1 v1 n1 ltac:(lia) A) as (-> & -> & ->). cbn [app] in *.
  inversion B as [|? ? ? q1 u m ? q2 ? ? (B1 & B2 & B3) B4]; subst. inversion B4; subst. rewrite app_nil_r.
  assert (LE : length (acc ++ l') = length acc + length l') by apply app_length.
  inversion B1; subst; try lia; rewrite <- ?app_assoc in *; (split; [reflexivity|]).
  - left. now repeat split.
  - right; left. now repeat split.
  - right; right. destruct (B3 H2 eq_refl) as (e' & E'). repeat split; try assumption. congruence.
Qed.

Lemma first_match : forall l w e n o v n', length w = p_len p -> jsteps junk ps p (Searching w e) n l o v n' ->
  (o = [] /\ forall k, 1 <= k <= length l -> ~ matches p (lastn (p_len p) (w ++ firstn k l))) \/
  (exists k o2, 1 <= k <= length l /\ matches p (lastn (p_len p) (w ++ firstn k l)) /\
     (forall k', 1 <= k' < k -> ~ matches p (lastn (p_len p) (w ++ firstn k' l))) /\
     o = Frame (lastn (p_len p) (w ++ firstn k l)) :: o2 /\
     jsteps junk ps p (Aligned [] e) (S n) (skipn k l) o2 v n').
Proof.
  induction l as [|b l IH]; intros w e n o v n' Hw S.
  { inversion S; subst. left. split; [reflexivity|]. intros k Hk. cbn in Hk. lia. }
  assert (ONE : forall x, lastn (p_len p) (w ++ b :: x) = lastn (p_len p) ((tl w ++ [b]) ++ x)).
  { intros x. unfold lastn. destruct w as [|a w]; [cbn in Hw; lia|]. cbn [tl].
    cbn [app length] in *. rewrite !app_length. cbn [length].
    replace (Datatypes.S (length w + Datatypes.S (length x)) - p_len p) with (Datatypes.S (length x)) by lia.
    replace (length w + 1 + length x - p_len p) with (length x) by lia. cbn [skipn].
    rewrite <- app_assoc. reflexivity. }
  assert (W : length (tl w ++ [b]) = p_len p).
  { rewrite app_length. cbn [length]. destruct w; cbn in *; lia. }
  assert (SELF : lastn (p_len p) ((tl w ++ [b]) ++ []) = tl w ++ [b]).
  { unfold lastn. rewrite app_nil_r, W, Nat.sub_diag. reflexivity. }
  inversion S as [|? ? ? o1 v1 n1 ? o2 ? ? (S1 & N1 & _) S2]; subst. inversion S1 as [? ? ? M|? ? ? M| | | |]; subst.
  - destruct (IH _ _ _ _ _ _ W S2) as [(-> & H)|(k & q & Hk & Mk & Bk & -> & R)].
    + left. split; [reflexivity|]. intros k Hk. destruct k as [|k]; [lia|]. cbn [firstn]. rewrite ONE.
      destruct k as [|k]; [cbn [firstn]; rewrite SELF; exact M|]. apply H. cbn [length] in Hk. lia.
    + right. exists (Datatypes.S k), q. cbn [firstn skipn length]. split; [lia|]. rewrite ONE. split; [exact Mk|]. split; [|split; [reflexivity|exact R]].
      intros k' Hk'. destruct k' as [|k']; [lia|]. cbn [firstn]. rewrite ONE.
      destruct k' as [|k']; [cbn [firstn]; rewrite SELF; exact M|]. apply Bk. lia.
  - right. exists 1, o2. cbn [firstn skipn length]. rewrite ONE, SELF. split; [lia|]. split; [exact M|].
    split; [intros k' Hk'; lia|]. split; [reflexivity|exact S2].
Qed.

(** positions in the concatenation *)
Lemma len_concat gs : Forall (fun f => length f = p_len p /\ matches p f) gs -> length (concat gs) = length gs * p_len p.
Proof.
  induction 1 as [|f gs (H & _) _ IH]; [reflexivity|]. cbn [concat length]. rewrite app_length, IH, H. reflexivity.
Qed.
Lemma skip_concat m : forall gs, Forall (fun f => length f = p_len p /\ matches p f) gs ->
  skipn (m * p_len p) (concat gs) = concat (skipn m gs).
Proof.
  induction m as [|m IH]; intros gs H; [reflexivity|]. destruct H as [|f gs (Lf & _) H]; [now rewrite !skipn_nil|].
  cbn [concat skipn Nat.mul]. rewrite skipn_app, Lf. rewrite skipn_all2 by lia. cbn [app].
  replace (p_len p + m * p_len p - p_len p) with (m * p_len p) by lia. now apply IH.
Qed.
Lemma skipn_cons m f gs : skipn m fs = f :: gs -> skipn (S m) fs = gs.
Proof. intros H. replace (S m) with (m + 1) by lia. rewrite <- skipn_skipn'. rewrite H. reflexivity. Qed.

Lemma good_any f : matches p f -> matches_any ps f.
Proof. intros M. exists p. now split. Qed.

Lemma good_run : forall gs e n o v n', Forall (fun f => length f = p_len p /\ matches p f) gs ->
  jsteps junk ps p (Aligned [] e) n (concat gs) o v n' -> o = map Frame gs /\ (gs <> [] -> v = Aligned [] 0).
Proof.
  induction gs as [|f gs IH]; intros e n o v n' H S; cbn [concat] in S.
  - inversion S; subst. now split.
  - inversion H as [|? ? [Lf Mf] H']; subst.
    destruct (js_app _ _ _ _ _ _ _ _ _ _ S) as (o1 & v1 & n1 & o2 & A & B & ->).
    destruct (cut_run [] e n f o1 v1 n1 ltac:(cbn; lia) ltac:(cbn; lia) A) as (-> & [(_ & -> & ->)|[(N & _)|(N & _)]]);
      try (exfalso; apply N, good_any; exact Mf).
    destruct (IH _ _ _ _ _ H' B) as (-> & V). split; [reflexivity|]. intros _.
    destruct gs as [|g gs]; [|apply V; discriminate]. cbn in B. inversion B; subst. reflexivity.
Qed.

Lemma at_k t k : t + k <= length (concat fs) -> p_len p <= k ->
  forall w, length w = p_len p ->
  lastn (p_len p) (w ++ firstn k (skipn t (concat fs))) = firstn (p_len p) (skipn (t + k - p_len p) (concat fs)).
Proof.
  intros H K w Hw. unfold lastn. rewrite app_length, firstn_length_le, Hw by (rewrite skipn_length; lia).
  replace (p_len p + k - p_len p) with k by lia. rewrite skipn_app, Hw.
  rewrite skipn_all2 by lia. cbn [app]. rewrite skipn_firstn_comm, skipn_skipn'.
  replace (k - (k - p_len p)) with (p_len p) by lia. f_equal. f_equal. lia.
Qed.

Definition okout (o : list out) (v : view) (m : nat) : Prop :=
  exists before, o = before ++ map Frame (skipn m fs) /\ (m + 2 <= length fs -> v = Aligned [] 0).

Lemma okout_wk o v m m' : m <= m' -> okout o v m -> okout o v m'.
Proof.
  intros H (b & -> & V). exists (b ++ map Frame (firstn (m' - m) (skipn m fs))). split.
  - rewrite <- app_assoc, <- map_app. f_equal. f_equal. rewrite <- (firstn_skipn (m' - m) (skipn m fs)) at 1.
    f_equal. rewrite skipn_skipn'. f_equal. lia.
  - intros K. apply V. lia.
Qed.
Lemma okout_app x o v m : okout o v m -> okout (x ++ o) v m.
Proof. intros (b & -> & V). exists (x ++ b). split; [now rewrite app_assoc|exact V]. Qed.

Lemma aligned_ok m e n o v n' : jsteps junk ps p (Aligned [] e) n (skipn (m * p_len p) (concat fs)) o v n' -> okout o v m.
Proof.
  intros S. rewrite skip_concat in S by exact FS.
  destruct (good_run _ _ _ _ _ _ (Forall_tail _ _ m FS) S) as (-> & V). exists []. split; [reflexivity|].
  intros K. apply V. intros E. apply (f_equal (@length (list bool))) in E. rewrite skipn_length in E. cbn [length] in E. lia.
Qed.

(** position [t] lies in the frame before boundary [m] *)
Lemma stale_ok m t n0 e n o v n' : m * p_len p < t + p_len p -> t <= m * p_len p ->
  jsteps junk ps p (Searching (stale junk (p_len p) n0) e) n (skipn t (concat fs)) o v n' -> okout o v m.
Proof.
  intros H1 HT S. pose proof (len_concat fs FS) as LC.
  assert (LS : length (stale junk (p_len p) n0) = p_len p) by (unfold stale; now rewrite map_length, seq_length).
  assert (KEY : forall k, 1 <= k <= length (skipn t (concat fs)) ->
    matches p (lastn (p_len p) (stale junk (p_len p) n0 ++ firstn k (skipn t (concat fs)))) -> (m + 1) * p_len p <= t + k).
  { intros k Hk M. rewrite skipn_length in Hk.
    destruct (Nat.lt_ge_cases k (p_len p)) as [C|C].
    - exfalso. revert M. unfold lastn.
      set (l := firstn k (skipn t (concat fs))).
      assert (Ll : length l = k) by (unfold l; rewrite firstn_length_le; [reflexivity|rewrite skipn_length; lia]).
      rewrite app_length, LS. replace (p_len p + length l - p_len p) with (length l) by lia.
      rewrite skipn_app, LS. replace (length l - p_len p) with 0 by lia. rewrite skipn_O. apply QUIET. lia.
    - rewrite at_k in M by (lia || exact LS).
      destruct (Nat.eq_dec ((t + k - p_len p) mod p_len p) 0) as [Z|Z].
      + apply Nat.mod_divides in Z; [|lia]. destruct Z as (q & Q).
        assert (t + k = (q + 1) * p_len p) by lia.
        assert (m <= q); [|nia]. apply Nat.lt_succ_r. apply (Nat.mul_lt_mono_pos_r (p_len p)); [lia|]. nia.
      + exfalso. apply (CLEAN (t + k - p_len p) ltac:(lia) Z). now apply good_any. }
  destruct (skipn m fs) as [|f gs] eqn:E.
  - assert (LE : length fs <= m). { apply (f_equal (@length (list bool))) in E. rewrite skipn_length in E. cbn [length] in E. lia. }
    destruct (first_match _ _ _ _ _ _ _ LS S) as [(-> & _)|(k & o2 & Hk & M & _)].
    + exists []. rewrite E. split; [reflexivity|]. lia.
    + exfalso. pose proof (KEY k Hk M). rewrite skipn_length in Hk. nia.
  - assert (LE : m < length fs). { apply (f_equal (@length (list bool))) in E. rewrite skipn_length in E. cbn [length] in E. lia. }
    assert (HK : (m + 1) * p_len p <= length (concat fs)) by nia.
    set (K := (m + 1) * p_len p - t).
    assert (KW : lastn (p_len p) (stale junk (p_len p) n0 ++ firstn K (skipn t (concat fs))) = f).
    { unfold K. rewrite at_k by (lia || exact LS). replace (t + ((m + 1) * p_len p - t) - p_len p) with (m * p_len p) by nia.
      rewrite skip_concat, E by exact FS. cbn [concat]. apply firstn_app_exact.
      assert (In f fs) as I by (rewrite <- (firstn_skipn m fs), E; apply in_or_app; right; now left).
      apply (proj1 (Forall_forall _ _) FS f I). }
    assert (KM : matches p f).
    { assert (In f fs) as I by (rewrite <- (firstn_skipn m fs), E; apply in_or_app; right; now left).
      apply (proj1 (Forall_forall _ _) FS f I). }
    assert (RK : 1 <= K <= length (skipn t (concat fs))) by (unfold K; rewrite skipn_length; nia).
    destruct (first_match _ _ _ _ _ _ _ LS S) as [(-> & NM)|(k & o2 & Hk & M & B & -> & R)].
    + exfalso. apply (NM K RK). now rewrite KW.
    + pose proof (KEY k Hk M) as G.
      assert (k = K) as ->.
      { destruct (Nat.lt_ge_cases K k) as [C|C]; [|unfold K in *; lia]. exfalso. apply (B K); [lia|]. now rewrite KW. }
      rewrite KW. rewrite skipn_skipn' in R.
      replace (t + K) with (Datatypes.S m * p_len p) in R by (unfold K; nia).
      replace (K + t) with (Datatypes.S m * p_len p) in R by (unfold K; nia).
      destruct (aligned_ok (Datatypes.S m) _ _ _ _ _ R) as (before & E2 & V).
      rewrite skip_concat in R by exact FS.
      destruct (good_run _ _ _ _ _ _ (Forall_tail _ _ (Datatypes.S m) FS) R) as (-> & V2).
      rewrite (skipn_cons _ _ _ E) in *. exists []. rewrite E. split; [reflexivity|].
      intros Q. apply V2. intros Z. apply (f_equal (@length (list bool))) in E. rewrite Z, skipn_length in E. cbn [length] in E. lia.
Qed.

(** bad frames left before the loss is declared *)
Definition left_ (e : Z) (q : nat) : Prop :=
  ((3 <= (e + 1) mod 2 ^ 32)%Z /\ q = 1) \/ (((e + 1) mod 2 ^ 32 < 3)%Z /\ (Z.of_nat q = 4 - (e + 1) mod 2 ^ 32)%Z).
Lemma left_any e : exists q, 1 <= q <= 4 /\ left_ e q.
Proof.
  pose proof (in_range e). destruct (Z.le_gt_cases 3 ((e + 1) mod 2 ^ 32)) as [C|C].
  - exists 1. split; [lia|]. now left.
  - exists (Z.to_nat (4 - (e + 1) mod 2 ^ 32)). split; [lia|]. right. split; lia.
Qed.

Lemma wrong_run q : forall e t n o v n', left_ e q -> t mod p_len p <> 0 ->
  jsteps junk ps p (Aligned [] e) n (skipn t (concat fs)) o v n' -> okout o v (t / p_len p + 1 + q).
Proof.
  induction q as [|q IH]; intros e t n o v n' Q T S.
  { destruct Q as [(_ & Q)|(Q & R)]; [lia|]. pose proof (in_range e). lia. }
  pose proof (len_concat fs FS) as LC.
  pose proof (Nat.div_mod t (p_len p) ltac:(lia)) as DM. pose proof (Nat.mod_upper_bound t (p_len p) ltac:(lia)) as MB.
  destruct (Nat.lt_ge_cases (length (skipn t (concat fs))) (p_len p)) as [C|C].
  { destruct (collect_js e n (skipn t (concat fs)) [] o v n' C S) as (-> & _). rewrite skipn_length in C.
    assert (length fs <= t / p_len p + 1) by nia.
    exists []. rewrite skipn_all2 by lia. split; [reflexivity|]. lia. }
  rewrite <- (firstn_skipn (p_len p) (skipn t (concat fs))) in S. rewrite skipn_skipn' in S.
  destruct (js_app _ _ _ _ _ _ _ _ _ _ S) as (o1 & v1 & n1 & o2 & A & B & ->).
  assert (TN : (t + p_len p) / p_len p = t / p_len p + 1).
  { rewrite <- (Nat.mul_1_l (p_len p)) at 1. rewrite Nat.div_add by lia. reflexivity. }
  assert (TM : (t + p_len p) mod p_len p = t mod p_len p).
  { rewrite <- (Nat.mul_1_l (p_len p)) at 1. rewrite Nat.mod_add by lia. reflexivity. }
  rewrite skipn_length in C.
  destruct (cut_run [] e n (firstn (p_len p) (skipn t (concat fs))) o1 v1 n1 ltac:(cbn; lia) ltac:(cbn [length]; rewrite firstn_length_le; [lia|rewrite skipn_length; lia]) A)
    as (-> & [(M & _)|[(_ & E3 & -> & ->)|(_ & E3 & -> & ->)]]).
  - exfalso. apply (CLEAN t ltac:(lia) T). exact M.
  - apply okout_app. replace (t / p_len p + 1 + Datatypes.S q) with ((t + p_len p) / p_len p + 1 + q) by lia.
    apply (IH ((e + 1) mod 2 ^ 32)%Z (t + p_len p) n o2 v n'); [|lia|exact B].
    destruct Q as [(Q & _)|(_ & Q)]; [lia|]. pose proof (in_range e).
    set (x := ((e + 1) mod 2 ^ 32)%Z) in *. unfold left_. rewrite (Z.mod_small (x + 1)) by lia.
    destruct (Z.le_gt_cases 3 (x + 1)) as [Y|Y]; [left|right]; lia.
  - apply okout_app. apply (okout_wk _ _ (t / p_len p + 2)); [lia|].
    apply (stale_ok _ (t + p_len p) (n - 1) ((e + 1) mod 2 ^ 32)%Z n o2 v n'); [nia|nia|].
    exact B.
Qed.

(** from any state whatsoever *)
Lemma heal v n o v' n' : view_ok (p_len p) v -> jsteps junk ps p v n (concat fs) o v' n' ->
  okout o v' 5.
Proof.
  intros V S. pose proof (len_concat fs FS) as LC.
  assert (NIL : length fs = 0 -> fs = []) by (destruct fs; [reflexivity|discriminate]).
  destruct v as [w e|acc e]; cbn [view_ok] in V.
  - destruct (first_match _ _ _ _ _ _ _ V S) as [(-> & NM)|(k & o2 & Hk & M & B & -> & R)].
    + assert (Z : length fs = 0).
      { destruct fs as [|f gs] eqn:E; [reflexivity|]. exfalso.
        inversion FS as [|? ? [Lf Mf] _]; subst. apply (NM (length f)).
        - cbn [concat]. rewrite app_length. lia.
        - cbn [concat]. rewrite firstn_app_exact by reflexivity.
          unfold lastn. rewrite app_length, V, Lf. replace (p_len p + p_len p - p_len p) with (p_len p) by lia.
          now rewrite <- V, skipn_app, Nat.sub_diag, skipn_all. }
      exists []. rewrite skipn_all2 by lia. split; [reflexivity|]. lia.
    + assert (KL : k <= p_len p).
      { destruct (Nat.le_gt_cases k (p_len p)) as [C|C]; [exact C|]. exfalso. apply (B (p_len p)); [lia|].
        rewrite (at_k 0 (p_len p)) by (lia || exact V). replace (0 + p_len p - p_len p) with 0 by lia.
        cbn [skipn]. destruct fs as [|f gs] eqn:E; [cbn in Hk; lia|].
        inversion FS as [|? ? [Lf Mf] _]; subst. cbn [concat]. now rewrite firstn_app_exact by exact Lf. }
      match goal with |- okout (?x :: o2) _ _ => change (x :: o2) with ([x] ++ o2) end. apply okout_app.
      destruct (Nat.eq_dec k (p_len p)) as [->|N].
      * apply (okout_wk _ _ 1); [lia|]. apply (aligned_ok 1 e (Datatypes.S n) o2 v' n'). now rewrite Nat.mul_1_l.
      * destruct (left_any e) as (q & Q1 & Q2).
        apply (okout_wk _ _ (k / p_len p + 1 + q)).
        { rewrite Nat.div_small by lia. lia. }
        apply (wrong_run q e k (Datatypes.S n) o2 v' n' Q2); [rewrite Nat.mod_small; lia|exact R].
  - destruct acc as [|a acc].
    { apply (okout_wk _ _ 0); [lia|]. apply (aligned_ok 0 e n o v' n'). exact S. }
    set (acc' := a :: acc) in *. assert (A1 : 1 <= length acc') by (cbn; lia). clearbody acc'.
    destruct (Nat.eq_dec (length fs) 0) as [Z|NZ].
    { rewrite (NIL Z) in S. cbn in S. inversion S; subst. exists []. rewrite skipn_all2 by lia. split; [reflexivity|]. lia. }
    set (k := p_len p - length acc').
    rewrite <- (firstn_skipn k (concat fs)) in S.
    destruct (js_app _ _ _ _ _ _ _ _ _ _ S) as (o1 & v1 & n1 & o2 & A & B & ->).
    apply okout_app.
    assert (KL : length (firstn k (concat fs)) = k) by (rewrite firstn_length_le; [reflexivity|unfold k; nia]).
    assert (KM : k mod p_len p <> 0) by (rewrite Nat.mod_small; unfold k; lia).
    assert (KD : k / p_len p = 0) by (apply Nat.div_small; unfold k; lia).
    destruct (cut_run acc' e n _ o1 v1 n1 V ltac:(rewrite KL; unfold k; lia) A)
      as (-> & [(_ & -> & ->)|[(_ & E3 & -> & ->)|(_ & E3 & -> & ->)]]).
    + apply (okout_wk _ _ (k / p_len p + 1 + 3)); [lia|].
      apply (wrong_run 3 0%Z k n o2 v' n'); [right; cbn; lia|exact KM|exact B].
    + pose proof (in_range e). set (x := ((e + 1) mod 2 ^ 32)%Z) in *.
      destruct (left_any x) as (q & Q1 & Q2).
      apply (okout_wk _ _ (k / p_len p + 1 + q)); [lia|].
      apply (wrong_run q x k n o2 v' n' Q2); [exact KM|exact B].
    + apply (okout_wk _ _ 1); [lia|].
      apply (stale_ok 1 k (n - 1) ((e + 1) mod 2 ^ 32)%Z n o2 v' n'); [unfold k; lia|unfold k; lia|exact B].
Qed.
End Heal.
