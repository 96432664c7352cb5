(** C85: the TRAU frame synchroniser recovers from any past. *)
From Coq Require Import List Arith Lia Bool ZArith.
From Verif Require Import Base RtpSpec SyncModel SyncSpec SyncProofs SyncProps SyncHealSpec SyncHealProofs.
Import ListNotations.
Opaque HIST.

Lemma tail_ops junk ops : forall i s, Inv (sync_patterns i) s -> Tail junk (sync_patterns i) s -> ops_ok i ops ->
  exists s' outs, do_ops junk s ops = Some (s', outs) /\ Inv (sync_patterns (final_pat i ops)) s' /\
    Tail junk (sync_patterns (final_pat i ops)) s' /\ s_pats s' = final_slots (s_pats s) ops.
Proof.
  induction ops as [|o ops IH]; intros i s I T OK; cbn [do_ops final_pat final_slots].
  { exists s, []. now repeat (split; [easy|]). }
  assert (STEP : forall j s1 x sl, do_op junk s o = Some (s1, x) -> Inv (sync_patterns j) s1 -> Tail junk (sync_patterns j) s1 ->
    ops_ok j ops -> s_pats s1 = sl ->
    exists s' outs, (do (s1, x) <- do_op junk s o; do (s2, xs) <- do_ops junk s1 ops; Some (s2, x :: xs)) = Some (s', outs) /\
      Inv (sync_patterns (final_pat j ops)) s' /\ Tail junk (sync_patterns (final_pat j ops)) s' /\
      s_pats s' = final_slots sl ops).
  { intros j s1 x sl E I1 T1 K <-. rewrite E. destruct (IH j s1 I1 T1 K) as (s2 & xs & E2 & I2 & T2 & P2). rewrite E2.
    exists s2, (x :: xs). now repeat (split; [easy|]). }
  destruct o as [b|j|j k|]; cbn [ops_ok] in OK.
  - destruct (bits_tail junk (sync_patterns i) b s I T) as (s1 & x & E & I1 & T1 & P1 & _).
    rewrite <- (rx_eq junk (sync_patterns i) s b I) in E.
    apply (STEP i s1 x _ E I1 T1 OK P1).
  - destruct (set_pat_ok junk _ s j I) as (s1 & E & I1 & _ & F & P).
    apply (STEP j s1 [] _ E I1); [intros Q; contradiction|exact OK|exact P].
  - destruct OK as (K1 & K2 & OK).
    destruct (set_sec_ok junk _ s j k I K1) as (s1 & E & I1 & _ & F & _ & _ & P); [now rewrite len_frame|].
    apply (STEP i s1 [] _ E I1); [intros Q; contradiction|exact OK|].
    rewrite P. unfold splice. cbn [length app]. now rewrite Nat.add_1_r.
  - destruct (timeout_ok junk _ s I) as (s1 & E & I1).
    assert (X : s_pats s1 = s_pats s /\ Tail junk (sync_patterns i) s1).
    { unfold trau_sync_timeout in E. destruct (s_timer s).
      - destruct (state_chg_wait junk (set_fsm s (s_fsm s) false) false) as (s2 & E2 & _ & _ & C & _ & F).
        assert (s1 = s2) as -> by congruence. split; [exact C|]. intros Q; contradiction.
      - assert (s1 = s) as -> by congruence. now split. }
    apply (STEP i s1 [] _ E I1); [apply X|exact OK|apply X].
Qed.

Lemma heal_ops junk i ops s o fs tail s' out : ops_ok i ops ->
  let j := final_pat i ops in let sl := slots_after i ops in
  frame_len j <= 640 -> harmless junk j -> clean j sl fs ->
  do_ops junk (osmo_trau_sync_alloc i) ops = Some (s, o) ->
  osmo_trau_sync_rx_ubits junk s (concat fs ++ tail) = Some (s', out) ->
  exists before o2 v v', out = before ++ map Frame (skipn 5 fs) ++ o2 /\
    steps sl (sync_patterns j) v tail o2 v' /\ (7 <= length fs -> v = Aligned [] 0).
Proof.
  intros OK j sl HF HH (CF & CW) E R.
  assert (T0 : Tail junk (sync_patterns i) (osmo_trau_sync_alloc i)) by (intros Q; discriminate Q).
  destruct (tail_ops junk ops i _ (alloc_inv i) T0 OK) as (s0 & o0 & E0 & I & T & P).
  assert (s0 = s) as -> by congruence. fold j in I, T.
  change (final_slots (s_pats (osmo_trau_sync_alloc i)) ops) with sl in P.
  rewrite (rx_eq junk _ s _ I) in R.
  destruct (bits_tail junk _ (concat fs ++ tail) s I T) as (s2 & o2 & E2 & _ & _ & _ & S).
  assert (out = o2) as -> by congruence. rewrite P in S.
  destruct (js_app _ _ _ _ _ _ _ _ _ _ S) as (oa & va & na & ob & A & B & ->).
  pose proof (good_pat j) as (_ & G2 & _).
  assert (PI : In (Some (sync_patterns j)) sl).
  { pose proof I as (_ & _ & _ & _ & H0 & _). rewrite P in H0. now apply nth_error_In in H0. }
  destruct (heal junk sl (sync_patterns j) G2) with (fs := fs) (v := view_of (sync_patterns j) s) (n := s_aligns s) (o := oa) (v' := va) (n' := na) as (before & -> & V).
  - rewrite HIST_v, len_frame. lia.
  - exact PI.
  - intros n l Hl. rewrite len_frame in Hl |- *. now apply HH.
  - eapply Forall_impl; [|exact CF]. cbn. intros f [X Y]. split; [now rewrite len_frame|exact Y].
  - rewrite len_frame. exact CW.
  - now apply view_inv.
  - exact A.
  - exists before, ob, va, (view_of (sync_patterns j) s2). split; [now rewrite <- app_assoc|].
    split; [exact (js_s _ _ _ _ _ _ _ _ _ B)|]. exact V.
Qed.

(** Whatever the synchroniser has been through (any bits in any portions,
    pattern changes, timer expiries, any error count), once a clean run of frames
    begins, every frame from the sixth at the latest is delivered, in order, once
    and intact; nothing else is delivered among them.  (Patterns of at most 640
    bits; stale memory that does not imitate the pattern.) *)
Theorem C85_resync : forall junk i ops s o fs s' out, ops_ok i ops ->
  frame_len (final_pat i ops) <= 640 -> harmless junk (final_pat i ops) ->
  clean (final_pat i ops) (slots_after i ops) fs ->
  do_ops junk (osmo_trau_sync_alloc i) ops = Some (s, o) ->
  osmo_trau_sync_rx_ubits junk s (concat fs) = Some (s', out) ->
  exists before, out = before ++ map Frame (skipn 5 fs).
Proof.
  intros junk i ops s o fs s' out OK HF HH C E R. rewrite <- (app_nil_r (concat fs)) in R.
  destruct (heal_ops junk i ops s o fs [] s' out OK HF HH C E R) as (before & o2 & v & v' & -> & S & _).
  inversion S; subst. exists before. now rewrite app_nil_r.
Qed.

(** After seven clean frames the past is forgotten altogether: any further frames
    are delivered, matching or not, as long as no three in a row match no
    pattern. *)
Theorem C85_resync_keeps : forall junk i ops s o fs gs s' out, ops_ok i ops ->
  frame_len (final_pat i ops) <= 640 -> harmless junk (final_pat i ops) ->
  clean (final_pat i ops) (slots_after i ops) fs -> 7 <= length fs ->
  Forall (fun g => length g = frame_len (final_pat i ops)) gs ->
  (forall a x y z b, gs = a ++ x :: y :: z :: b ->
     matches_any (slots_after i ops) x \/ matches_any (slots_after i ops) y \/ matches_any (slots_after i ops) z) ->
  do_ops junk (osmo_trau_sync_alloc i) ops = Some (s, o) ->
  osmo_trau_sync_rx_ubits junk s (concat fs ++ concat gs) = Some (s', out) ->
  exists before, out = before ++ map Frame (skipn 5 fs ++ gs).
Proof.
  intros junk i ops s o fs gs s' out OK HF HH C H7 LG K E R.
  destruct (heal_ops junk i ops s o fs (concat gs) s' out OK HF HH C E R) as (before & o2 & v & v' & -> & S & V).
  rewrite (V H7) in S.
  destruct (good_pat (final_pat i ops)) as (_ & G2 & _).
  destruct (keep_run (slots_after i ops) (sync_patterns (final_pat i ops)) G2 gs [] o2 v') as (-> & _); try assumption.
  - eapply Forall_impl; [|exact LG]. cbn. intros g ->. now rewrite len_frame.
  - constructor.
  - cbn. lia.
  - exists before. now rewrite map_app.
Qed.

(** memory holding ones is harmless for every pattern *)
Theorem C85_ones_harmless : forall junk i, (forall n k, junk n k = true) -> harmless junk i.
Proof.
  intros junk i H n l Hl M. apply first_zero in M.
  assert (E : stale junk (frame_len i) n = repeat true (frame_len i)).
  { unfold stale. generalize (HIST - frame_len i). generalize (frame_len i). intros L.
    induction L as [|L IH]; intros a; cbn [seq map repeat]; [reflexivity|]. now rewrite H, IH. }
  rewrite E in M. replace (frame_len i) with (length l + (frame_len i - length l)) in M by lia.
  rewrite repeat_app, skipn_app_exact in M by apply repeat_length.
  destruct (frame_len i - length l) as [|k] eqn:Q; [lia|]. cbn in M. discriminate M.
Qed.

(** * The stale memory matters *)
Lemma js_trans junk ps p a : forall v n b o1 v1 n1 o2 v2 n2, jsteps junk ps p v n a o1 v1 n1 ->
  jsteps junk ps p v1 n1 b o2 v2 n2 -> jsteps junk ps p v n (a ++ b) (o1 ++ o2) v2 n2.
Proof.
  induction a as [|x a IH]; intros v n b o1 v1 n1 o2 v2 n2 A B; inversion A; subst; cbn [app]; [exact B|].
  rewrite <- app_assoc. econstructor; [eassumption|]. eapply IH; eassumption.
Qed.
Definition p110 : pattern := sync_patterns PAT_V110.
Definition sl110 : list (option pattern) := slots_after PAT_V110 [].
(** an 80-bit word of ones with eight zeros at position [k] *)
Definition bait (k : nat) : bits := repeat true k ++ repeat false 8 ++ repeat true (72 - k).
Definition bad_stack (n a : nat) : bool :=
  nth (a - 1201) (bait (match n with 0 => 7 | _ => if Nat.even n then 15 else 65 end)) true.
Definition rot (k : nat) (f : bits) : bits := skipn k f ++ firstn k f.

Lemma stale_bait n : stale bad_stack 80 n = bait (match n with 0 => 7 | _ => if Nat.even n then 15 else 65 end).
Proof.
  unfold stale. rewrite HIST_v. change (1281 - 80) with 1201. unfold bad_stack.
  destruct n as [|n]; [vm_compute; reflexivity|]. destruct (Nat.even (S n)); vm_compute; reflexivity.
Qed.
Lemma good110 : good p110. Proof. apply good_pat. Qed.
Lemma any110 w : length w = 80 -> Nat.eqb (corr0 p110 w) 0 = false -> ~ matches_any sl110 w.
Proof.
  intros L E (q & I & M). apply (in_fresh q p110 7) in I. subst q.
  apply (corr0_matches p110 w good110 L) in M. rewrite M in E. discriminate E.
Qed.
Lemma no110 w : length w = 80 -> Nat.eqb (corr0 p110 w) 0 = false -> ~ matches p110 w.
Proof. intros L E M. apply (corr0_matches p110 w good110 L) in M. rewrite M in E. discriminate E. Qed.
Lemma yes110 w : length w = 80 -> Nat.eqb (corr0 p110 w) 0 = true -> matches p110 w.
Proof. intros L E. apply (corr0_matches p110 w good110 L). now apply Nat.eqb_eq. Qed.

Lemma bait_run w l e n o v n' : length w = 80 -> 1 <= length l ->
  forallb (fun k => negb (Nat.eqb (corr0 p110 (lastn 80 (w ++ firstn k l))) 0)) (seq 1 (length l - 1)) = true ->
  Nat.eqb (corr0 p110 (lastn 80 (w ++ l))) 0 = true ->
  jsteps bad_stack sl110 p110 (Searching w e) n l o v n' ->
  o = [Frame (lastn 80 (w ++ l))] /\ v = Aligned [] e /\ n' = S n.
Proof.
  intros Lw Ll NB Y J. pose proof good110 as (_ & G2 & _). assert (H2 : 2 * p_len p110 <= HIST) by (rewrite HIST_v; change (p_len p110) with 80; lia).
  assert (LL : forall k, k <= length l -> length (lastn 80 (w ++ firstn k l)) = 80).
  { intros k Hk. unfold lastn. rewrite skipn_length, app_length, Lw. lia. }
  destruct (first_match bad_stack sl110 p110 G2 H2 l w e n o v n' Lw J) as [(-> & NM)|(k & o2 & Hk & M & B & -> & R)].
  - exfalso. apply (NM (length l)); [lia|]. rewrite firstn_all. apply yes110; [|exact Y].
    pose proof (LL (length l)) as Q. rewrite firstn_all in Q. now apply Q.
  - assert (k = length l) as ->.
    { destruct (Nat.eq_dec k (length l)) as [E|N]; [exact E|]. exfalso. revert M. apply no110; [apply LL; lia|].
      rewrite forallb_forall in NB. specialize (NB k ltac:(apply in_seq; lia)). now apply negb_true_iff in NB. }
    rewrite skipn_all in R. inversion R; subst. rewrite firstn_all. now repeat (split; [easy|]).
Qed.

Inductive stuck : view -> nat -> Prop :=
| stuck_lost e n : Nat.even n = true -> 1 < n -> stuck (Searching (bait 65) e) n
| stuck_part e n : Nat.even n = false -> 1 < n -> stuck (Aligned (skipn 65 (rot 7 v110_good)) e) n
| stuck_wrong e n : Nat.even n = true -> 1 < n -> stuck (Aligned [] e) n.

Lemma stale_even n : Nat.even n = true -> 1 < n -> stale bad_stack 80 (n - 1) = bait 65.
Proof.
  intros E H. rewrite stale_bait. destruct n as [|[|n]]; [lia|lia|]. replace (S (S n) - 1) with (S n) by lia.
  rewrite Nat.even_succ, Nat.odd_succ in E. now rewrite Nat.even_succ, <- Nat.negb_even, E.
Qed.
Lemma stale_odd n : Nat.even n = false -> 1 < n -> stale bad_stack 80 (n - 1) = bait 15.
Proof.
  intros E H. rewrite stale_bait. destruct n as [|[|n]]; [lia|lia|]. replace (S (S n) - 1) with (S n) by lia.
  rewrite Nat.even_succ, Nat.odd_succ in E. now rewrite Nat.even_succ, <- Nat.negb_even, E.
Qed.
Lemma even_S n : Nat.even (S n) = negb (Nat.even n).
Proof. now rewrite Nat.even_succ, <- Nat.negb_even. Qed.

Lemma stuck_step v n o v' n' : stuck v n -> jsteps bad_stack sl110 p110 v n (rot 7 v110_good) o v' n' ->
  stuck v' n' /\ ~ In (Frame v110_good) o.
Proof.
  intros K J. pose proof good110 as (_ & G2 & _). assert (L80 : p_len p110 = 80) by reflexivity.
  assert (H2 : 2 * p_len p110 <= HIST) by (rewrite HIST_v, L80; lia).
  assert (SPL : rot 7 v110_good = firstn 65 (rot 7 v110_good) ++ skipn 65 (rot 7 v110_good)) by (symmetry; apply firstn_skipn).
  destruct K as [e n E H|e n E H|e n E H].
  - rewrite SPL in J. destruct (js_app _ _ _ _ _ _ _ _ _ _ J) as (o1 & v1 & n1 & o2 & A & B & ->).
    apply bait_run in A; [|reflexivity|vm_compute; lia|vm_compute; reflexivity|vm_compute; reflexivity].
    destruct A as (-> & -> & ->).
    apply collect_js in B; [|exact G2|exact H2|vm_compute; lia]. destruct B as (-> & -> & ->).
    split. { apply stuck_part; [rewrite even_S, E; reflexivity|lia]. }
    intros [Q|[]]. vm_compute in Q. discriminate Q.
  - rewrite SPL in J. destruct (js_app _ _ _ _ _ _ _ _ _ _ J) as (o1 & v1 & n1 & o2 & A & B & ->).
    apply cut_run in A; [|exact G2|exact H2|vm_compute; lia|vm_compute; reflexivity].
    destruct A as (-> & [(M & _)|[(_ & _ & -> & ->)|(_ & _ & -> & ->)]]).
    + exfalso. revert M. apply any110; vm_compute; reflexivity.
    + apply collect_js in B; [|exact G2|exact H2|vm_compute; lia]. destruct B as (-> & -> & ->).
      split; [now apply stuck_part|]. intros [Q|[]]. vm_compute in Q. discriminate Q.
    + rewrite L80, (stale_odd n E H) in B.
      apply bait_run in B; [|reflexivity|vm_compute; lia|vm_compute; reflexivity|vm_compute; reflexivity].
      destruct B as (-> & -> & ->).
      split. { apply stuck_wrong; [rewrite even_S, E; reflexivity|lia]. }
      intros [Q|[Q|[]]]; [discriminate Q|]. vm_compute in Q. discriminate Q.
  - apply cut_run in J; [|exact G2|exact H2|vm_compute; lia|vm_compute; reflexivity].
    destruct J as (-> & [(M & _)|[(_ & _ & -> & ->)|(_ & _ & -> & ->)]]).
    + exfalso. revert M. apply any110; vm_compute; reflexivity.
    + split; [now apply stuck_wrong|]. intros [Q|[]]. vm_compute in Q. discriminate Q.
    + rewrite L80, (stale_even n E H). split; [now apply stuck_lost|]. intros [Q|[]]. discriminate Q.
Qed.

Lemma stuck_run N : forall v n o v' n', stuck v n ->
  jsteps bad_stack sl110 p110 v n (concat (repeat (rot 7 v110_good) N)) o v' n' -> ~ In (Frame v110_good) o.
Proof.
  induction N as [|N IH]; intros v n o v' n' K J; cbn [repeat concat] in J.
  - inversion J; subst. intros [].
  - destruct (js_app _ _ _ _ _ _ _ _ _ _ J) as (o1 & v1 & n1 & o2 & A & B & ->).
    destruct (stuck_step _ _ _ _ _ K A) as (K1 & N1). intros Q. apply in_app_or in Q. destruct Q as [Q|Q]; [auto|].
    exact (IH _ _ _ _ _ K1 B Q).
Qed.

Lemma rotate_all (f : bits) k N : concat (repeat f N) ++ firstn k f = firstn k f ++ concat (repeat (rot k f) N).
Proof.
  induction N as [|N IH]; cbn [repeat concat app]; [now rewrite app_nil_r|].
  rewrite <- app_assoc, IH. unfold rot. rewrite !app_assoc. now rewrite firstn_skipn.
Qed.

Lemma window_repeat (f : bits) L N k : length f = L -> 0 < L -> k + L <= length (concat (repeat f N)) ->
  firstn L (skipn k (concat (repeat f N))) = rot (k mod L) f.
Proof.
  intros HL H0. revert k. induction N as [|N IH]; intros k H; cbn [repeat concat] in *.
  - cbn in H. lia.
  - rewrite app_length in H. destruct (Nat.lt_ge_cases k L) as [C|C].
    + rewrite Nat.mod_small by exact C. rewrite skipn_app. replace (k - length f) with 0 by lia. rewrite skipn_O.
      unfold rot. rewrite firstn_app, skipn_length, HL. rewrite firstn_all2 by (rewrite skipn_length; lia). f_equal.
      replace (L - (L - k)) with k by lia. destruct N as [|N].
      * cbn [repeat concat] in *. cbn [length] in H. replace k with 0 by lia. reflexivity.
      * cbn [repeat concat]. rewrite firstn_app. replace (k - length f) with 0 by lia. now rewrite firstn_O, app_nil_r.
    + rewrite skipn_app, HL. rewrite skipn_all2 by lia. cbn [app]. rewrite IH by lia. f_equal.
      replace k with (k - L + 1 * L) at 2 by lia. now rewrite Nat.mod_add by lia.
Qed.

Lemma clean110 N : clean PAT_V110 sl110 (repeat v110_good N).
Proof.
  split.
  - apply Forall_forall. intros f I. apply repeat_spec in I. subst f. split; [reflexivity|].
    apply yes110; [reflexivity|vm_compute; reflexivity].
  - intros k Hk HM. rewrite (window_repeat v110_good (frame_len PAT_V110)) by (reflexivity || exact Hk || (cbn; lia)).
    assert (B : k mod frame_len PAT_V110 < frame_len PAT_V110) by (apply Nat.mod_upper_bound; discriminate).
    set (r := k mod frame_len PAT_V110) in *. clearbody r. change (frame_len PAT_V110) with 80 in B.
    apply any110.
    + unfold rot. rewrite app_length, skipn_length, firstn_length_le by (change (length v110_good) with 80; lia).
      change (length v110_good) with 80. lia.
    + assert (F : forallb (fun r => negb (Nat.eqb (corr0 p110 (rot r v110_good)) 0)) (seq 1 79) = true) by (vm_compute; reflexivity).
      rewrite forallb_forall in F. specialize (F r ltac:(apply in_seq; lia)). now apply negb_true_iff in F.
Qed.

(** Refuted for arbitrary stale memory: after one disturbance (three bad frames) an
    unlucky content of the uninitialised array keeps the synchroniser out of step
    with a perfectly clean stream for ever: not one of its frames is delivered,
    however many arrive. *)
Theorem C85_stale_refuted : exists junk,
  (forall N, clean PAT_V110 (slots_after PAT_V110 []) (repeat v110_good N)) /\
  forall N, exists s' rest,
    osmo_trau_sync_rx_ubits junk (osmo_trau_sync_alloc PAT_V110)
      (v110_good ++ v110_bad ++ v110_bad ++ v110_bad ++ concat (repeat v110_good N)) =
      Some (s', [Frame v110_good; Frame v110_bad; Frame v110_bad; Lost] ++ rest) /\
    ~ In (Frame v110_good) rest.
Proof.
  exists bad_stack. split; [apply clean110|]. intros N.
  assert (I : Inv p110 (osmo_trau_sync_alloc PAT_V110)) by apply alloc_inv.
  assert (T0 : Tail bad_stack p110 (osmo_trau_sync_alloc PAT_V110)) by (intros Q; discriminate Q).
  replace (v110_good ++ v110_bad ++ v110_bad ++ v110_bad ++ concat (repeat v110_good N))
    with ((v110_good ++ v110_bad ++ v110_bad ++ v110_bad) ++ concat (repeat v110_good N)) by (now rewrite <- !app_assoc).
  pose proof good110 as (_ & G2 & _). assert (L80 : p_len p110 = 80) by reflexivity.
  assert (H2 : 2 * p_len p110 <= HIST) by (rewrite HIST_v, L80; lia).
  rewrite (rx_eq bad_stack p110 _ _ I).
  destruct (bits_tail bad_stack p110 ((v110_good ++ v110_bad ++ v110_bad ++ v110_bad) ++ concat (repeat v110_good N)) _ I T0)
    as (s1 & out1 & E1 & I1 & T1 & P1 & J).
  destruct (bits_tail bad_stack p110 (firstn 7 v110_good) s1 I1 T1) as (s3 & out3 & _ & _ & _ & _ & J3).
  rewrite E1. rewrite P1 in J3.
  change (s_pats (osmo_trau_sync_alloc PAT_V110)) with sl110 in J, J3.
  change (view_of p110 (osmo_trau_sync_alloc PAT_V110)) with (Searching (window (repeat true HIST) 0 80) 0) in J.
  change (s_aligns (osmo_trau_sync_alloc PAT_V110)) with 0 in J.
  rewrite window_ones in J.
  destruct (js_app _ _ _ _ _ _ _ _ _ _ J) as (oa & va & na & ob & A & B & ->). clear J.
  pose proof (js_trans _ _ _ _ _ _ _ _ _ _ _ _ _ B J3) as BJ. rewrite rotate_all in BJ.
  destruct (js_app _ _ _ _ _ _ _ _ _ _ A) as (x1 & v1 & n1 & y1 & A1 & A2 & ->).
  apply bait_run in A1; [|reflexivity|vm_compute; lia|vm_compute; reflexivity|vm_compute; reflexivity].
  destruct A1 as (-> & -> & ->).
  destruct (js_app _ _ _ _ _ _ _ _ _ _ A2) as (x2 & v2 & n2 & y2 & A3 & A4 & ->).
  apply cut_run in A3; [|exact G2|exact H2|vm_compute; lia|vm_compute; reflexivity].
  assert (NB : ~ matches_any sl110 ([] ++ v110_bad)) by (apply any110; vm_compute; reflexivity).
  destruct A3 as (-> & [(M & _)|[(_ & _ & -> & ->)|(_ & Q & _)]]); [contradiction| |vm_compute in Q; now destruct Q].
  destruct (js_app _ _ _ _ _ _ _ _ _ _ A4) as (x3 & v3 & n3 & y3 & A5 & A6 & ->).
  apply cut_run in A5; [|exact G2|exact H2|vm_compute; lia|vm_compute; reflexivity].
  destruct A5 as (-> & [(M & _)|[(_ & _ & -> & ->)|(_ & Q & _)]]); [contradiction| |vm_compute in Q; now destruct Q].
  apply cut_run in A6; [|exact G2|exact H2|vm_compute; lia|vm_compute; reflexivity].
  destruct A6 as (-> & [(M & _)|[(_ & Q & _)|(_ & _ & -> & ->)]]); [contradiction|vm_compute in Q; discriminate Q|].
  rewrite L80, stale_bait in BJ.
  destruct (js_app _ _ _ _ _ _ _ _ _ _ BJ) as (x4 & v4 & n4 & y4 & B1 & B2 & EO).
  apply bait_run in B1; [|reflexivity|vm_compute; lia|vm_compute; reflexivity|vm_compute; reflexivity].
  destruct B1 as (-> & -> & ->).
  match type of B2 with jsteps _ _ _ (Aligned [] ?e) _ _ _ _ _ =>
    pose proof (stuck_run N _ _ _ _ _ (stuck_wrong e 2 eq_refl ltac:(lia)) B2) as NI end.
  exists s1, ob. split.
  - reflexivity.
  - intros Q. assert (Q2 : In (Frame v110_good) (ob ++ out3)) by (apply in_or_app; now left).
    rewrite EO in Q2. apply in_app_or in Q2. destruct Q2 as [[Q2|[]]|Q2]; [|exact (NI Q2)].
    vm_compute in Q2. discriminate Q2.
Qed.

(** A history ending out of step (a false cut pending), pattern set twice and a
    timer expiry on the way, then clean frames: the hypotheses of C85_resync and
    C85_resync_keeps hold; here four frames are lost or misread and then all is well. *)
Definition ops85 : list op :=
  [SetPat PAT_16_FR_EFR; Rx [true; false; true]; SetPat PAT_V110; Rx (v110_good ++ repeat true 30); Timeout].
Theorem C85_example :
  ops_ok PAT_8_HR ops85 /\ final_pat PAT_8_HR ops85 = PAT_V110 /\
  slots_after PAT_8_HR ops85 = sl110 /\
  harmless (fun _ _ => true) PAT_V110 /\
  (forall N, clean PAT_V110 sl110 (repeat v110_good N)) /\
  exists s o s' a b, do_ops (fun _ _ => true) (osmo_trau_sync_alloc PAT_8_HR) ops85 = Some (s, o) /\
    osmo_trau_sync_rx_ubits (fun _ _ => true) s (concat (repeat v110_good 7)) =
      Some (s', [Frame a; Frame b; Lost] ++ map Frame (repeat v110_good 4)) /\
    a <> v110_good /\ b <> v110_good.
Proof.
  split; [vm_compute; exact Logic.I|]. split; [reflexivity|]. split; [reflexivity|].
  split; [apply C85_ones_harmless; reflexivity|]. split; [apply clean110|].
  eexists _, _, _, _, _. split; [vm_compute; reflexivity|]. split; [vm_compute; reflexivity|].
  split; vm_compute; intros Q; discriminate Q.
Qed.
