(** Proofs about the TRAU frame synchroniser. *)
From Coq Require Import List Arith Lia Bool ZArith.
From Verif Require Import Base RtpSpec SyncModel SyncSpec.
Import ListNotations.
Opaque HIST.

Definition good (p : pattern) : Prop :=
  length (p_mask p) = p_len p /\ 1 < p_len p /\ p_len p < HIST.
Definition Inv (p : pattern) (s : sync) : Prop :=
  length (s_hist s) = HIST /\ s_idx s < HIST /\ good p /\
  length (s_pats s) = 8 /\ nth_error (s_pats s) 0 = Some (Some p) /\
  (forall q, In (Some q) (s_pats s) -> good q /\ p_len q = p_len p) /\
  (s_fsm s = FRAME_ALIGNED -> s_idx s < p_len p).

Definition window (h : bits) (idx L : nat) : bits :=
  map (fun i => nth ((HIST + idx - L + i) mod HIST) h false) (seq 0 L).

Lemma HIST_pos : 0 < HIST. Proof. Transparent HIST. unfold HIST. Opaque HIST. lia. Qed.
Lemma HIST_v : HIST = 1281. Proof. Transparent HIST. reflexivity. Qed.
Opaque HIST.

Lemma window_length h i L : length (window h i L) = L.
Proof. unfold window. now rewrite map_length, seq_length. Qed.

Lemma nth_error_window h idx L i : i < L ->
  nth_error (window h idx L) i = Some (nth ((HIST + idx - L + i) mod HIST) h false).
Proof.
  intros H. unfold window. rewrite nth_error_map.
  rewrite (nth_error_nth' _ 0) by now rewrite seq_length. now rewrite seq_nth.
Qed.

Lemma get_nth (h : bits) i : i < length h -> get h i = Some (nth i h false).
Proof. intros. unfold get. now apply nth_error_nth'. Qed.

(** mismatch count *)
Fixpoint mism (m v w : bits) : nat :=
  match m, v, w with
  | a :: m, b :: v, c :: w => (if a then if Bool.eqb c b then 0 else 1 else 0) + mism m v w
  | _, _, _ => 0
  end.

Lemma mism_0 m v w : length m = length v -> length w = length v ->
  (mism m v w = 0 <-> forall i x, nth_error m i = Some true -> nth_error v i = Some x -> nth_error w i = Some x).
Proof.
  revert v w; induction m as [|a m IH]; intros [|b v] [|c w] H1 H2; cbn in *; try discriminate.
  - split; [|trivial]. intros _ [|i] x H; discriminate.
  - specialize (IH v w ltac:(lia) ltac:(lia)). split.
    + intros H [|i] x A B; cbn in *.
      * injection A as ->. injection B as ->. destruct (Bool.eqb c x) eqn:E; [|lia].
        apply eqb_prop in E. now subst.
      * apply IH; [lia|assumption..].
    + intros H. assert (mism m v w = 0) as -> by (apply IH; intros i x; apply (H (S i) x)).
      destruct a; [|reflexivity]. specialize (H 0 b eq_refl eq_refl). cbn in H. injection H as ->.
      now rewrite eqb_reflx.
Qed.

Lemma corr_loop h st m v : length m = length v -> length h = HIST -> forall n acc pm pv,
  let M := pm ++ m in let V := pv ++ v in
  length pm = n -> length pv = n ->
  forM (length v) n (fun i wrong =>
    let pos := (st + i) mod HIST in
    do mm <- get M i;
    if negb mm then Some wrong else
    do b <- get h pos;
    do vv <- get V i;
    Some (if Bool.eqb b vv then wrong else S wrong)) acc
  = Some (acc + mism m v (map (fun i => nth ((st + i) mod HIST) h false) (seq n (length v)))).
Proof.
  intros H Hh. pose proof HIST_pos. revert v H; induction m as [|a m IH]; intros [|b v] H1 n acc pm pv M V Hp Hv; cbn [length] in H1; try discriminate.
  { cbn. f_equal. lia. }
  cbn [length forM seq map mism].
  assert (get M n = Some a) as ->.
  { unfold get, M. rewrite nth_error_app2 by lia. now rewrite Hp, Nat.sub_diag. }
  assert (get V n = Some b) as ->.
  { unfold get, V. rewrite nth_error_app2 by lia. now rewrite Hv, Nat.sub_diag. }
  rewrite get_nth by (rewrite Hh; apply Nat.mod_upper_bound; lia).
  assert (EM : M = (pm ++ [a]) ++ m) by (unfold M; now rewrite <- app_assoc).
  assert (EV : V = (pv ++ [b]) ++ v) by (unfold V; now rewrite <- app_assoc).
  cbv zeta. destruct a; cbn [negb].
  - rewrite EM, EV, IH; [|lia|rewrite app_length; cbn; lia..].
    f_equal. destruct (Bool.eqb _ b); lia.
  - rewrite EM, EV, IH; [|lia|rewrite app_length; cbn; lia..].
    f_equal.
Qed.

Lemma correlate_window h idx p : length h = HIST -> good p ->
  correlate h idx p = Some (mism (p_mask p) (p_bits p) (window h idx (p_len p))).
Proof.
  intros Hh (G1 & G2 & G3). unfold correlate. destruct (Nat.ltb_spec HIST (p_len p)); [lia|].
  pose proof HIST_pos.
  pose proof (corr_loop h ((HIST + idx - p_len p) mod HIST) (p_mask p) (p_bits p) G1 Hh 0 0 [] [] eq_refl eq_refl) as E.
  cbn [app] in E. fold (p_len p) in E. rewrite E. cbn [Nat.add]. f_equal. f_equal.
  unfold window. apply map_ext. intros i. now rewrite Nat.add_mod_idemp_l by lia.
Qed.

Definition corr0 p w := mism (p_mask p) (p_bits p) w.
Lemma corr0_matches p w : good p -> length w = p_len p -> (corr0 p w = 0 <-> matches p w).
Proof. intros (G1 & _ & _) H. unfold corr0, matches. apply mism_0; assumption. Qed.

Lemma correlate_loop_0 h idx L ps best : length h = HIST -> 0 < best ->
  (forall q, In (Some q) ps -> good q /\ p_len q = L) ->
  exists n, correlate_loop h idx ps best = Some n /\ (n = 0 <-> matches_any ps (window h idx L)).
Proof.
  intros Hh. revert best; induction ps as [|[p|] ps IH]; intros best Hb Hg; cbn [correlate_loop].
  - exists best. split; [reflexivity|]. split; [lia|]. intros (p & [] & _).
  - destruct (Hg p (or_introl eq_refl)) as [Gp Lp].
    rewrite correlate_window by assumption. rewrite Lp.
    pose proof (corr0_matches p (window h idx L) Gp ltac:(rewrite window_length; lia)) as C.
    unfold corr0 in C. destruct (Nat.eqb_spec (mism (p_mask p) (p_bits p) (window h idx L)) 0) as [E|E].
    + exists 0. split; [reflexivity|]. split; [|reflexivity]. intros _. exists p. split; [now left|]. now apply C.
    + destruct (IH (if mism (p_mask p) (p_bits p) (window h idx L) <? best then mism (p_mask p) (p_bits p) (window h idx L) else best)) as (n & En & Hn).
      { destruct (_ <? _); lia. }
      { intros q Hq. apply Hg. now right. }
      exists n. split; [exact En|]. rewrite Hn. split.
      * intros (q & I & M). exists q. split; [now right|assumption].
      * intros (q & [I|I] & M); [|exists q; now split]. injection I as <-. exfalso. apply E. now apply C.
  - destruct (IH best Hb) as (n & En & Hn). { intros q Hq. apply Hg. now right. }
    exists n. split; [exact En|]. rewrite Hn. split.
    * intros (q & I & M). exists q. split; [now right|assumption].
    * intros (q & [I|I] & M); [discriminate|exists q; now split].
Qed.

Lemma nth_splice1 (h : bits) i j v : i < length h ->
  nth j (splice h i [v]) false = if j =? i then v else nth j h false.
Proof.
  intros H. unfold splice. cbn [app length].
  destruct (Nat.eqb_spec j i) as [->|N].
  - rewrite app_nth2; rewrite firstn_length_le by lia; [|lia]. now rewrite Nat.sub_diag.
  - destruct (Nat.lt_ge_cases j i).
    + rewrite app_nth1 by (rewrite firstn_length_le; lia).
      rewrite <- (firstn_skipn i h) at 2. rewrite app_nth1 by (rewrite firstn_length_le; lia). reflexivity.
    + rewrite app_nth2; rewrite firstn_length_le by lia; [|lia].
      destruct (j - i) as [|d] eqn:E; [lia|]. cbn [nth].
      rewrite <- (firstn_skipn (i + 1) h) at 2.
      rewrite app_nth2; rewrite firstn_length_le by lia; [|lia]. f_equal. lia.
Qed.

Lemma mod_sub a : HIST <= a < 2 * HIST -> a mod HIST = a - HIST.
Proof.
  intros. pose proof HIST_pos. replace a with ((a - HIST) + 1 * HIST) at 1 by lia.
  rewrite Nat.mod_add by lia. apply Nat.mod_small. lia.
Qed.

Lemma window_push h idx L b : length h = HIST -> idx < HIST -> 0 < L < HIST ->
  window (splice h idx [b]) ((idx + 1) mod HIST) L = tl (window h idx L) ++ [b].
Proof.
  intros Hh Hi HL. pose proof HIST_pos as HP.
  assert (TL : length (tl (window h idx L)) = L - 1).
  { pose proof (window_length h idx L). destruct (window h idx L); cbn in *; lia. }
  apply list_ext. intros i.
  destruct (Nat.lt_ge_cases i L) as [C|C].
  2: { rewrite (proj2 (nth_error_None _ _)) by (rewrite window_length; lia).
       symmetry. apply nth_error_None. rewrite app_length, TL. cbn. lia. }
  rewrite nth_error_window by assumption.
  assert (P : (HIST + (idx + 1) mod HIST - L + i) mod HIST = (HIST + idx - L + S i) mod HIST).
  { destruct (Nat.eq_dec (idx + 1) HIST) as [E|E].
    - rewrite E, Nat.mod_same by lia.
      replace (HIST + idx - L + S i) with (HIST + 0 - L + i + 1 * HIST) by lia.
      now rewrite Nat.mod_add by lia.
    - rewrite (Nat.mod_small (idx + 1)) by lia. f_equal. lia. }
  rewrite P, nth_splice1 by lia.
  assert (D : forall a, a < 2 * HIST -> a mod HIST = if a <? HIST then a else a - HIST).
  { intros a Ha. destruct (Nat.ltb_spec a HIST); [now apply Nat.mod_small|apply mod_sub; lia]. }
  destruct (Nat.eq_dec (S i) L) as [E|E].
  - rewrite nth_error_app2 by lia. rewrite TL. replace (i - (L - 1)) with 0 by lia. cbn [nth_error]. f_equal.
    rewrite D by lia. destruct (Nat.ltb_spec (HIST + idx - L + S i) HIST); [lia|].
    destruct (Nat.eqb_spec (HIST + idx - L + S i - HIST) idx); [reflexivity|lia].
  - rewrite nth_error_app1 by lia.
    assert (T : nth_error (tl (window h idx L)) i = nth_error (window h idx L) (S i)).
    { destruct (window h idx L); [now destruct i|reflexivity]. }
    rewrite T, nth_error_window by lia. f_equal.
    rewrite D by lia. destruct (Nat.ltb_spec (HIST + idx - L + S i) HIST).
    + destruct (Nat.eqb_spec (HIST + idx - L + S i) idx); [lia|reflexivity].
    + destruct (Nat.eqb_spec (HIST + idx - L + S i - HIST) idx); [lia|reflexivity].
Qed.

Lemma window_prefix h L : length h = HIST -> L < HIST -> window h L L = firstn L h.
Proof.
  intros Hh HL. pose proof HIST_pos. apply list_ext. intros i.
  destruct (Nat.lt_ge_cases i L) as [C|C].
  - rewrite nth_error_window, nth_error_firstn by assumption.
    replace (HIST + L - L + i) with (i + 1 * HIST) by lia. rewrite Nat.mod_add by lia.
    rewrite Nat.mod_small by lia. symmetry. apply nth_error_nth'. lia.
  - rewrite !(proj2 (nth_error_None _ _)); [reflexivity| |]; rewrite ?window_length, ?firstn_length; lia.
Qed.

(** rx_history_align: the window moves to the front *)
Lemma align_loop h (f : nat -> nat) L : forall n tmp, length h = HIST -> (forall i, f i < HIST) -> n + L <= length tmp ->
  exists tmp', forM L n (fun i tmp => do b <- get h (f i); put tmp i b) tmp = Some tmp' /\
    length tmp' = length tmp /\
    tmp' = splice tmp n (map (fun i => nth (f i) h false) (seq n L)).
Proof.
  induction L as [|L IH]; intros n tmp Hh Hf Hn; cbn [forM seq map].
  - exists tmp. split; [reflexivity|]. split; [reflexivity|]. now rewrite splice_nil.
  - rewrite get_nth by (rewrite Hh; apply Hf). rewrite put_splice by lia.
    destruct (IH (S n) (splice tmp n [nth (f n) h false]) Hh Hf) as (t & E & L1 & L2).
    { rewrite splice_length by (cbn; lia). lia. }
    exists t. split; [exact E|]. rewrite splice_length in L1 by (cbn; lia). split; [exact L1|].
    rewrite L2. rewrite splice_next; [reflexivity|cbn; lia|].
    rewrite map_length, seq_length. cbn. lia.
Qed.

Lemma primary_inv p s : Inv p s -> primary s = Some p.
Proof. intros (_ & _ & _ & _ & H & _). unfold primary, get. now rewrite H. Qed.

Lemma align_ok junk p s : length (s_hist s) = HIST -> good p -> primary s = Some p ->
  exists h, rx_history_align junk s = Some (mkSync h 0 (s_pats s) (s_err s) (s_fsm s) (s_timer s) (S (s_aligns s)))
    /\ length h = HIST /\ firstn (p_len p) h = window (s_hist s) (s_idx s) (p_len p).
Proof.
  intros Hh G HP. unfold rx_history_align. rewrite HP. pose proof HIST_pos. destruct G as (G1 & G2 & G3).
  destruct (align_loop (s_hist s) (fun i => ((HIST + s_idx s - p_len p) mod HIST + i) mod HIST) (p_len p) 0
              (vec HIST (junk (s_aligns s))) Hh) as (t & E & L & ET).
  { intros i. apply Nat.mod_upper_bound. lia. }
  { rewrite vec_length. lia. }
  exists t. cbv zeta. rewrite E. split; [reflexivity|]. split; [now rewrite L, vec_length|].
  rewrite ET. unfold splice. cbn [firstn app].
  rewrite firstn_app_exact by now rewrite map_length, seq_length.
  unfold window. apply map_ext. intros i. now rewrite Nat.add_mod_idemp_l by lia.
Qed.

(** the user's view of a state *)
Definition view_of (p : pattern) (s : sync) : view :=
  match s_fsm s with
  | FRAME_ALIGNED => Aligned (firstn (s_idx s) (s_hist s)) (s_err s)
  | _ => Searching (window (s_hist s) (s_idx s) (p_len p)) (s_err s)
  end.

(** one bit at a time *)
Definition bit_step (junk : nat -> nat -> bool) (s : sync) (b : bool) : option (sync * list out) :=
  match s_fsm s with
  | FRAME_ALIGNED => do (s, o, _) <- aligned_step junk s [b]; Some (s, o)
  | _ => wait_step junk s b
  end.
Fixpoint bit_steps (junk : nat -> nat -> bool) (s : sync) (l : bits) : option (sync * list out) :=
  match l with
  | [] => Some (s, [])
  | b :: r => do (s, o) <- bit_step junk s b; do (s, o') <- bit_steps junk s r; Some (s, o ++ o')
  end.

Lemma wait_ok junk p s b : Inv p s -> s_fsm s <> FRAME_ALIGNED ->
  exists s' o, wait_step junk s b = Some (s', o) /\ Inv p s' /\ s_pats s' = s_pats s /\
    step (s_pats s) p (view_of p s) b o (view_of p s').
Proof.
  intros I NF. pose proof I as (Hh & Hi & G & H8 & HP & HQ & _). pose proof HIST_pos.
  pose proof G as (G1 & G2 & G3).
  unfold wait_step, rx_history_add_bit. rewrite put_splice by lia.
  set (s1 := set_hist s _ _).
  assert (P1 : primary s1 = Some p) by exact (primary_inv p s I).
  rewrite P1.
  assert (L1 : length (s_hist s1) = HIST) by (unfold s1; cbn; rewrite splice_length; cbn; lia).
  assert (W1 : window (s_hist s1) (s_idx s1) (p_len p) = tl (window (s_hist s) (s_idx s) (p_len p)) ++ [b])
    by (apply window_push; lia).
  assert (I1 : s_idx s1 < HIST) by (cbn; apply Nat.mod_upper_bound; lia).
  rewrite correlate_window by assumption.
  pose proof (corr0_matches p (window (s_hist s1) (s_idx s1) (p_len p)) G ltac:(apply window_length)) as C.
  unfold corr0 in C.
  assert (VS : view_of p s = Searching (window (s_hist s) (s_idx s) (p_len p)) (s_err s))
    by (unfold view_of; destruct (s_fsm s); congruence).
  destruct (Nat.eqb_spec (mism (p_mask p) (p_bits p) (window (s_hist s1) (s_idx s1) (p_len p))) 0) as [E|E].
  - unfold state_chg.
    assert (M : may_change (s_fsm s1) FRAME_ALIGNED = true) by (change (s_fsm s1) with (s_fsm s); destruct (s_fsm s); cbn; congruence).
    rewrite M. cbn [negb].
    destruct (align_ok junk p (set_fsm s1 FRAME_ALIGNED false) L1 G P1) as (h & Ea & Lh & Fh).
    rewrite Ea. set (s2 := mkSync h _ _ _ _ _ _).
    assert (P2 : primary s2 = Some p) by exact P1. rewrite P2.
    rewrite slice_some by (cbn; lia). cbn [skipn].
    exists s2, [Frame (firstn (p_len p) h)]. split; [reflexivity|].
    split. { repeat split; cbn; try assumption; try lia; apply HQ; assumption. }
    split; [reflexivity|]. rewrite VS. cbn [view_of s_fsm s2 s_idx s_hist s_err firstn s1 set_hist set_fsm].
    rewrite Fh. cbn [s_hist s_idx set_fsm]. rewrite W1. apply st_found. rewrite <- W1. now apply C.
  - exists s1, []. split; [reflexivity|].
    split. { repeat split; try assumption; try lia; try (apply HQ; assumption). cbn. intros; congruence. }
    split; [reflexivity|]. rewrite VS.
    assert (view_of p s1 = Searching (tl (window (s_hist s) (s_idx s) (p_len p)) ++ [b]) (s_err s)) as ->.
    { unfold view_of. cbn [s_fsm s1 set_hist s_err]. rewrite <- W1. destruct (s_fsm s); [reflexivity|congruence|reflexivity]. }
    apply st_search. rewrite <- W1. intros M. apply E. now apply C.
Qed.

Lemma firstn_splice (h : bits) i x : i + length x <= length h ->
  firstn (i + length x) (splice h i x) = firstn i h ++ x.
Proof.
  intros. unfold splice. rewrite app_assoc. apply firstn_app_exact.
  rewrite app_length, firstn_length_le; lia.
Qed.

Lemma add_bits_ok p s b : Inv p s -> s_fsm s = FRAME_ALIGNED -> s_idx s + length b <= p_len p ->
  rx_history_add_bits s b = Some (set_hist s (splice (s_hist s) (s_idx s) b) (s_idx s + length b)).
Proof.
  intros I F HL. pose proof I as (Hh & Hi & G & _). destruct G as (_ & _ & G3).
  unfold rx_history_add_bits. rewrite (primary_inv p s I).
  assert (((s_idx s <=? p_len p) && (p_len p - s_idx s <? length b)) = false) as ->.
  { apply andb_false_intro2. apply Nat.ltb_ge. lia. }
  rewrite blit_splice by lia. reflexivity.
Qed.

Lemma aligned_short junk p s b : Inv p s -> s_fsm s = FRAME_ALIGNED -> s_idx s + length b < p_len p ->
  aligned_step junk s b = Some (set_hist s (splice (s_hist s) (s_idx s) b) (s_idx s + length b), [], []).
Proof.
  intros I F HL. unfold aligned_step. rewrite (primary_inv p s I).
  destruct (Nat.ltb_spec (length b) (p_len p - s_idx s)); [|lia].
  rewrite (add_bits_ok p) by (assumption || lia). reflexivity.
Qed.

Lemma inv_short p s b : Inv p s -> s_fsm s = FRAME_ALIGNED -> s_idx s + length b < p_len p ->
  Inv p (set_hist s (splice (s_hist s) (s_idx s) b) (s_idx s + length b)).
Proof.
  intros I F HL. pose proof I as (Hh & Hi & G & H8 & HP & HQ & HA). pose proof G as (G1 & G2 & G3).
  repeat split; cbn; try assumption; try lia; try (apply HQ; assumption).
  rewrite splice_length; lia.
Qed.

(** completing a frame: depends only on the first [remaining] bits *)
Lemma aligned_full junk s a r p : primary s = Some p -> length a = p_len p - s_idx s -> 
  aligned_step junk s (a ++ r) = do (s', o, _) <- aligned_step junk s a; Some (s', o, r).
Proof.
  intros P La. unfold aligned_step. rewrite P.
  destruct (Nat.ltb_spec (length (a ++ r)) (p_len p - s_idx s)); [rewrite app_length in *; lia|].
  destruct (Nat.ltb_spec (length a) (p_len p - s_idx s)); [lia|].
  rewrite firstn_app_exact, skipn_app_exact by assumption.
  rewrite firstn_all2, skipn_all2 by lia.
  destruct (rx_history_add_bits s a) as [s1|]; [|reflexivity].
  destruct (correlate_all s1) as [rc|]; [|reflexivity]. cbv zeta.
  destruct (_ && _).
  - destruct (state_chg _ _ _ _) as [[? ?]|]; reflexivity.
  - destruct (slice _ _ _); reflexivity.
Qed.

Lemma inc32_eq e : inc32 e = ((e + 1) mod 2 ^ 32)%Z.
Proof. reflexivity. Qed.

Lemma aligned_one junk p s b : Inv p s -> s_fsm s = FRAME_ALIGNED ->
  exists s' o, aligned_step junk s [b] = Some (s', o, []) /\ Inv p s' /\ s_pats s' = s_pats s /\
    step (s_pats s) p (view_of p s) b o (view_of p s') /\
    (s_idx s + 1 < p_len p -> s_fsm s' = FRAME_ALIGNED /\ o = []).
Proof.
  intros I F. pose proof I as (Hh & Hi & G & H8 & HP & HQ & HA). pose proof G as (G1 & G2 & G3).
  specialize (HA F). pose proof HIST_pos as HPos.
  assert (V : view_of p s = Aligned (firstn (s_idx s) (s_hist s)) (s_err s)) by (unfold view_of; now rewrite F).
  assert (LA : length (firstn (s_idx s) (s_hist s)) = s_idx s) by (rewrite firstn_length_le; lia).
  destruct (Nat.lt_ge_cases (s_idx s + 1) (p_len p)) as [C|C].
  { exists (set_hist s (splice (s_hist s) (s_idx s) [b]) (s_idx s + 1)), [].
    split; [apply (aligned_short junk p s [b]); assumption|].
    split; [apply (inv_short p s [b]); assumption|]. split; [reflexivity|].
    rewrite V.
    assert (view_of p (set_hist s (splice (s_hist s) (s_idx s) [b]) (s_idx s + 1))
            = Aligned (firstn (s_idx s) (s_hist s) ++ [b]) (s_err s)) as ->.
    { unfold view_of. cbn [s_fsm set_hist s_idx s_hist s_err]. rewrite F. f_equal.
      apply (firstn_splice (s_hist s) (s_idx s) [b]). cbn. lia. }
    split; [|intros _; split; [exact F|reflexivity]]. apply st_collect. lia. }
  assert (EL : s_idx s + 1 = p_len p) by lia.
  unfold aligned_step. rewrite (primary_inv p s I).
  replace (p_len p - s_idx s) with 1 by lia. change (length [b] <? 1) with false; cbv iota; change (firstn 1 [b]) with [b]; change (skipn 1 [b]) with (@nil bool).
  rewrite (add_bits_ok p s [b] I F) by (cbn; lia).
  set (s1 := set_hist s _ _).
  assert (L1 : length (s_hist s1) = HIST) by (cbn; rewrite splice_length; cbn; lia).
  assert (X1 : s_idx s1 = p_len p) by (cbn; lia).
  assert (FR : firstn (p_len p) (s_hist s1) = firstn (s_idx s) (s_hist s) ++ [b]).
  { rewrite <- EL. apply (firstn_splice (s_hist s) (s_idx s) [b]). cbn. lia. }
  destruct (correlate_loop_0 (s_hist s1) (s_idx s1) (p_len p) (s_pats s1) (160 * 8) L1) as (n & En & Hn).
  { lia. } { exact HQ. }
  unfold correlate_all. rewrite En. cbv zeta.
  rewrite X1, window_prefix, FR in Hn by (assumption || lia).
  change (s_pats s1) with (s_pats s) in Hn.
  assert (LS : S (length (firstn (s_idx s) (s_hist s))) = p_len p) by lia.
  assert (FIN : forall e, step (s_pats s) p (view_of p s) b [Frame (firstn (s_idx s) (s_hist s) ++ [b])] (Aligned [] e) ->
    exists s' o, (do f <- slice (s_hist (set_err s1 e)) 0 (s_idx (set_err s1 e));
                  Some (set_hist (set_err s1 e) (s_hist (set_err s1 e)) 0, [Frame f], @nil bool)) = Some (s', o, []) /\
      Inv p s' /\ s_pats s' = s_pats s /\ step (s_pats s) p (view_of p s) b o (view_of p s') /\
      (s_idx s + 1 < p_len p -> s_fsm s' = FRAME_ALIGNED /\ o = [])).
  { intros e ST. change (s_hist (set_err s1 e)) with (s_hist s1). change (s_idx (set_err s1 e)) with (s_idx s1).
    rewrite slice_some by lia. cbn [skipn]. rewrite X1, FR.
    eexists _, _. split; [reflexivity|].
    split. { repeat split; cbn -[s_hist s1]; try assumption; try lia; try (apply HQ; assumption). }
    split; [reflexivity|]. split; [|lia].
    match goal with |- step _ _ _ _ _ (view_of p ?x) => assert (view_of p x = Aligned [] e) as -> end.
    { unfold view_of. cbn. now rewrite F. }
    exact ST. }
  destruct (Nat.ltb_spec 0 n) as [N|N].
  - assert (NM : ~ matches_any (s_pats s) (firstn (s_idx s) (s_hist s) ++ [b])) by (intros M; apply Hn in M; lia).
    cbn [andb]. change (s_err (set_err s1 (inc32 (s_err s1)))) with (inc32 (s_err s)).
    destruct (Z.leb_spec 3 (inc32 (s_err s))) as [T|T].
    + unfold state_chg. change (s_fsm (set_hist (set_err s1 (inc32 (s_err s1))) (s_hist (set_err s1 (inc32 (s_err s1)))) 0)) with (s_fsm s). rewrite F. cbn [may_change negb].
      eexists _, _. split; [reflexivity|].
      split. { repeat split; cbn -[s_hist s1]; try assumption; try lia; try (apply HQ; assumption); try discriminate. }
      split; [reflexivity|]. split; [|lia]. rewrite V. unfold view_of.
      cbn [set_fsm set_hist set_err s_fsm s_hist s_idx s_err].
      rewrite inc32_eq in *. apply st_lost; [assumption..|]. apply window_length.
    + apply (FIN (inc32 (s_err s1))). rewrite V. rewrite inc32_eq in *.
      change (s_err s1) with (s_err s). apply st_bad; assumption.
  - cbn [andb]. apply (FIN 0%Z). rewrite V. apply st_good; [assumption|]. apply Hn. lia.
Qed.

Lemma bit_ok junk p s b : Inv p s ->
  exists s' o, bit_step junk s b = Some (s', o) /\ Inv p s' /\ s_pats s' = s_pats s /\
    step (s_pats s) p (view_of p s) b o (view_of p s').
Proof.
  intros I. unfold bit_step. destruct (s_fsm s) eqn:F.
  - apply wait_ok; congruence.
  - destruct (aligned_one junk p s b I F) as (s' & o & E & I' & P & S & _). rewrite E. eauto 10.
  - apply wait_ok; congruence.
Qed.

Lemma bits_ok junk p l : forall s, Inv p s ->
  exists s' o, bit_steps junk s l = Some (s', o) /\ Inv p s' /\ s_pats s' = s_pats s /\
    steps (s_pats s) p (view_of p s) l o (view_of p s').
Proof.
  induction l as [|b l IH]; intros s I; cbn [bit_steps].
  - exists s, []. split; [reflexivity|]. split; [exact I|]. split; [reflexivity|]. constructor.
  - destruct (bit_ok junk p s b I) as (s1 & o1 & E1 & I1 & P1 & S1). rewrite E1.
    destruct (IH s1 I1) as (s2 & o2 & E2 & I2 & P2 & S2). rewrite E2.
    exists s2, (o1 ++ o2). split; [reflexivity|]. split; [exact I2|]. split; [congruence|].
    econstructor; [exact S1|]. now rewrite P1 in S2.
Qed.

(** aligned_step on a longer buffer, before the frame is complete *)
Lemma aligned_split junk p s b r : Inv p s -> s_fsm s = FRAME_ALIGNED -> s_idx s + 1 < p_len p ->
  aligned_step junk s (b :: r) =
  aligned_step junk (set_hist s (splice (s_hist s) (s_idx s) [b]) (s_idx s + 1)) r.
Proof.
  intros I F C. pose proof I as (Hh & Hi & G & H8 & HP & HQ & HA). pose proof G as (G1 & G2 & G3).
  pose proof (inv_short p s [b] I F C) as I1. cbn [length] in I1.
  set (s1 := set_hist s _ _) in *.
  assert (F1 : s_fsm s1 = FRAME_ALIGNED) by exact F.
  assert (X1 : s_idx s1 = s_idx s + 1) by reflexivity.
  assert (ADD : forall x, s_idx s + S (length x) <= p_len p ->
     rx_history_add_bits s (b :: x) = rx_history_add_bits s1 x).
  { intros x Hx. rewrite (add_bits_ok p s (b :: x)) by (assumption || (cbn; lia)).
    rewrite (add_bits_ok p s1 x) by (assumption || lia). f_equal.
    unfold s1, set_hist; cbn [s_hist s_idx s_pats s_err s_fsm s_timer s_aligns length].
    rewrite splice_next by (cbn; lia). cbn [app]. f_equal. lia. }
  unfold aligned_step. rewrite (primary_inv p s I), (primary_inv p s1 I1), X1.
  destruct (Nat.ltb_spec (length (b :: r)) (p_len p - s_idx s)) as [A|A]; cbn [length] in A.
  - destruct (Nat.ltb_spec (length r) (p_len p - (s_idx s + 1))); [|lia]. rewrite ADD by lia. reflexivity.
  - destruct (Nat.ltb_spec (length r) (p_len p - (s_idx s + 1))); [lia|].
    replace (p_len p - s_idx s) with (S (p_len p - (s_idx s + 1))) by lia.
    cbn [firstn skipn]. rewrite ADD; [reflexivity|]. rewrite firstn_length. lia.
Qed.

Lemma rx_bits_eq junk p : forall n s l f, length l <= n -> length l <= f -> Inv p s ->
  rx_bits f junk s l = bit_steps junk s l.
Proof.
  induction n as [|n IH]; intros s [|b r] f Ln Lf I; cbn [length] in *; try lia.
  { now destruct f. } { now destruct f. }
  destruct f as [|f]; [lia|]. cbn [bit_steps].
  assert (D : {s_fsm s = FRAME_ALIGNED} + {s_fsm s <> FRAME_ALIGNED}).
  { destruct (s_fsm s); [right|left|right]; congruence. }
  destruct D as [F|F].
  - cbn [rx_bits]. rewrite F.
    assert (BS : bit_step junk s b = do (s, o, _) <- aligned_step junk s [b]; Some (s, o))
      by (unfold bit_step; now rewrite F).
    rewrite BS.
    destruct (aligned_one junk p s b I F) as (s1 & o1 & E1 & I1 & P1 & S1 & K).
    destruct (Nat.lt_ge_cases (s_idx s + 1) (p_len p)) as [C|C].
    + destruct (K C) as [F1 ->].
      pose proof (aligned_short junk p s [b] I F C) as A. rewrite E1 in A.
      assert (s1 = set_hist s (splice (s_hist s) (s_idx s) [b]) (s_idx s + 1)) as Es1 by (cbn [length] in A; congruence).
      rewrite E1.
      destruct r as [|c r].
      * rewrite E1. destruct f; reflexivity.
      * rewrite (aligned_split junk p s b (c :: r) I F C). rewrite <- Es1.
        rewrite <- (IH s1 (c :: r) (S f)) by (cbn [length] in *; assumption || lia).
        cbn [rx_bits]. rewrite F1.
        destruct (aligned_step junk s1 (c :: r)) as [[[s2 o2] rest]|]; [|reflexivity].
        destruct (rx_bits f junk s2 rest) as [[s3 o3]|]; reflexivity.
    + change (b :: r) with ([b] ++ r).
      pose proof I as (_ & _ & _ & _ & _ & _ & HA). specialize (HA F).
      rewrite (aligned_full junk s [b] r p (primary_inv p s I)) by (cbn; lia).
      rewrite E1. cbn [app]. rewrite (IH s1 r f) by (assumption || lia). reflexivity.
  - assert (BS : bit_step junk s b = wait_step junk s b) by (unfold bit_step; destruct (s_fsm s); congruence).
    rewrite BS. cbn [rx_bits].
    destruct (wait_ok junk p s b I F) as (s1 & o1 & E1 & I1 & P1 & S1).
    destruct (s_fsm s) eqn:FF; [|congruence|]; rewrite E1; rewrite (IH s1 r f) by (assumption || lia); reflexivity.
Qed.

Lemma rx_eq junk p s l : Inv p s -> osmo_trau_sync_rx_ubits junk s l = bit_steps junk s l.
Proof. intros I. apply (rx_bits_eq junk p (length l)); auto. Qed.

Lemma bit_steps_app junk a : forall s b, bit_steps junk s (a ++ b) =
  do (s1, o1) <- bit_steps junk s a; do (s2, o2) <- bit_steps junk s1 b; Some (s2, o1 ++ o2).
Proof.
  induction a as [|x a IH]; intros s b; cbn [app bit_steps].
  - destruct (bit_steps junk s b) as [[? ?]|]; reflexivity.
  - destruct (bit_step junk s x) as [[s1 o1]|]; [|reflexivity]. rewrite IH.
    destruct (bit_steps junk s1 a) as [[s2 o2]|]; [|reflexivity].
    destruct (bit_steps junk s2 b) as [[s3 o3]|]; [|reflexivity]. now rewrite app_assoc.
Qed.

(** initial states and reconfiguration *)
Lemma len_frame i : p_len (sync_patterns i) = frame_len i.
Proof. destruct i; vm_compute; reflexivity. Qed.
Lemma good_pat i : good (sync_patterns i).
Proof.
  unfold good. split; [destruct i; vm_compute; reflexivity|]. rewrite len_frame, HIST_v.
  split; apply Nat.ltb_lt; destruct i; vm_compute; reflexivity.
Qed.

Lemma in_fresh q p n : In (Some q) (Some p :: repeat (@None pattern) n) -> q = p.
Proof. intros [E|E]; [congruence|]. apply repeat_spec in E. discriminate. Qed.

Lemma alloc_inv i : Inv (sync_patterns i) (osmo_trau_sync_alloc i).
Proof.
  unfold Inv, osmo_trau_sync_alloc; cbn [s_hist s_idx s_pats s_err s_fsm].
  split; [apply repeat_length|]. split; [apply HIST_pos|]. split; [apply good_pat|].
  split; [reflexivity|]. split; [reflexivity|]. split; [|discriminate].
  intros q Hq. apply in_fresh in Hq. subst. split; [apply good_pat|reflexivity].
Qed.

Lemma state_chg_lost junk s t : exists s', state_chg junk s FRAME_ALIGNMENT_LOST t = Some (s', []) /\
  s_hist s' = s_hist s /\ s_idx s' = s_idx s /\ s_pats s' = s_pats s /\ s_err s' = s_err s /\ s_fsm s' <> FRAME_ALIGNED.
Proof.
  unfold state_chg. destruct (s_fsm s) eqn:F; cbn [may_change negb]; eexists; (split; [reflexivity|]); cbn; rewrite ?F; repeat split; congruence.
Qed.
Lemma state_chg_wait junk s t : exists s', state_chg junk s WAIT_FRAME_ALIGN t = Some (s', []) /\
  s_hist s' = s_hist s /\ s_idx s' = s_idx s /\ s_pats s' = s_pats s /\ s_err s' = s_err s /\ s_fsm s' <> FRAME_ALIGNED.
Proof.
  unfold state_chg. destruct (s_fsm s) eqn:F; cbn [may_change negb]; eexists; (split; [reflexivity|]); cbn; rewrite ?F; repeat split; congruence.
Qed.

Lemma set_pat_ok junk p s i : Inv p s -> exists s', osmo_trau_sync_set_pat junk s i = Some (s', []) /\
  Inv (sync_patterns i) s' /\ s_err s' = s_err s /\ s_fsm s' <> FRAME_ALIGNED /\ s_pats s' = Some (sync_patterns i) :: repeat None 7.
Proof.
  intros (Hh & Hi & _). unfold osmo_trau_sync_set_pat.
  destruct (state_chg_lost junk (set_pats s (Some (sync_patterns i) :: repeat None 7)) false) as (s' & E & A & B & C & D & F).
  exists s'. split; [exact E|]. cbn in A, B, C, D.
  split; [|split; [|split; [exact F|assumption]]; congruence].
  unfold Inv. rewrite A, B, C. split; [assumption|]. split; [assumption|]. split; [apply good_pat|].
  split; [reflexivity|]. split; [reflexivity|]. split; [|intros; contradiction].
  intros q Hq. apply (in_fresh q (sync_patterns i) 7) in Hq. subst. split; [apply good_pat|reflexivity].
Qed.

Lemma set_sec_ok junk p s i k : Inv p s -> 1 <= k <= 7 -> frame_len i = p_len p ->
  exists s', osmo_trau_sync_set_secondary_pat junk s i k = Some (s', []) /\ Inv p s' /\
   s_err s' = s_err s /\ s_fsm s' <> FRAME_ALIGNED /\ s_hist s' = s_hist s /\ s_idx s' = s_idx s /\
   s_pats s' = splice (s_pats s) k [Some (sync_patterns i)].
Proof.
  intros I Hk HL. pose proof I as (Hh & Hi & G & H8 & HP & HQ & _). unfold osmo_trau_sync_set_secondary_pat.
  assert ((0 <? k) && (k <? 8) = true) as -> by (apply andb_true_intro; split; apply Nat.ltb_lt; lia).
  rewrite (primary_inv p s I), len_frame, HL, Nat.eqb_refl. rewrite put_splice by lia.
  match goal with |- context [state_chg junk ?x _ _] => destruct (state_chg_lost junk x false) as (s' & E & A & B & C & D & F) end.
  exists s'. split; [exact E|]. cbn in A, B, C, D.
  split; [|split; [|split; [exact F|repeat split]]; congruence].
  unfold Inv. rewrite A, B, C. split; [assumption|]. split; [assumption|]. split; [assumption|].
  split; [rewrite splice_length by (cbn; lia); assumption|].
  split. { unfold splice. rewrite nth_error_app1 by (rewrite firstn_length_le; lia).
           rewrite nth_error_firstn by lia. exact HP. }
  split; [|intros; contradiction].
  intros q Hq. unfold splice in Hq. apply in_app_or in Hq. destruct Hq as [Hq|[Hq|Hq]].
  - apply HQ. rewrite <- (firstn_skipn k (s_pats s)). apply in_or_app. now left.
  - assert (q = sync_patterns i) as -> by congruence. split; [apply good_pat|]. now rewrite len_frame.
  - apply HQ. cbn [app] in Hq. rewrite <- (firstn_skipn (k + length [Some (sync_patterns i)]) (s_pats s)). apply in_or_app. now right.
Qed.

Lemma timeout_ok junk p s : Inv p s ->
  exists s', trau_sync_timeout junk s = Some (s', []) /\ Inv p s'.
Proof.
  intros I. unfold trau_sync_timeout. destruct (s_timer s); [|eauto].
  destruct (state_chg_wait junk (set_fsm s (s_fsm s) false) false) as (s' & E & A & B & C & D & F).
  exists s'. split; [exact E|]. cbn in A, B, C, D. unfold Inv in *. rewrite A, B, C. intuition.
Qed.

(** frames delivered by spec runs *)
Definition frames_len (L : nat) (o : list out) : Prop := forall f, In (Frame f) o -> length f = L.
Definition view_ok (L : nat) (v : view) : Prop :=
  match v with Searching w _ => length w = L | Aligned a _ => length a < L end.
Lemma step_len ps p v b o v' : 1 < p_len p -> step ps p v b o v' -> view_ok (p_len p) v ->
  view_ok (p_len p) v' /\ frames_len (p_len p) o.
Proof.
  assert (T : forall w, length w = p_len p -> 1 < p_len p -> length (tl w ++ [b]) = p_len p).
  { intros w. rewrite app_length. destruct w; cbn; lia. }
  intros G S H.
  assert (N : frames_len (p_len p) []) by (intros f []).
  assert (O : forall f, length f = p_len p -> frames_len (p_len p) [Frame f]) by (intros f Hf g [E|[]]; congruence).
  assert (Q : frames_len (p_len p) [Lost]) by (intros g [E|[]]; congruence).
  destruct S; cbn [view_ok] in *; (split; [|try assumption; try apply O]); try (apply T; assumption); try assumption;
    rewrite ?app_length; cbn [length]; lia.
Qed.
Lemma steps_len ps p v l o v' : 1 < p_len p -> steps ps p v l o v' -> view_ok (p_len p) v ->
  view_ok (p_len p) v' /\ frames_len (p_len p) o.
Proof.
  intros G S. induction S as [v|v b o v' bs o' v'' S1 S2 IH]; intros H.
  - split; [assumption|]. intros f [].
  - destruct (step_len _ _ _ _ _ _ G S1 H) as [A B]. destruct (IH A) as [C D]. split; [assumption|].
    intros f Hf. apply in_app_or in Hf. destruct Hf; auto.
Qed.
Lemma view_inv p s : Inv p s -> view_ok (p_len p) (view_of p s).
Proof.
  intros (Hh & Hi & G & H8 & HP & HQ & HA). unfold view_of.
  destruct (s_fsm s); cbn [view_ok]; [apply window_length| |apply window_length].
  specialize (HA eq_refl). rewrite firstn_length. lia.
Qed.
