(** C28-C30: properties of the TRAU frame synchroniser (trau_sync.c). *)
From Coq Require Import List Arith Lia Bool ZArith.
From Verif Require Import Base RtpSpec SyncModel SyncSpec SyncProofs.
Import ListNotations.
Opaque HIST.

(** * C28 *)
Lemma ops_inv junk ops : forall i s, Inv (sync_patterns i) s -> ops_ok i ops ->
  exists s' outs, do_ops junk s ops = Some (s', outs) /\
    Forall2 (fun id o => forall f, In (Frame f) o -> length f = frame_len id) (in_force i ops) outs /\
    (exists j, Inv (sync_patterns j) s').
Proof.
  induction ops as [|o ops IH]; intros i s I OK; cbn [do_ops in_force].
  { exists s, []. split; [reflexivity|]. split; [constructor|eauto]. }
  assert (STEP : forall j s1 x, do_op junk s o = Some (s1, x) -> Inv (sync_patterns j) s1 ->
    (forall f, In (Frame f) x -> length f = frame_len j) -> ops_ok j ops ->
    in_force i (o :: ops) = j :: in_force j ops ->
    exists s' outs, (do (s1, x) <- do_op junk s o; do (s2, xs) <- do_ops junk s1 ops; Some (s2, x :: xs)) = Some (s', outs) /\
    Forall2 (fun id o => forall f, In (Frame f) o -> length f = frame_len id) (in_force i (o :: ops)) outs /\
    (exists j, Inv (sync_patterns j) s')).
  { intros j s1 x E I1 F K Q. rewrite E. destruct (IH j s1 I1 K) as (s2 & xs & E2 & F2 & J). rewrite E2.
    exists s2, (x :: xs). split; [reflexivity|]. split; [|exact J]. rewrite Q. constructor; assumption. }
  assert (NIL : forall f L, In (Frame f) [] -> length f = L) by (intros f L []).
  destruct o as [b|j|j k|]; cbn [ops_ok] in OK.
  - destruct (bits_ok junk (sync_patterns i) b s I) as (s1 & x & E & I1 & P1 & S1).
    rewrite <- (rx_eq junk (sync_patterns i) s b I) in E.
    apply (STEP i s1 x E I1); [|exact OK|reflexivity].
    rewrite <- len_frame. apply (steps_len _ _ _ _ _ _ (proj1 (proj2 (good_pat i))) S1). now apply view_inv.
  - destruct (set_pat_ok junk _ s j I) as (s1 & E & I1 & _).
    apply (STEP j s1 [] E I1); [intros f []|exact OK|reflexivity].
  - destruct OK as (K1 & K2 & OK).
    destruct (set_sec_ok junk _ s j k I K1) as (s1 & E & I1 & _); [now rewrite len_frame|].
    apply (STEP i s1 [] E I1); [intros f []|exact OK|reflexivity].
  - destruct (timeout_ok junk _ s I) as (s1 & E & I1).
    apply (STEP i s1 [] E I1); [intros f []|exact OK|reflexivity].
Qed.

(** From allocation, through any sequence of bit deliveries of any size,
    pattern changes and timer expiries (and whatever the uninitialised stack
    bytes contain) no access leaves the history buffer, no assertion fires, and
    every frame delivered has the length of the primary pattern in force. *)
Theorem C28_sync_safe : forall junk i ops, ops_ok i ops ->
  exists s outs, do_ops junk (osmo_trau_sync_alloc i) ops = Some (s, outs) /\
    Forall2 (fun id o => forall f, In (Frame f) o -> length f = frame_len id) (in_force i ops) outs.
Proof.
  intros junk i ops OK. destruct (ops_inv junk ops i _ (alloc_inv i) OK) as (s & o & E & F & _). eauto.
Qed.

(** the precondition is exact: outside it set_secondary_pat aborts *)
Theorem C28_secondary_precondition : forall junk i j k,
  (exists r, osmo_trau_sync_set_secondary_pat junk (osmo_trau_sync_alloc i) j k = Some r) <->
  (1 <= k <= 7 /\ frame_len j = frame_len i).
Proof.
  intros junk i j k. split.
  - unfold osmo_trau_sync_set_secondary_pat. intros (r & H).
    destruct (Nat.ltb_spec 0 k); [|discriminate]. destruct (Nat.ltb_spec k 8); [|discriminate]. cbn [andb] in H.
    rewrite (primary_inv _ _ (alloc_inv i)) in H. rewrite !len_frame in H.
    destruct (Nat.eqb_spec (frame_len i) (frame_len j)); [|discriminate]. split; [lia|congruence].
  - intros [A B]. destruct (set_sec_ok junk _ _ j k (alloc_inv i) A) as (s & E & _); [now rewrite len_frame|]. eauto.
Qed.

Example C28_witness :
  ops_ok PAT_8_HR [Rx [true]; SetSecondary PAT_8_AMR_LOW 1; Rx (repeat false 400); Timeout; SetPat PAT_V110;
                   Rx (bits_of_octets ([0] ++ repeat 128 9)%Z)] /\
  exists s outs, do_ops (fun _ _ => true) (osmo_trau_sync_alloc PAT_8_HR)
    [Rx [true]; SetSecondary PAT_8_AMR_LOW 1; Rx (repeat false 400); Timeout; SetPat PAT_V110;
     Rx (bits_of_octets ([0] ++ repeat 128 9)%Z)] = Some (s, outs) /\
   outs = [[]; []; []; []; []; [Frame (bits_of_octets ([0] ++ repeat 128 9)%Z)]].
Proof.
  split; [cbn; lia|]. eexists _, _. split; [vm_compute; reflexivity|]. vm_compute. reflexivity.
Qed.

(** * C29 *)
(** In every reachable state, the way a bit stream is cut into deliveries does
    not matter: same deliveries, same state. *)
Theorem C29_chunking : forall junk i ops s outs chunks, ops_ok i ops ->
  do_ops junk (osmo_trau_sync_alloc i) ops = Some (s, outs) ->
  exists s' outs', do_ops junk s (map Rx chunks) = Some (s', outs') /\
    osmo_trau_sync_rx_ubits junk s (concat chunks) = Some (s', concat outs').
Proof.
  intros junk i ops s outs chunks OK H.
  destruct (ops_inv junk ops i _ (alloc_inv i) OK) as (s0 & o0 & E & _ & (j & I)).
  assert (s0 = s) by congruence. subst s0. clear E H OK. revert s I.
  induction chunks as [|c cs IH]; intros s I; cbn [map concat do_ops].
  - exists s, []. split; reflexivity.
  - cbn [do_op]. rewrite !(rx_eq junk _ s _ I).
    destruct (bits_ok junk _ c s I) as (s1 & o1 & E1 & I1 & _).
    destruct (IH s1 I1) as (s2 & o2 & E2 & E3). rewrite (rx_eq junk _ s1 _ I1) in E3.
    exists s2, (o1 :: o2). rewrite bit_steps_app, E1, E2, E3. split; reflexivity.
Qed.

(** * C30 *)
Definition lastn (n : nat) (l : bits) : bits := skipn (length l - n) l.

(** the pattern of slot [k] after allocation for [i] and the given
    set_secondary calls: the latest one for that slot *)
Fixpoint slot (i : pat_id) (secs : list (pat_id * nat)) (k : nat) : option pat_id :=
  match secs with
  | [] => if k =? 0 then Some i else None
  | (j, k') :: r => if (k' =? k) && negb (existsb (fun x => snd x =? k) r) then Some j else slot i r k
  end.
Definition slots (i : pat_id) (secs : list (pat_id * nat)) : list (option pattern) :=
  map (fun k => option_map sync_patterns (slot i secs k)) (seq 0 8).
Definition sec_op (x : pat_id * nat) : op := SetSecondary (fst x) (snd x).
Definition secs_ok (i : pat_id) (secs : list (pat_id * nat)) : Prop :=
  Forall (fun x => 1 <= snd x <= 7 /\ frame_len (fst x) = frame_len i) secs.

Lemma slot_snoc i secs j k : 1 <= k <= 7 -> slots i (secs ++ [(j, k)]) = splice (slots i secs) k [Some (sync_patterns j)].
Proof.
  intros Hk.
  assert (S : forall q, slot i (secs ++ [(j, k)]) q = if q =? k then Some j else slot i secs q).
  { intros q. induction secs as [|[j' k'] r IH]; cbn [app slot existsb fst snd negb].
    - cbn. rewrite andb_true_r, Nat.eqb_sym. reflexivity.
    - rewrite IH, existsb_app. cbn [existsb snd]. rewrite orb_false_r.
      destruct (Nat.eqb_spec q k) as [EQ|N].
      + rewrite EQ, Nat.eqb_refl, orb_true_r. cbn. now rewrite andb_false_r.
      + rewrite (proj2 (Nat.eqb_neq k q)) by lia. now rewrite orb_false_r. }
  unfold slots. rewrite (map_ext _ (fun q => if q =? k then Some (sync_patterns j) else option_map sync_patterns (slot i secs q))).
  2: { intros q. rewrite S. destruct (q =? k); reflexivity. }
  assert (C : k = 1 \/ k = 2 \/ k = 3 \/ k = 4 \/ k = 5 \/ k = 6 \/ k = 7) by lia.
  decompose [or] C; subst k; reflexivity.
Qed.

Lemma slots_nil i : slots i [] = Some (sync_patterns i) :: repeat None 7.
Proof. reflexivity. Qed.

Definition fresh (i : pat_id) (secs : list (pat_id * nat)) : sync :=
  mkSync (repeat true HIST) 0 (slots i secs) 0 WAIT_FRAME_ALIGN false 0.

Lemma fresh_inv junk i secs : secs_ok i secs ->
  (exists o, do_ops junk (osmo_trau_sync_alloc i) (map sec_op secs) = Some (fresh i secs, o)) /\
  Inv (sync_patterns i) (fresh i secs).
Proof.
  assert (OPS : forall a b s, do_ops junk s (a ++ b) =
     do (s1, o1) <- do_ops junk s a; do (s2, o2) <- do_ops junk s1 b; Some (s2, o1 ++ o2)).
  { induction a as [|x a IH]; intros b s; cbn [do_ops app].
    - destruct (do_ops junk s b) as [[? ?]|]; reflexivity.
    - destruct (do_op junk s x) as [[s1 o1]|]; [|reflexivity]. rewrite IH.
      destruct (do_ops junk s1 a) as [[s2 o2]|]; [|reflexivity].
      destruct (do_ops junk s2 b) as [[s3 o3]|]; reflexivity. }
  induction secs as [|[j k] secs IH] using rev_ind; intros H.
  { split; [eexists; reflexivity|]. apply alloc_inv. }
  apply Forall_app in H. destruct H as [H1 H2]. inversion H2 as [|? ? [K1 K2] _]; subst.
  destruct (IH H1) as [(o & E) I]. cbn [fst snd] in K1, K2.
  rewrite map_app, OPS, E. cbn [map do_ops sec_op fst snd do_op].
  destruct (set_sec_ok junk _ (fresh i secs) j k I K1) as (s' & E' & I' & _); [now rewrite len_frame|].
  assert (s' = fresh i (secs ++ [(j, k)])) as ->.
  { unfold osmo_trau_sync_set_secondary_pat in E'.
    destruct (andb _ _) eqn:Ek; [|discriminate]. rewrite (primary_inv _ _ I) in E'.
    destruct (p_len _ =? _); [|discriminate].
    assert (P8 : length (s_pats (fresh i secs)) = 8) by reflexivity.
    rewrite put_splice in E' by lia. cbn in E'. unfold fresh. rewrite slot_snoc by assumption.
    injection E' as <-. reflexivity. }
  rewrite E'. split; [eauto|assumption].
Qed.

(** window of a fresh history *)
Lemma window_ones idx L : window (repeat true HIST) idx L = repeat true L.
Proof.
  pose proof HIST_pos. apply list_ext. intros i.
  destruct (Nat.lt_ge_cases i L) as [C|C].
  - rewrite nth_error_window by assumption. rewrite nth_error_repeat by assumption. f_equal.
    assert (M : (HIST + idx - L + i) mod HIST < HIST) by (apply Nat.mod_upper_bound; lia).
    pose proof (nth_error_repeat true M) as R. now apply nth_error_nth.
  - rewrite !(proj2 (nth_error_None _ _)); [reflexivity| |]; rewrite ?window_length, ?repeat_length; lia.
Qed.

(** The synchroniser, fresh from allocation with any secondary patterns, behaves
    on every stream as the sliding-window specification [steps]: the initial
    window is all ones, only the primary pattern acquires, any pattern keeps. *)
Theorem C30_behaviour : forall junk i secs s o stream, secs_ok i secs ->
  do_ops junk (osmo_trau_sync_alloc i) (map sec_op secs) = Some (s, o) ->
  exists s' outs v, osmo_trau_sync_rx_ubits junk s stream = Some (s', outs) /\
    steps (slots i secs) (sync_patterns i) (Searching (repeat true (frame_len i)) 0) stream outs v.
Proof.
  intros junk i secs s o stream H E.
  destruct (fresh_inv junk i secs H) as [(o' & E') I]. assert (s = fresh i secs) by congruence. subst s.
  rewrite (rx_eq junk _ _ _ I).
  destruct (bits_ok junk _ stream _ I) as (s' & outs & Eo & _ & _ & S).
  exists s', outs, (view_of (sync_patterns i) s'). split; [exact Eo|].
  unfold view_of at 1 in S. cbn [fresh s_fsm s_hist s_idx s_err s_pats] in S.
  rewrite window_ones, len_frame in S. exact S.
Qed.

Section Runs.
Variables (ps : list (option pattern)) (p : pattern).
Hypothesis HL : 1 < p_len p.

Lemma steps_app_inv a : forall v b o v', steps ps p v (a ++ b) o v' ->
  exists o1 v1 o2, steps ps p v a o1 v1 /\ steps ps p v1 b o2 v' /\ o = o1 ++ o2.
Proof.
  induction a as [|x a IH]; intros v b o v' S; cbn [app] in S.
  - exists [], v, o. split; [constructor|]. now split.
  - inversion S as [|? ? o1 v1 ? o2 ? S1 S2]; subst. destruct (IH _ _ _ _ S2) as (p1 & w & p2 & A & B & ->).
    exists (o1 ++ p1), w, p2. split; [econstructor; eassumption|]. split; [assumption|]. now rewrite app_assoc.
Qed.

Lemma lastn_push L w (l : bits) b : length w = L -> 0 < L -> lastn L (w ++ l ++ [b]) = tl (lastn L (w ++ l)) ++ [b].
Proof.
  intros Hw HLL. unfold lastn. rewrite app_assoc.
  set (x := w ++ l). assert (Hx : L <= length x) by (unfold x; rewrite app_length; lia).
  rewrite app_length. cbn [length]. replace (length x + 1 - L) with (S (length x - L)) by lia.
  rewrite skipn_app. replace (S (length x - L) - length x) with 0 by lia. rewrite skipn_O.
  f_equal. generalize (length x - L). clearbody x. clear. intros n. revert x. induction n as [|n IH]; intros [|c x]; try reflexivity.
  apply (IH x).
Qed.

Lemma search_run w e : length w = p_len p -> forall l o v,
  (forall k, 1 <= k <= length l -> ~ matches p (lastn (p_len p) (w ++ firstn k l))) ->
  steps ps p (Searching w e) l o v -> o = [] /\ v = Searching (lastn (p_len p) (w ++ l)) e.
Proof.
  intros Hw l. induction l as [|b l IH] using rev_ind; intros o v N S.
  - inversion S; subst. split; [reflexivity|]. f_equal. unfold lastn. rewrite app_nil_r, Hw, Nat.sub_diag. reflexivity.
  - destruct (steps_app_inv _ _ _ _ _ S) as (o1 & v1 & o2 & A & B & ->).
    destruct (IH o1 v1) as [-> ->]; [|exact A|].
    { intros k Hk. specialize (N k). rewrite app_length in N. cbn in N.
      rewrite firstn_app in N. replace (k - length l) with 0 in N by lia. rewrite firstn_O, app_nil_r in N. apply N. lia. }
    specialize (N (length (l ++ [b]))). rewrite firstn_all in N.
    assert (NM : ~ matches p (lastn (p_len p) (w ++ l ++ [b]))) by (apply N; rewrite app_length; cbn; lia).
    rewrite lastn_push in NM by (assumption || lia).
    inversion B as [|? ? q1 u ? q2 ? B1 B2]; subst. inversion B2; subst.
    inversion B1; subst; [|contradiction]. split; [reflexivity|]. rewrite lastn_push by (assumption || lia). reflexivity.
Qed.

Lemma found_run w e l o v : length w = p_len p -> l <> [] ->
  (forall k, 1 <= k < length l -> ~ matches p (lastn (p_len p) (w ++ firstn k l))) ->
  matches p (lastn (p_len p) (w ++ l)) ->
  steps ps p (Searching w e) l o v -> o = [Frame (lastn (p_len p) (w ++ l))] /\ v = Aligned [] e.
Proof.
  intros Hw Hl N M S. destruct (exists_last Hl) as (l' & b & ->).
  destruct (steps_app_inv _ _ _ _ _ S) as (o1 & v1 & o2 & A & B & ->).
  destruct (search_run w e Hw l' o1 v1) as [-> ->]; [|exact A|].
  { intros k Hk. specialize (N k). rewrite app_length in N. cbn in N.
    rewrite firstn_app in N. replace (k - length l') with 0 in N by lia. rewrite firstn_O, app_nil_r in N. apply N. lia. }
  rewrite lastn_push in M |- * by (assumption || lia).
  inversion B as [|? ? q1 u ? q2 ? B1 B2]; subst. inversion B2; subst.
  inversion B1; subst; [contradiction|]. split; reflexivity.
Qed.

Lemma collect_run e : forall l acc o v, length acc + length l < p_len p ->
  steps ps p (Aligned acc e) l o v -> o = [] /\ v = Aligned (acc ++ l) e.
Proof.
  induction l as [|b l IH]; intros acc o v H S; cbn [length] in H.
  - inversion S; subst. now rewrite app_nil_r.
  - inversion S as [|? ? o1 v1 ? o2 ? S1 S2]; subst. inversion S1; subst; try lia.
    apply IH in S2; [|rewrite app_length; cbn; lia]. destruct S2 as [-> ->]. now rewrite <- app_assoc.
Qed.

Lemma frame_run e f o v : length f = p_len p -> (0 <= e < 2)%Z \/ e = 2%Z -> steps ps p (Aligned [] e) f o v ->
  (matches_any ps f /\ o = [Frame f] /\ v = Aligned [] 0) \/
  (~ matches_any ps f /\ (e < 2)%Z /\ o = [Frame f] /\ v = Aligned [] (e + 1)) \/
  (~ matches_any ps f /\ e = 2%Z /\ o = [Lost] /\ exists w, length w = p_len p /\ v = Searching w 3).
Proof.
  intros Hf He S. assert (Hn : f <> []) by (intros ->; cbn in Hf; lia).
  destruct (exists_last Hn) as (f' & b & ->). rewrite app_length in Hf. cbn in Hf.
  destruct (steps_app_inv _ _ _ _ _ S) as (o1 & v1 & o2 & A & B & ->).
  destruct (collect_run e f' [] o1 v1 ltac:(cbn; lia) A) as [-> ->]. cbn [app] in *.
  assert (M : ((e + 1) mod 2 ^ 32 = e + 1)%Z) by (apply Z.mod_small; lia).
  inversion B as [|? ? q1 u ? q2 ? B1 B2]; subst. inversion B2; subst. rewrite app_nil_r.
  inversion B1; subst; try lia.
  - left. now repeat split.
  - right; left. rewrite M in *. repeat split; try assumption. lia.
  - right; right. rewrite M in *. assert (e = 2%Z) as -> by lia. repeat split; try assumption. eauto.
Qed.

(** no three consecutive frames matching no pattern *)
Definition keeps (fs : list bits) : Prop := forall a x y z b, fs = a ++ x :: y :: z :: b ->
  matches_any ps x \/ matches_any ps y \/ matches_any ps z.

Lemma keeps_tail x fs : keeps (x :: fs) -> keeps fs.
Proof. intros K a y z t b ->. apply (K (x :: a) y z t b eq_refl). Qed.
Lemma keeps_suffix a fs : keeps (a ++ fs) -> keeps fs.
Proof. induction a as [|x a IH]; cbn; [auto|]. intros K. apply IH. now apply keeps_tail in K. Qed.

Lemma keep_run fs : forall bads o v, Forall (fun f => length f = p_len p) fs -> Forall (fun f => ~ matches_any ps f) bads ->
  length bads <= 2 -> keeps (bads ++ fs) ->
  steps ps p (Aligned [] (Z.of_nat (length bads))) (concat fs) o v ->
  o = map Frame fs /\ exists n, (n <= 2) /\ v = Aligned [] (Z.of_nat n) /\ (fs <> [] -> matches_any ps (last fs []) -> n = 0).
Proof.
  induction fs as [|f fs IH]; intros bads o v HF HB HN K S; cbn [concat] in S.
  { inversion S; subst. split; [reflexivity|]. exists (length bads). repeat split; [assumption|]. intros []; reflexivity. }
  inversion HF as [|? ? L HF']; subst.
  destruct (steps_app_inv _ _ _ _ _ S) as (o1 & v1 & o2 & A & B & ->).
  assert (LA : matches_any ps f -> fs = [] \/ fs <> []) by (intros _; destruct fs; [now left|right; discriminate]).
  assert (LST : forall d, fs <> [] -> last (f :: fs) d = last fs d) by (intros d; destruct fs; [contradiction|reflexivity]).
  destruct (frame_run (Z.of_nat (length bads)) f o1 v1 L ltac:(lia) A) as [(M & -> & ->)|[(M & E & -> & ->)|(M & E & _)]].
  - destruct (IH [] o2 v HF' (Forall_nil _) ltac:(cbn; lia)) as [-> (n & Hn & -> & Hl)]; [|exact B|].
    { cbn [app]. apply keeps_suffix in K. now apply keeps_tail in K. }
    split; [reflexivity|]. exists n. split; [assumption|]. split; [reflexivity|].
    intros _ Hm. destruct fs as [|g fs]; [|apply Hl; [discriminate|now rewrite LST in Hm]].
    inversion B as [E|]. destruct n; [reflexivity|cbn in E; lia].
  - replace (Z.of_nat (length bads) + 1)%Z with (Z.of_nat (length (bads ++ [f]))) in B by (rewrite app_length; cbn; lia).
    destruct (IH (bads ++ [f]) o2 v HF') as [-> (n & Hn & -> & Hl)]; [|rewrite app_length; cbn; lia| |exact B|].
    { apply Forall_app. split; [assumption|]. now constructor. }
    { now rewrite <- app_assoc. }
    split; [reflexivity|]. exists n. split; [assumption|]. split; [reflexivity|].
    intros _ Hm. destruct fs as [|g fs]; [|apply Hl; [discriminate|now rewrite LST in Hm]]. cbn in Hm. contradiction.
  - exfalso. destruct bads as [|x [|y [|]]]; cbn in *; try lia.
    inversion HB as [|? ? X HB']; subst. inversion HB' as [|? ? Y _]; subst.
    destruct (K [] x y f fs eq_refl) as [Q|[Q|Q]]; contradiction.
Qed.

Lemma lost_run f1 f2 f3 o v : length f1 = p_len p -> length f2 = p_len p -> length f3 = p_len p ->
  ~ matches_any ps f1 -> ~ matches_any ps f2 -> ~ matches_any ps f3 ->
  steps ps p (Aligned [] 0) (f1 ++ f2 ++ f3) o v -> o = [Frame f1; Frame f2; Lost] /\ exists w, length w = p_len p /\ v = Searching w 3.
Proof.
  intros L1 L2 L3 M1 M2 M3 S.
  destruct (steps_app_inv _ _ _ _ _ S) as (o1 & v1 & o2 & A & S' & ->).
  destruct (frame_run 0 f1 o1 v1 L1 ltac:(lia) A) as [(M & _)|[(M & E & -> & ->)|(M & E & _)]]; [contradiction| |lia].
  destruct (steps_app_inv _ _ _ _ _ S') as (o3 & v3 & o4 & B & C & ->).
  destruct (frame_run 1 f2 o3 v3 L2 ltac:(lia) B) as [(M' & _)|[(M' & E' & -> & ->)|(M' & E' & _)]]; [contradiction| |lia].
  destruct (frame_run 2 f3 o4 v L3 ltac:(lia) C) as [(M'' & _)|[(M'' & E'' & _)|(_ & _ & -> & W)]]; [contradiction|lia|].
  split; [reflexivity|exact W].
Qed.

Lemma steps_lost_then_frame v l o v' : steps ps p v l o v' ->
  (forall a b, o = a ++ Lost :: b -> b = [] \/ exists f b', b = Frame f :: b') /\
  ((exists w e, v = Searching w e) -> o = [] \/ exists f b', o = Frame f :: b').
Proof.
  induction 1 as [v|v b o v' bs o' v'' S1 S2 [IH1 IH2]].
  { split; [|now left]. intros [|] ?; discriminate. }
  split.
  - intros x y E. inversion S1; subst; cbn [app] in *; try (apply (IH1 _ _ E));
      try (destruct x as [|q x]; [discriminate|]; injection E as _ E; apply (IH1 _ _ E)).
    destruct x as [|q x].
    + injection E as ->. apply IH2. eauto.
    + injection E as _ E. apply (IH1 _ _ E).
  - intros (w & e & ->). inversion S1; subst; cbn [app].
    + apply IH2. eauto.
    + right. eauto.
Qed.
End Runs.

(** Nothing is delivered before a window of the stream (preceded by idle ones)
    matches the primary pattern; the first match is delivered, then every
    following frame-length piece exactly once and in order, as long as no three
    consecutive frames match no pattern. *)
Theorem C30_acquire_and_keep : forall junk i secs s o stream fs tail, secs_ok i secs ->
  do_ops junk (osmo_trau_sync_alloc i) (map sec_op secs) = Some (s, o) ->
  let L := frame_len i in
  let seen := fun l => lastn L (repeat true L ++ l) in
  stream <> [] ->
  (forall k, 1 <= k < length stream -> ~ matches (sync_patterns i) (seen (firstn k stream))) ->
  matches (sync_patterns i) (seen stream) ->
  Forall (fun f => length f = L) fs ->
  keeps (slots i secs) fs -> length tail < L ->
  exists s', osmo_trau_sync_rx_ubits junk s (stream ++ concat fs ++ tail) =
    Some (s', Frame (seen stream) :: map Frame fs).
Proof.
  intros junk i secs s o stream fs tail H E L seen NE NM M HF K HT.
  pose proof (good_pat i) as (_ & G & _).
  destruct (C30_behaviour junk i secs s o (stream ++ concat fs ++ tail) H E) as (s' & outs & v & R & S).
  rewrite R. exists s'. f_equal. f_equal. clear R.
  destruct (steps_app_inv _ _ _ _ _ _ _ S) as (o1 & v1 & o2 & A & S' & ->).
  destruct (steps_app_inv _ _ _ _ _ _ _ S') as (o3 & v3 & o4 & B & C & ->).
  destruct (found_run (slots i secs) (sync_patterns i) G (repeat true L) 0 stream o1 v1) as [-> ->];
    rewrite ?len_frame, ?repeat_length; try assumption; try reflexivity.
  destruct (keep_run (slots i secs) (sync_patterns i) G fs [] o3 v3) as [-> (n & Hn & -> & _)];
    rewrite ?len_frame; try assumption; try (cbn; lia); try constructor.
  destruct (collect_run (slots i secs) (sync_patterns i) G (Z.of_nat n) tail [] o4 v) as [-> _];
    rewrite ?len_frame; try assumption. rewrite app_nil_r. reflexivity.
Qed.

(** nothing matches: nothing is delivered *)
Theorem C30_no_false_delivery : forall junk i secs s o stream, secs_ok i secs ->
  do_ops junk (osmo_trau_sync_alloc i) (map sec_op secs) = Some (s, o) ->
  (forall k, 1 <= k <= length stream ->
     ~ matches (sync_patterns i) (lastn (frame_len i) (repeat true (frame_len i) ++ firstn k stream))) ->
  exists s', osmo_trau_sync_rx_ubits junk s stream = Some (s', []).
Proof.
  intros junk i secs s o stream H E NM. pose proof (good_pat i) as (_ & G & _).
  destruct (C30_behaviour junk i secs s o stream H E) as (s' & outs & v & R & S).
  rewrite R. exists s'. f_equal. f_equal.
  apply (search_run (slots i secs) (sync_patterns i) G (repeat true (frame_len i)) 0) in S; [apply S| |];
    rewrite ?len_frame, ?repeat_length; auto.
Qed.

(** Three consecutive frames that match no pattern: the first two are still
    delivered, the third is replaced by the loss report. *)
Theorem C30_loss : forall junk i secs s o stream fs f1 f2 f3, secs_ok i secs ->
  do_ops junk (osmo_trau_sync_alloc i) (map sec_op secs) = Some (s, o) ->
  let L := frame_len i in
  let seen := fun l => lastn L (repeat true L ++ l) in
  stream <> [] ->
  (forall k, 1 <= k < length stream -> ~ matches (sync_patterns i) (seen (firstn k stream))) ->
  matches (sync_patterns i) (seen stream) ->
  Forall (fun f => length f = L) (fs ++ [f1; f2; f3]) ->
  keeps (slots i secs) fs -> (fs = [] \/ matches_any (slots i secs) (last fs [])) ->
  ~ matches_any (slots i secs) f1 -> ~ matches_any (slots i secs) f2 -> ~ matches_any (slots i secs) f3 ->
  exists s', osmo_trau_sync_rx_ubits junk s (stream ++ concat fs ++ f1 ++ f2 ++ f3) =
    Some (s', Frame (seen stream) :: map Frame fs ++ [Frame f1; Frame f2; Lost]).
Proof.
  intros junk i secs s o stream fs f1 f2 f3 H E L seen NE NM M HF K HG N1 N2 N3.
  pose proof (good_pat i) as (_ & G & _).
  apply Forall_app in HF. destruct HF as [HF H3].
  inversion H3 as [|? ? F1 H3']; subst. inversion H3' as [|? ? F2 H3'']; subst. inversion H3'' as [|? ? F3 _]; subst.
  destruct (C30_behaviour junk i secs s o (stream ++ concat fs ++ f1 ++ f2 ++ f3) H E) as (s' & outs & v & R & S).
  rewrite R. exists s'. f_equal. f_equal. clear R.
  destruct (steps_app_inv _ _ _ _ _ _ _ S) as (o1 & v1 & o2 & A & S' & ->).
  destruct (steps_app_inv _ _ _ _ _ _ _ S') as (o3 & v3 & o4 & B & C & ->).
  destruct (found_run (slots i secs) (sync_patterns i) G (repeat true L) 0 stream o1 v1) as [-> ->];
    rewrite ?len_frame, ?repeat_length; try assumption; try reflexivity.
  assert (V : o3 = map Frame fs /\ v3 = Aligned [] 0%Z).
  { destruct HG as [->|HG].
    - inversion B; subst. now split.
    - destruct fs as [|f fs]; [inversion B; subst; now split|].
      destruct (keep_run (slots i secs) (sync_patterns i) G (f :: fs) [] o3 v3) as [-> (n & Hn & -> & Hl)];
        rewrite ?len_frame; try assumption; try (cbn; lia); try constructor.
      f_equal. rewrite (Hl ltac:(discriminate) HG). reflexivity. }
  destruct V as [-> ->].
  destruct (lost_run (slots i secs) (sync_patterns i) G f1 f2 f3 o4 v) as [-> _];
    rewrite ?len_frame; try assumption. reflexivity.
Qed.

(** all patterns start with a checked zero bit *)
Lemma first_zero i w : matches (sync_patterns i) w -> nth_error w 0 = Some false.
Proof. intros M. apply M; destruct i; vm_compute; reflexivity. Qed.

(** Idle ones followed by back-to-back frames carrying the pattern: exactly
    those frames are delivered, whatever their payload. *)
Theorem C30_clean_stream : forall junk i secs s o k fs tail, secs_ok i secs ->
  do_ops junk (osmo_trau_sync_alloc i) (map sec_op secs) = Some (s, o) ->
  Forall (fun f => length f = frame_len i /\ matches (sync_patterns i) f) fs -> length tail < frame_len i -> fs <> [] ->
  exists s', osmo_trau_sync_rx_ubits junk s (repeat true k ++ concat fs ++ tail) = Some (s', map Frame fs).
Proof.
  intros junk i secs s o k [|f fs] tail H E HF HT HN; [contradiction|]. clear HN.
  inversion HF as [|? ? [Lf Mf] HF']; subst.
  pose proof (good_pat i) as (_ & G & _). rewrite len_frame in G.
  assert (SEEN : lastn (frame_len i) (repeat true (frame_len i) ++ repeat true k ++ f) = f).
  { unfold lastn. rewrite app_assoc, app_length, Lf. apply skipn_app_exact. lia. }
  destruct (C30_acquire_and_keep junk i secs s o (repeat true k ++ f) fs tail H E) as (s' & R).
  - destruct f; [cbn in Lf; lia|]. destruct k; discriminate.
  - intros j Hj M. apply first_zero in M. revert M.
    rewrite app_length, repeat_length, Lf in Hj.
    assert (P : exists m y, 0 < m /\ repeat true (frame_len i) ++ firstn j (repeat true k ++ f) = repeat true m ++ y /\
      length (repeat true (frame_len i) ++ firstn j (repeat true k ++ f)) - frame_len i < m).
    { rewrite app_length, repeat_length, firstn_length, app_length, repeat_length, Lf.
      rewrite firstn_app, repeat_length.
      destruct (Nat.lt_ge_cases j k).
      - exists (frame_len i + j), []. rewrite repeat_app. replace (j - k) with 0 by lia.
        rewrite firstn_O, !app_nil_r.
        split; [lia|]. split; [|lia]. f_equal.
        replace (repeat true k) with (repeat true (j + (k - j))) by (f_equal; lia). rewrite repeat_app.
        apply firstn_app_exact. apply repeat_length.
      - exists (frame_len i + k), (firstn (j - k) f). rewrite repeat_app, <- app_assoc.
        split; [lia|]. split; [|lia]. f_equal. f_equal. apply firstn_all2. rewrite repeat_length. lia. }
    destruct P as (m & y & Hm & -> & Hl). unfold lastn.
    rewrite nth_error_skipn, Nat.add_0_r, nth_error_app1 by (rewrite repeat_length; assumption).
    rewrite nth_error_repeat by assumption. discriminate.
  - now rewrite SEEN.
  - eapply Forall_impl; [|exact HF']. cbn. intros x [X _]. exact X.
  - intros a x y z b ->. left. exists (sync_patterns i). split.
    + unfold slots. left. cbn [map seq]. f_equal.
      clear - H. induction secs as [|[j q] secs IH]; [reflexivity|]. inversion H as [|? ? [Q _] H']; subst.
      cbn [slot snd] in *. destruct (Nat.eqb_spec q 0); [lia|]. cbn [andb]. now apply IH.
    + rewrite Forall_forall in HF'. apply HF'. apply in_or_app. right. now left.
  - exact HT.
  - exists s'. rewrite <- app_assoc in R. cbn [concat]. rewrite <- app_assoc. rewrite R. rewrite SEEN. reflexivity.
Qed.

(** Loss is reported once: in any reachable state and for any stream, between
    two loss reports there is a delivered frame. *)
Theorem C30_loss_reported_once : forall junk i ops s outs stream s' out a b, ops_ok i ops ->
  do_ops junk (osmo_trau_sync_alloc i) ops = Some (s, outs) ->
  osmo_trau_sync_rx_ubits junk s stream = Some (s', out) ->
  out = a ++ Lost :: b -> b = [] \/ exists f b', b = Frame f :: b'.
Proof.
  intros junk i ops s outs stream s' out a b OK H R.
  destruct (ops_inv junk ops i _ (alloc_inv i) OK) as (s0 & o0 & E & _ & (j & I)).
  assert (s0 = s) by congruence. subst s0.
  rewrite (rx_eq junk _ s _ I) in R.
  destruct (bits_ok junk _ stream s I) as (s2 & o2 & E2 & _ & _ & S). rewrite R in E2.
  assert (out = o2) as -> by congruence.
  apply (proj1 (steps_lost_then_frame _ _ _ _ _ _ S)).
Qed.

(** witnesses *)
Definition v110_good : bits := bits_of_octets ([0] ++ repeat 201 9)%Z.
Definition v110_bad : bits := repeat false 80.
Example C30_witness :
  secs_ok PAT_8_HR [(PAT_8_AMR_LOW, 1); (PAT_8_AMR_7K4, 7)] /\
  matches (sync_patterns PAT_V110) v110_good /\ length v110_good = frame_len PAT_V110 /\
  exists s, osmo_trau_sync_rx_ubits (fun _ _ => true) (osmo_trau_sync_alloc PAT_V110)
     ([true; true] ++ v110_good ++ v110_bad ++ v110_good ++ [false]) =
     Some (s, [Frame v110_good; Frame v110_bad; Frame v110_good]).
Proof.
  split. { repeat constructor; cbn; lia. }
  split.
  { apply corr0_matches; [apply good_pat|reflexivity|vm_compute; reflexivity]. }
  split; [reflexivity|]. eexists. vm_compute. reflexivity.
Qed.

(** Refuted: "alignment is declared lost only after three consecutive bad
    frames" fails after the first loss, because the error counter is not reset
    when alignment is found again. *)
Theorem C30_refuted_second_loss :
  exists s, osmo_trau_sync_rx_ubits (fun _ _ => true) (osmo_trau_sync_alloc PAT_V110)
     (v110_good ++ v110_bad ++ v110_bad ++ v110_bad ++ v110_good ++ v110_bad) =
     Some (s, [Frame v110_good; Frame v110_bad; Frame v110_bad; Lost; Frame v110_good; Lost]).
Proof. eexists. vm_compute. reflexivity. Qed.

(** Refuted: after a loss the search window holds uninitialised stack content;
    with an unlucky one a frame is delivered after a single bit. *)
Theorem C30_refuted_stale_window :
  exists junk s f, osmo_trau_sync_rx_ubits junk (osmo_trau_sync_alloc PAT_V110)
     (v110_good ++ v110_bad ++ v110_bad ++ v110_bad ++ [true]) =
     Some (s, [Frame v110_good; Frame v110_bad; Frame v110_bad; Lost; Frame f]).
Proof.
  exists (fun _ n => nth (n - (1281 - 79)) v110_good false). eexists _, _. vm_compute. reflexivity.
Qed.
