(** C86: the sub-channel demultiplexer recovers from any past. *)
From Coq Require Import List Arith Lia Bool ZArith.
From Verif Require Import Base Spec OldTrauModel OldTrauProofs DemuxSpec DemuxModel DemuxProofs DemuxProps MuxProofs MuxProps.
Import ListNotations.

Lemma ends_apart h t t' : frame_ends_at h t = true -> frame_ends_at h t' = true -> t < t' -> t + 304 <= t'.
Proof.
  intros E E' H. apply frame_ends_at_spec in E, E'. destruct E as (L & S & N), E' as (L' & S' & N').
  destruct (Nat.le_gt_cases (t + 304) t') as [C|C]; [exact C|]. exfalso. apply (N (t' - 320)); [lia|lia|exact S'].
Qed.

Lemma frames_after s L : Forall clean L -> forall n, n <= 320 * length L ->
  exists x, frames_of (s ++ firstn n (concat L)) = frames_of s ++ x ++ firstn (n / 320) L /\
    (x = [] \/ (length x = 1 /\ exists t, length s < t <= length s + n /\ t <= length s + 16 /\
       frame_ends_at (s ++ firstn n (concat L)) t = true)).
Proof.
  intros HL. induction n as [|n IH]; intros Hn.
  { exists []. cbn [firstn]. rewrite app_nil_r. split; [now rewrite app_nil_r|now left]. }
  destruct (IH ltac:(lia)) as (x & EF & X). clear IH.
  pose proof (clean_concat_length L HL) as LC.
  destruct (nth_firstn_S (concat L) n) as (b & Eb & Es); [lia|].
  rewrite Es, app_assoc, frames_of_snoc, EF. rewrite <- (app_assoc s (firstn n (concat L)) [b]), <- Es.
  assert (LN : length (s ++ firstn n (concat L)) = length s + n) by (rewrite app_length, firstn_length, Nat.min_l by lia; reflexivity).
  rewrite LN. set (h := s ++ firstn (S n) (concat L)).
  assert (KEEP : forall t, t <= length s + n -> frame_ends_at (s ++ firstn n (concat L)) t = true -> frame_ends_at h t = true).
  { intros t Ht E. unfold h. rewrite Es, app_assoc. rewrite frame_ends_at_app_l by lia. exact E. }
  assert (SS : forall i, sync_at h (length s + i) <-> (i + 17 <= S n /\ exists j, i = 320 * j /\ j < length L)).
  { intros i. unfold h. rewrite sync_at_shift, <- clean_sync by assumption.
    rewrite <- (firstn_skipn (S n) (concat L)) at 2.
    assert (Ls : length (firstn (S n) (concat L)) = S n) by (rewrite firstn_length; lia). split.
    - intros Q. pose proof (sync_at_length _ _ Q) as Y. rewrite Ls in Y. split; [assumption|].
      apply sync_at_app_l; [lia|assumption].
    - intros [Y Q]. apply sync_at_app_l in Q; [assumption|lia]. }
  assert (X' : x = [] \/ (length x = 1 /\ exists t, length s < t <= length s + S n /\ t <= length s + 16 /\ frame_ends_at h t = true)).
  { destruct X as [->|(X1 & t & T1 & T2 & T3)]; [now left|]. right. split; [exact X1|]. exists t.
    split; [lia|]. split; [exact T2|]. apply KEEP; [lia|exact T3]. }
  replace (S (length s + n)) with (length s + S n) by lia.
  destruct (frame_ends_at h (length s + S n)) eqn:FE.
  - pose proof FE as FE'. apply frame_ends_at_spec in FE'. destruct FE' as (L320 & S0 & N0).
    destruct (Nat.le_gt_cases (S n) 16) as [C|C].
    { assert (x = []) as ->.
      { destruct X as [->|(_ & t & T1 & T2 & T3)]; [reflexivity|]. exfalso.
        pose proof (ends_apart h t (length s + S n) (KEEP t ltac:(lia) T3) FE ltac:(lia)). lia. }
      eexists [_]. cbn [app]. rewrite (Nat.div_small n), (Nat.div_small (S n)) by lia. cbn [firstn]. rewrite app_nil_r.
      split; [reflexivity|]. right. split; [reflexivity|]. exists (length s + S n). split; [lia|]. split; [lia|exact FE]. }
    destruct (Nat.le_gt_cases 320 (S n)) as [D|D].
    + replace (length s + S n - 320) with (length s + (S n - 320)) in S0 by lia.
      apply SS in S0. destruct S0 as (_ & j & Ej & Hj).
      assert (En : S n = (j + 1) * 320) by lia.
      exists x. split; [|exact X'].
      rewrite En, Nat.div_mul by lia.
      assert (E2 : n / 320 = j) by (symmetry; apply (Nat.div_unique n 320 j 319); lia).
      rewrite E2. destruct (nth_firstn_S L j Hj) as (f & Ef & Efs).
      rewrite Nat.add_1_r, Efs. rewrite <- !app_assoc. do 3 f_equal. f_equal.
      rewrite (concat_window L j HL Hj) in Ef. injection Ef as <-.
      unfold h. replace (length s + S j * 320 - 320) with (length s + 320 * j) by lia.
      rewrite skipn_app, (skipn_all2 s) by lia. cbn [app].
      replace (length s + 320 * j - length s) with (320 * j) by lia.
      rewrite skipn_firstn_comm. replace (S n - 320 * j) with 320 by lia. rewrite firstn_firstn. reflexivity.
    + exfalso. apply (N0 (length s)); [lia|lia|]. rewrite <- (Nat.add_0_r (length s)). apply SS.
      split; [lia|]. exists 0. lia.
  - rewrite app_nil_r. exists x. split; [|exact X']. do 3 f_equal.
    assert (ND : forall j, S n <> 320 * S j).
    { intros j E. rewrite <- Bool.not_true_iff_false in FE. apply FE. apply frame_ends_at_spec.
      split; [lia|]. split.
      - replace (length s + S n - 320) with (length s + (S n - 320)) by lia. apply SS. split; [lia|]. exists j. lia.
      - intros k K1 K2 Q. replace k with (length s + (k - length s)) in Q by lia. apply SS in Q.
        destruct Q as (_ & i & Ei & _). lia. }
    pose proof (Nat.div_mod n 320 ltac:(lia)) as D. pose proof (Nat.mod_upper_bound n 320 ltac:(lia)) as B.
    apply (Nat.div_unique (S n) 320 (n / 320) (S (n mod 320))); [|lia].
    specialize (ND (n / 320)). lia.
Qed.

Definition act_after (c : nat) (l : list dop) : bool :=
  fold_left (fun a o => match o with Activate n => if (n =? Z.of_nat c)%Z then true else a
                                   | Deactivate n => if (n =? Z.of_nat c)%Z then false else a | In_ _ => a end) l false.
Lemma received_app c l : forall a l2, received a c (l ++ l2) = received a c l ++
  received (fold_left (fun a o => match o with Activate n => if (n =? Z.of_nat c)%Z then true else a
                                   | Deactivate n => if (n =? Z.of_nat c)%Z then false else a | In_ _ => a end) l a) c l2.
Proof.
  induction l as [|o l IH]; intros a l2; [reflexivity|]. destruct o as [n|n|d]; cbn [received app fold_left]; rewrite IH; try reflexivity.
  now rewrite app_assoc.
Qed.
Lemma received_chunks c chunks : received true c (map In_ chunks) = channel_bits c (concat chunks).
Proof.
  induction chunks as [|d r IH]; [reflexivity|]. cbn [map received concat]. rewrite IH.
  unfold channel_bits. now rewrite flat_map_app.
Qed.
Lemma dops_app l : forall st l2, dops st (l ++ l2) = match dops st l with Some st' => dops st' l2 | None => None end.
Proof.
  induction l as [|o l IH]; intros st l2; [reflexivity|]. cbn [dops app]. destruct (dop_step st o) as [st'|]; [apply IH|reflexivity].
Qed.

(** Whatever was received on a sub-channel and however often it was switched off
    and on, from the first clean frame on every frame is delivered, in order and
    once; at most one frame more than before the clean run began precedes them.
    [n] bits of the frames [L] have arrived in any pieces, with any calls for other
    sub-channels in between. *)
Theorem C86_recovers : forall past more c L n, Forall dop_ok past -> Forall dop_ok more -> c < 4 ->
  Forall clean L -> n <= 320 * length L ->
  received false c (past ++ more) = received false c past ++ firstn n (concat L) ->
  no_huge_gap (received false c (past ++ more)) ->
  exists d0 t0 d tr x, dops fresh past = Some (d0, t0) /\ dops fresh (past ++ more) = Some (d, tr) /\
    calls_of c tr = calls_of c t0 ++ x ++ firstn (n / 320) L /\ length x <= 1.
Proof.
  intros past more c L n F1 F2 Hc HL Hn HR G.
  destruct (C06_demux_delivers_exactly_the_frames past c F1 Hc) as (d0 & t0 & E0 & C0).
  { rewrite HR in G. now apply no_huge_prefix in G. }
  destruct (C06_demux_delivers_exactly_the_frames (past ++ more) c) as (d & tr & E & C); [apply Forall_app; now split|exact Hc|exact G|].
  destruct (frames_after (received false c past) L HL n Hn) as (x & EF & X).
  exists d0, t0, d, tr, x. split; [exact E0|]. split; [exact E|]. split.
  - rewrite C, HR, EF, C0. reflexivity.
  - destruct X as [->|(-> & _)]; cbn; lia.
Qed.

(** no run of zeros of 2^31 or more in the past *)
Definition sane_past (s : list bool) : Prop :=
  forall k n, firstn n (skipn k s) = repeat false n -> (Z.of_nat n < 2 ^ 31)%Z.

Lemma firstn_repeat_le {A} (x : A) m n : m <= n -> firstn m (repeat x n) = repeat x m.
Proof. revert n. induction m as [|m IH]; intros [|n] H; cbn; try reflexivity; try lia. f_equal. apply IH. lia. Qed.
Lemma skipn_repeat {A} (x : A) m : forall n, skipn m (repeat x n) = repeat x (n - m).
Proof. induction m as [|m IH]; intros [|n]; cbn; try reflexivity. apply IH. Qed.

Lemma no_gap_app s L n : Forall clean L -> n <= 320 * length L -> sane_past s ->
  no_huge_gap (s ++ firstn n (concat L)).
Proof.
  intros HL Hn SP k m E. apply Z.nle_gt. intros HM.
  pose proof (clean_concat_length L HL) as LC.
  set (c := firstn n (concat L)) in *.
  assert (Lc : length c = n) by (unfold c; rewrite firstn_length; lia).
  pose proof (f_equal (@length _) E) as Lm. rewrite firstn_length, skipn_length, app_length, repeat_length in Lm.
  (* the part of the run inside the past *)
  set (m1 := Nat.min m (length s - k)).
  assert (E1 : firstn m1 (skipn k s) = repeat false m1).
  { rewrite <- (firstn_repeat_le false m1 m) by (unfold m1; lia). rewrite <- E, firstn_firstn.
    replace (Nat.min m1 m) with m1 by (unfold m1; lia).
    rewrite skipn_app, firstn_app, skipn_length. replace (m1 - (length s - k)) with 0 by (unfold m1; lia).
    now rewrite firstn_O, app_nil_r. }
  pose proof (SP k m1 E1) as B1.
  assert (P31 : (2 ^ 32 = 2 ^ 31 + 2 ^ 31)%Z) by reflexivity.
  assert (P1000 : (1000 < 2 ^ 31)%Z) by reflexivity.
  assert (M2 : 1000 <= m - m1) by lia.
  assert (M1 : m1 = length s - k) by (unfold m1 in *; lia).
  (* the rest lies in the clean run *)
  set (k2 := k - length s).
  assert (E2 : firstn (m - m1) (skipn k2 c) = repeat false (m - m1)).
  { rewrite <- (skipn_repeat false m1 m), <- E. rewrite skipn_app, firstn_app.
    rewrite (firstn_all2 (skipn k s)) by (rewrite skipn_length; lia).
    rewrite skipn_app, (skipn_all2 (skipn k s)) by (rewrite skipn_length; lia).
    rewrite skipn_length, M1, Nat.sub_diag. reflexivity. }
  set (j := k2 / 320 + 1).
  pose proof (Nat.div_mod k2 320 ltac:(lia)) as D. pose proof (Nat.mod_upper_bound k2 320 ltac:(lia)) as B.
  assert (J1 : k2 <= 320 * j /\ 320 * j + 16 < k2 + 1000) by (unfold j; lia).
  pose proof (f_equal (@length _) E2) as L2. rewrite firstn_length, skipn_length, repeat_length, Lc in L2.
  assert (J2 : sync_at (concat L) (320 * j)).
  { apply clean_sync; [assumption|]. exists j. split; [reflexivity|]. lia. }
  apply sync_at_one in J2.
  assert (J3 : nth_error c (320 * j + 16) = Some false).
  { replace (320 * j + 16) with (k2 + (320 * j + 16 - k2)) by lia.
    rewrite <- nth_error_skipn, <- (nth_error_firstn _ (m - m1)) by lia. rewrite E2. apply nth_error_repeat. lia. }
  unfold c in J3. rewrite nth_error_firstn in J3 by lia. congruence.
Qed.

(** The same for what the multiplexer of this library sends: after any past of the
    receiver, every frame of the multiplexer's output, queued or idle, arrives. *)
Theorem C86_mux : forall junk l c past, length junk = 8 -> Forall mop_ok l -> c < 4 ->
  Forall clean (queued (events c l)) -> no_drop idle_pattern [] (events c l) ->
  Forall dop_ok past -> act_after c past = true -> sane_past (received false c past) ->
  exists m out L q d0 t0,
    mops junk subchan_mux_init l = Some (m, out) /\ fills idle_pattern (queued (events c l)) L /\
    nth_error (queues m) c = Some q /\
    concat L = channel_bits c out ++ concat (map (fun e => skipn (next_bit e) (tbits e)) q) /\
    dops fresh past = Some (d0, t0) /\
    forall chunks, concat chunks = out -> exists d tr x,
      dops fresh (past ++ map In_ chunks) = Some (d, tr) /\
      calls_of c tr = calls_of c t0 ++ x ++ firstn (length out / 160) L /\ length x <= 1.
Proof.
  intros junk l c past Hj F Hc HC HN FP HA SP.
  destruct (C13_mux_demux_end_to_end junk l c Hj F Hc HC HN) as (m & out & _ & _ & L & q & E & _ & FL & EQ & EL & _).
  assert (CL : Forall clean L).
  { clear - FL HC. induction FL; [constructor|constructor; [apply idle_clean|auto]|].
    inversion HC; subst. constructor; auto. }
  set (s := channel_bits c out) in *.
  assert (Ls : length s = 2 * length out).
  { unfold s, channel_bits. clear. induction out as [|v out IH]; [reflexivity|]. cbn [flat_map app length]. rewrite IH. lia. }
  pose proof (clean_concat_length L CL) as LC.
  assert (Lle : length s <= 320 * length L) by (pose proof (f_equal (@length bool) EL) as Q; rewrite app_length in Q; change (@length bits L) with (@length (list bool) L) in *; lia).
  assert (Es : s = firstn (length s) (concat L)) by (rewrite EL; symmetry; now apply firstn_app_exact).
  destruct (C05_demux_memory_safe past FP) as (d0 & t0 & E0 & _).
  exists m, out, L, q, d0, t0. split; [exact E|]. split; [exact FL|]. split; [exact EQ|]. split; [exact EL|]. split; [exact E0|].
  intros chunks HK.
  assert (HR : received false c (past ++ map In_ chunks) = received false c past ++ firstn (length s) (concat L)).
  { rewrite received_app. unfold act_after in HA. rewrite HA, received_chunks, HK, <- Es. reflexivity. }
  destruct (C86_recovers past (map In_ chunks) c L (length s) FP) as (d0' & t0' & d & tr & x & E0' & E2 & C2 & X); try assumption.
  - apply Forall_forall. intros o I. apply in_map_iff in I. destruct I as (b & <- & _). exact Logic.I.
  - rewrite HR. now apply no_gap_app.
  - exists d, tr, x. split; [exact E2|]. split; [|exact X].
    assert (t0' = t0) as -> by congruence. rewrite C2. do 2 f_equal. f_equal. rewrite Ls.
    apply (Nat.div_mul_cancel_l (length out) 160 2); lia.
Qed.

(** A receiver left in the middle of a frame, switched off and on, then a clean
    frame: the broken frame comes out first, completed by the first bits of the clean
    run, and then the clean one. *)
Definition past86 : list dop :=
  [Activate 2; In_ [255; 0; 0]%Z; Deactivate 2; In_ [0; 16; 255]%Z; Activate 2; In_ (repeat 0 6 ++ repeat 255 151)%Z].
(** two bits per octet, on sub-channel 2 *)
Fixpoint octets86 (l : list bool) : list Z :=
  match l with a :: b :: r => ((if a then 16 else 0) + (if b then 32 else 0))%Z :: octets86 r | _ => [] end.
Theorem C86_example :
  Forall dop_ok past86 /\ act_after 2 past86 = true /\ clean idle_pattern /\
  exists d0 t0 d tr x, dops fresh past86 = Some (d0, t0) /\
    dops fresh (past86 ++ [In_ (octets86 idle_pattern)]) = Some (d, tr) /\
    calls_of 2 t0 = [] /\ calls_of 2 tr = [x; idle_pattern].
Proof.
  split. { repeat apply Forall_cons; try apply Forall_nil; cbn; lia || exact Logic.I. }
  split; [reflexivity|]. split; [apply idle_clean|].
  eexists _, _, _, _, _. split; [vm_compute; reflexivity|]. split; [vm_compute; reflexivity|].
  split; vm_compute; reflexivity.
Qed.
