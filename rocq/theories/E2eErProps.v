(** C79: the GPRS uplink over an Ericsson Abis, end to end: frames of the CCU on the line, cut out
    of the bit stream by the synchroniser (osmo_trau_sync_rx_ubits with the CCU patterns), decoded
    (er_gprs_trau_frame_decode_16k / _64k).  What frames mean is ErSpec.v (the figures). *)
From Coq Require Import List Arith Lia Bool ZArith.
From Verif Require Import Base ErModel ErSpec SyncModel SyncSpec SyncProofs SyncProps SyncPatProps ErDecProps ErDecProps64 ErDecTop64.
Import ListNotations.
Open Scope nat_scope.

(** what a frame of 320 bits says *)
Definition says_16 (f : bits) (x : ccu_frame) : Prop :=
  match x with CSync s => ccu_sync_16 f s | CData d => ccu_data_16 f d | CNone => False end.
(** what is to arrive: the indication, or (for a frame damaged on the way) nothing *)
Definition arrival (a : option ccu_frame) : option (Z * ccu_frame) :=
  match a with Some x => Some (0%Z, x) | None => Some ((-22)%Z, CNone) end.
Definition on_line (says : bits -> ccu_frame -> Prop) (n : nat) (f : bits) (a : option ccu_frame) : Prop :=
  length f = n /\ match a with Some x => says f x | None => forall x, ~ says f x end.
(** never three damaged frames in a row *)
Definition usable (arr : list (option ccu_frame)) : Prop := forall a b, arr <> a ++ None :: None :: None :: b.
Definition frames (o : list out) : list bits := flat_map (fun x => match x with Frame f => [f] | Lost => [] end) o.
Lemma frames_map fs : frames (map Frame fs) = fs.
Proof. unfold frames. induction fs as [|f r IH]; [reflexivity|]. cbn. now rewrite IH. Qed.

Lemma says_16_sync f x : says_16 f x -> matches (sync_patterns PAT_16_ER_CCU) f.
Proof.
  destruct (C51_ericsson f) as (A & _ & _ & B & _). destruct x as [s|d|]; cbn; [|intros (H & _)|easy].
  - intros (H & _). now apply B.
  - now apply A.
Qed.
Lemma dec_16 f a : on_line says_16 320 f a -> er_gprs_trau_frame_decode_16k f = arrival a.
Proof.
  intros (L & H). destruct (C45_16 f L) as [(s & E & U & N)|[(d & E & U & N)|(E & N1 & N2)]]; rewrite E; destruct a as [[s'|d'|]|]; cbn [says_16] in H; try contradiction; unfold arrival.
  - apply U in H. now subst.
  - destruct (N _ H).
  - exfalso. apply (H (CSync s)). now apply U.
  - destruct (N _ H).
  - apply U in H. now subst.
  - exfalso. apply (H (CData d)). now apply U.
  - destruct (N1 _ H).
  - destruct (N2 _ H).
  - reflexivity.
Qed.
Lemma slots_primary i secs : secs_ok i secs -> In (Some (sync_patterns i)) (slots i secs).
Proof.
  intros H. unfold slots. left. cbn [map seq]. f_equal. induction secs as [|[j q] secs IH]; [reflexivity|]. inversion H as [|? ? [Q _] H']; subst.
  cbn [slot snd] in *. destruct (Nat.eqb_spec q 0); [lia|]. cbn [andb]. now apply IH.
Qed.

(** the general fact: frames of the length of the pattern, the first with the primary pattern *)
Lemma stream_in junk i secs s o k f fs tail chunks : secs_ok i secs -> do_ops junk (osmo_trau_sync_alloc i) (map sec_op secs) = Some (s, o) ->
  length f = frame_len i -> matches (sync_patterns i) f -> Forall (fun g => length g = frame_len i) fs -> keeps (slots i secs) fs -> length tail < frame_len i ->
  concat chunks = repeat true k ++ concat (f :: fs) ++ tail -> exists s' outs, do_ops junk s (map Rx chunks) = Some (s', outs) /\ concat outs = map Frame (f :: fs).
Proof.
  intros H E Lf Mf HF K HT HC. pose proof (good_pat i) as (_ & G & _). rewrite len_frame in G.
  assert (SEEN : lastn (frame_len i) (repeat true (frame_len i) ++ repeat true k ++ f) = f).
  { unfold lastn. rewrite app_assoc, app_length, Lf. apply skipn_app_exact. lia. }
  destruct (C30_acquire_and_keep junk i secs s o (repeat true k ++ f) fs tail H E) as (s' & R).
  - destruct f; [cbn in Lf; lia|]. destruct k; discriminate.
  - intros j Hj M. apply first_zero in M. revert M.
    rewrite app_length, repeat_length, Lf in Hj.
    assert (P : exists m y, 0 < m /\ repeat true (frame_len i) ++ firstn j (repeat true k ++ f) = repeat true m ++ y /\
      length (repeat true (frame_len i) ++ firstn j (repeat true k ++ f)) - frame_len i < m).
    { rewrite app_length, repeat_length, firstn_length, app_length, repeat_length, Lf.
      rewrite firstn_app, repeat_length.
      destruct (Nat.lt_ge_cases j k).
      - exists (frame_len i + j), []. rewrite repeat_app. replace (j - k) with 0 by lia.
        rewrite firstn_O, !app_nil_r.
        split; [lia|]. split; [|lia]. f_equal.
        replace (repeat true k) with (repeat true (j + (k - j))) by (f_equal; lia). rewrite repeat_app.
        apply firstn_app_exact. apply repeat_length.
      - exists (frame_len i + k), (firstn (j - k) f). rewrite repeat_app, <- app_assoc.
        split; [lia|]. split; [|lia]. f_equal. f_equal. apply firstn_all2. rewrite repeat_length. lia. }
    destruct P as (m & y & Hm & -> & Hl). unfold lastn.
    rewrite nth_error_skipn, Nat.add_0_r, nth_error_app1 by (rewrite repeat_length; assumption).
    rewrite nth_error_repeat by assumption. discriminate.
  - now rewrite SEEN.
  - exact HF.
  - exact K.
  - exact HT.
  - assert (OKO : ops_ok i (map sec_op secs)).
    { clear - H. induction secs as [|[j q] secs IH]; [exact Logic.I|]. pose proof (Forall_inv H) as (A & B). cbn in A, B |- *. split; [exact A|]. split; [exact B|]. exact (IH (Forall_inv_tail H)). }
    destruct (C29_chunking junk i (map sec_op secs) s o chunks OKO E) as (s2 & outs & E1 & E2).
    exists s2, outs. split; [exact E1|]. rewrite HC in E2. cbn [concat] in E2. rewrite <- app_assoc in R, E2. rewrite R, SEEN in E2. cbn [map]. congruence.
Qed.
Lemma keeps_of (P : bits -> option ccu_frame -> Prop) ps fs arr : (forall f x, P f (Some x) -> matches_any ps f) -> Forall2 P fs arr -> usable arr -> keeps ps fs.
Proof.
  intros M F U a x y z b ->. apply Forall2_app_inv_l in F as (a' & r & _ & F & ->). inversion F as [|? x' ? ? Fx F1]; subst. inversion F1 as [|? y' ? ? Fy F2]; subst. inversion F2 as [|? z' ? ? Fz F3]; subst.
  destruct x' as [x'|]; [left; exact (M _ _ Fx)|]. destruct y' as [y'|]; [right; left; exact (M _ _ Fy)|]. destruct z' as [z'|]; [right; right; exact (M _ _ Fz)|].
  exfalso. eapply (U a'). reflexivity.
Qed.
Lemma usable_tl a arr : usable (a :: arr) -> usable arr.
Proof. intros U x y E. apply (U (a :: x) y). cbn. now rewrite E. Qed.

(** 16 kbit/s.  However the line idles before the first frame and however its bits are handed
    over in pieces: every frame is delivered, once and in order; each gives the indication it
    carries, and one that was damaged gives an error and nothing else is harmed, as long as
    there are never three of those in a row. *)
Theorem C79_uplink_16 : forall junk k f x fs arr tail chunks,
  on_line says_16 320 f (Some x) -> Forall2 (on_line says_16 320) fs arr -> usable arr -> length tail < 320 ->
  concat chunks = repeat true k ++ concat (f :: fs) ++ tail ->
  exists s outs, do_ops junk (osmo_trau_sync_alloc PAT_16_ER_CCU) (map Rx chunks) = Some (s, outs) /\
    ~ In Lost (concat outs) /\ map er_gprs_trau_frame_decode_16k (frames (concat outs)) = map arrival (Some x :: arr).
Proof.
  intros junk k f x fs arr tail chunks O F U LT HC.
  destruct (stream_in junk PAT_16_ER_CCU [] (osmo_trau_sync_alloc PAT_16_ER_CCU) [] k f fs tail chunks) as (s & outs & E & EO).
  - constructor.
  - reflexivity.
  - exact (proj1 O).
  - exact (says_16_sync f x (proj2 O)).
  - clear - F. induction F as [|g a fs arr (L & _) F IH]; constructor; [exact L|exact IH].
  - apply (keeps_of (on_line says_16 320) _ _ arr); [|exact F|exact U]. intros g y (_ & S). exists (sync_patterns PAT_16_ER_CCU). split; [apply slots_primary; constructor|exact (says_16_sync g y S)].
  - exact LT.
  - exact HC.
  - exists s, outs. split; [exact E|]. rewrite EO. split.
    + intros I. apply in_map_iff in I as (g & G & _). discriminate G.
    + rewrite frames_map. cbn [map]. f_equal; [exact (dec_16 f (Some x) O)|]. clear - F. induction F as [|g a fs arr O F IH]; [reflexivity|]. cbn [map]. f_equal; [exact (dec_16 g a O)|exact IH].
Qed.

(** 64 kbit/s, with the pattern of MCS9 frames as the second one.  [un]: the decoder's memory
    that it does not write.  What is delivered of a frame: C45_64 (with its two errors). *)
Definition says_64 (un : bits) (f : bits) (x : ccu_frame) : Prop :=
  match x with
  | CSync s => ccu_sync_64 f s
  | CData r => (exists d, ccu_data_64 f d /\ r = deliver d) \/
     (exists d, ccu_data9_64 f d /\ r = deliver (with_block d (mcs9_delivered f un) 0%Z))
  | CNone => False
  end.
Lemma says_64_sync un f x : says_64 un f x -> matches (sync_patterns PAT_64_ER_CCU) f \/ matches (sync_patterns PAT_64_ER_CCU_MCS9) f.
Proof.
  destruct (C51_ericsson f) as (_ & A & A9 & _ & B). destruct x as [s|d|]; cbn [says_64]; [| |easy].
  - intros (H & _). left. now apply B.
  - intros [(y & (H & _) & _)|(y & (H & _) & _)]; [left; now apply A|right; now apply A9].
Qed.
Lemma dec_64 un f a : length un = 1234 -> on_line (says_64 un) 1280 f a -> er_gprs_trau_frame_decode_64k f un = arrival a.
Proof.
  intros Lu (L & H). destruct (C45_64 f un L Lu) as [(s & E & U & N1 & N2)|[(d & E & U & N1 & N2)|[(d & E & D1 & D2 & U & N1 & N2)|(E & N1 & N2 & N3)]]]; rewrite E; destruct a as [[s'|r|]|]; cbn [says_64] in H; try contradiction; unfold arrival.
  - apply U in H. now subst.
  - destruct H as [(y & H & _)|(y & H & _)]; [destruct (N1 _ H)|destruct (N2 _ H)].
  - exfalso. apply (H (CSync s)). now apply U.
  - destruct (N1 _ H).
  - destruct H as [(y & H & ->)|(y & H & _)]; [apply U in H; now subst|destruct (N2 _ H)].
  - exfalso. apply (H (CData (deliver d))). left. exists d. split; [now apply U|reflexivity].
  - destruct (N1 _ H).
  - destruct H as [(y & H & _)|(y & H & ->)]; [destruct (N2 _ H)|]. apply U in H. do 3 f_equal. rewrite <- D1, <- D2. rewrite H. destruct d; reflexivity.
  - exfalso. apply (H (CData (deliver d))). right. exists d. split; [apply U; destruct d; reflexivity|]. rewrite <- D1, <- D2. destruct d; reflexivity.
  - destruct (N1 _ H).
  - destruct H as [(y & H & _)|(y & H & _)]; [destruct (N2 _ H)|destruct (N3 _ H)].
  - reflexivity.
Qed.
(** the receiver: both patterns *)
Definition receiver_64 (junk : nat -> nat -> bool) (chunks : list bits) : option (sync * list (list out)) :=
  do_ops junk (osmo_trau_sync_alloc PAT_64_ER_CCU) (SetSecondary PAT_64_ER_CCU_MCS9 1 :: map Rx chunks).
Lemma receiver_ops junk chunks s outs : (exists s0 o0, do_ops junk (osmo_trau_sync_alloc PAT_64_ER_CCU) (map sec_op [(PAT_64_ER_CCU_MCS9, 1)]) = Some (s0, o0) /\ concat o0 = [] /\ do_ops junk s0 (map Rx chunks) = Some (s, outs)) ->
  exists outs', receiver_64 junk chunks = Some (s, outs') /\ concat outs' = concat outs.
Proof.
  intros (s0 & o0 & E & C & R). unfold receiver_64. cbn [map] in E. cbn [do_ops] in E |- *. change (sec_op (PAT_64_ER_CCU_MCS9, 1)) with (SetSecondary PAT_64_ER_CCU_MCS9 1) in E.
  destruct (do_op junk _ (SetSecondary _ _)) as [[s1 x]|]; [|discriminate E]. injection E as <- <-. rewrite R. eexists. split; [reflexivity|]. cbn [concat] in C |- *. rewrite app_nil_r in C. now rewrite C.
Qed.
(** 64 kbit/s: the same, if the first frame is not one of MCS9 *)
Theorem C79_uplink_64 : forall junk un k f x fs arr tail chunks, length un = 1234 ->
  on_line (says_64 un) 1280 f (Some x) -> (forall d, ~ ccu_data9_64 f d) -> Forall2 (on_line (says_64 un) 1280) fs arr -> usable arr -> length tail < 1280 ->
  concat chunks = repeat true k ++ concat (f :: fs) ++ tail ->
  exists s outs, receiver_64 junk chunks = Some (s, outs) /\
    ~ In Lost (concat outs) /\ map (fun f => er_gprs_trau_frame_decode_64k f un) (frames (concat outs)) = map arrival (Some x :: arr).
Proof.
  intros junk un k f x fs arr tail chunks Lu O N9 F U LT HC. set (secs := [(PAT_64_ER_CCU_MCS9, 1)]).
  assert (OK : secs_ok PAT_64_ER_CCU secs) by (constructor; [cbn; lia|constructor]).
  destruct (fresh_inv junk PAT_64_ER_CCU secs OK) as ((o0 & E0) & _).
  assert (C0 : concat o0 = []).
  { clear - E0. revert E0. generalize (fresh PAT_64_ER_CCU secs). intros z E0. unfold secs in E0. cbn [map do_ops] in E0. change (sec_op (PAT_64_ER_CCU_MCS9, 1)) with (SetSecondary PAT_64_ER_CCU_MCS9 1) in E0.
    assert (X : option_map snd (do_op junk (osmo_trau_sync_alloc PAT_64_ER_CCU) (SetSecondary PAT_64_ER_CCU_MCS9 1)) = Some []) by (vm_compute; reflexivity).
    destruct (do_op junk _ _) as [[s1 x1]|]; [|discriminate E0]. cbn [option_map snd] in X. injection X as ->. injection E0 as _ <-. reflexivity. }
  assert (MF : matches (sync_patterns PAT_64_ER_CCU) f).
  { destruct (C51_ericsson f) as (_ & A & _ & _ & B). destruct x as [s|r|]; destruct O as (_ & O); cbn [says_64] in O; [|destruct O as [(y & (O & _) & _)|(y & O & _)]|contradiction].
    - apply B. exact (proj1 O).
    - now apply A.
    - destruct (N9 _ O). }
  destruct (stream_in junk PAT_64_ER_CCU secs _ o0 k f fs tail chunks OK E0) as (s & outs & E & EO).
  - exact (proj1 O).
  - exact MF.
  - clear - F. induction F as [|g a fs arr (L & _) F IH]; constructor; [exact L|exact IH].
  - apply (keeps_of (on_line (says_64 un) 1280) _ _ arr); [|exact F|exact U]. intros g y (_ & S). destruct (says_64_sync un g y S) as [M|M]; eexists; (split; [|exact M]); [apply slots_primary; exact OK|].
    unfold slots. right. left. reflexivity.
  - exact LT.
  - exact HC.
  - destruct (receiver_ops junk chunks s outs) as (outs' & E' & EC); [exists (fresh PAT_64_ER_CCU secs), o0; auto|]. exists s, outs'. split; [exact E'|]. rewrite EC, EO. split.
    + intros I. apply in_map_iff in I as (g & G & _). discriminate G.
    + rewrite frames_map. cbn [map]. f_equal; [exact (dec_64 un f (Some x) Lu O)|]. clear - F Lu. induction F as [|g a fs arr O F IH]; [reflexivity|]. cbn [map]. f_equal; [exact (dec_64 un g a Lu O)|exact IH].
Qed.

(** ** What does not hold *)
(** REFUTED: MCS9 frames alone are never found, their pattern only keeps a receiver that has found
    another frame before: from a stream without 64 zeros in a row nothing is ever delivered *)
Fixpoint fits (c : nat) (l : bits) : bool :=
  match l with [] => true | true :: r => fits 0 r | false :: r => if c + 1 <? 64 then fits (c + 1) r else false end.
Lemma fits_zeros n : forall c b, 64 <= c + n -> c < 64 -> fits c (repeat false n ++ b) = false.
Proof.
  induction n as [|n IH]; intros c b H1 H2; [lia|]. cbn [repeat app fits]. destruct (Nat.ltb_spec (c + 1) 64); [|reflexivity]. apply IH; lia.
Qed.
Lemma fits_run a b : forall c, c < 64 -> fits c (a ++ repeat false 64 ++ b) = false.
Proof.
  induction a as [|x a IH]; intros c H; [apply (fits_zeros 64 c b); lia|]. cbn [app fits]. destruct x; [apply IH; lia|]. destruct (Nat.ltb_spec (c + 1) 64); [|reflexivity]. now apply IH.
Qed.
Lemma app_split_at {A} (x y u v : list A) : x ++ y = u ++ v -> length x <= length u -> exists w, u = x ++ w /\ y = w ++ v.
Proof.
  revert u. induction x as [|a x IH]; intros u E L; [now exists u|]. destruct u as [|b u]; [cbn in L; lia|]. cbn in E, L. injection E as -> E. destruct (IH u E ltac:(lia)) as (w & -> & ->). now exists w.
Qed.
Lemma nth_error_same {A} (l l' : list A) : (forall i, nth_error l i = nth_error l' i) -> l = l'.
Proof.
  revert l'. induction l as [|x l IH]; intros [|y l'] H; [reflexivity|specialize (H 0); discriminate H|specialize (H 0); discriminate H|].
  pose proof (H 0) as H0. cbn in H0. injection H0 as ->. f_equal. apply IH. intros i. exact (H (S i)).
Qed.
Theorem C79_needs_zeros : forall junk chunks, (forall a b, concat chunks <> a ++ repeat false 64 ++ b) ->
  exists s outs, receiver_64 junk chunks = Some (s, outs) /\ concat outs = [].
Proof.
  intros junk chunks NZ. set (secs := [(PAT_64_ER_CCU_MCS9, 1)]).
  assert (OK : secs_ok PAT_64_ER_CCU secs) by (constructor; [cbn; lia|constructor]).
  destruct (fresh_inv junk PAT_64_ER_CCU secs OK) as ((o0 & E0) & _).
  assert (C0 : concat o0 = []).
  { clear - E0. revert E0. generalize (fresh PAT_64_ER_CCU secs). intros z E0. unfold secs in E0. cbn [map do_ops] in E0. change (sec_op (PAT_64_ER_CCU_MCS9, 1)) with (SetSecondary PAT_64_ER_CCU_MCS9 1) in E0.
    assert (X : option_map snd (do_op junk (osmo_trau_sync_alloc PAT_64_ER_CCU) (SetSecondary PAT_64_ER_CCU_MCS9 1)) = Some []) by (vm_compute; reflexivity).
    destruct (do_op junk _ _) as [[s1 x1]|]; [|discriminate E0]. cbn [option_map snd] in X. injection X as ->. injection E0 as _ <-. reflexivity. }
  assert (OKO : ops_ok PAT_64_ER_CCU (map sec_op secs)) by (cbn; lia).
  destruct (C30_no_false_delivery junk PAT_64_ER_CCU secs _ o0 (concat chunks) OK E0) as (s' & R).
  - intros k Hk M. apply C51_patterns in M. set (L := frame_len PAT_64_ER_CCU) in *.
    set (w := lastn L (repeat true L ++ firstn k (concat chunks))) in *.
    assert (LS : length (repeat true L ++ firstn k (concat chunks)) = L + k) by (rewrite app_length, repeat_length, firstn_length; lia).
    assert (W64 : firstn 64 w = repeat false 64).
    { assert (PW : forall j, j < 64 -> nth_error w j = Some false). { intros j Hj. apply M. assert (A : forallb (fun j => existsb (fun x => (fst x =? j) && negb (snd x)) (published PAT_64_ER_CCU)) (seq 0 64) = true) by (vm_compute; reflexivity).
        rewrite forallb_forall in A. specialize (A j ltac:(apply in_seq; lia)). apply existsb_exists in A as ([y v] & I & A). apply andb_true_iff in A as [A1 A2]. cbn in A1, A2. apply Nat.eqb_eq in A1. apply negb_true_iff in A2. now subst. }
      apply nth_error_same. intros j. destruct (Nat.lt_ge_cases j 64) as [Hj|Hj].
      - rewrite nth_error_firstn by exact Hj. rewrite (PW j Hj). symmetry. now apply nth_error_repeat.
      - rewrite (proj2 (nth_error_None _ _)), (proj2 (nth_error_None _ _)); [reflexivity|rewrite repeat_length; lia|rewrite firstn_length; lia]. }
    set (u := firstn k (repeat true L ++ firstn k (concat chunks))).
    assert (EQ : repeat true L ++ firstn k (concat chunks) = u ++ repeat false 64 ++ skipn 64 w).
    { rewrite <- W64, firstn_skipn. unfold u, w, lastn. rewrite LS. replace (L + k - L) with k by lia. now rewrite firstn_skipn. }
    assert (LU : length u = k) by (unfold u; rewrite firstn_length, LS; lia).
    destruct (Nat.lt_ge_cases k L) as [B|B].
    + assert (X : nth_error (repeat true L ++ firstn k (concat chunks)) k = Some true) by (rewrite nth_error_app1 by (rewrite repeat_length; lia); now apply nth_error_repeat).
      rewrite EQ, nth_error_app2, LU, Nat.sub_diag in X by lia. discriminate X.
    + destruct (app_split_at _ _ _ _ EQ) as (v & -> & Y); [rewrite repeat_length; lia|].
      apply (NZ v (skipn 64 w ++ skipn k (concat chunks))). rewrite <- (firstn_skipn k (concat chunks)) at 1. rewrite Y, <- !app_assoc. reflexivity.
  - destruct (C29_chunking junk PAT_64_ER_CCU (map sec_op secs) _ o0 chunks OKO E0) as (s2 & outs & E1 & E2). rewrite R in E2.
    destruct (receiver_ops junk chunks s2 outs) as (outs' & E' & EC); [exists (fresh PAT_64_ER_CCU secs), o0; auto|]. exists s2, outs'. split; [exact E'|]. congruence.
Qed.

Lemma concat_repeat_fits n : fits 0 (concat (repeat wit_mcs9 n)) = true.
Proof.
  induction n as [|n IH]; [reflexivity|]. cbn [repeat concat]. assert (X : forall r, fits 0 (wit_mcs9 ++ r) = fits 0 r) by (intros r; vm_compute; reflexivity). now rewrite X.
Qed.
Theorem C79_mcs9_refuted : exists f d, length f = 1280 /\ ccu_data9_64 f d /\ forall junk n chunks, concat chunks = concat (repeat f n) ->
  exists s outs, receiver_64 junk chunks = Some (s, outs) /\ concat outs = [].
Proof.
  destruct (C45_64 wit_mcs9 (repeat false 1234) ltac:(vm_compute; reflexivity) ltac:(apply repeat_length)) as [(s & E & _)|[(d & E & U & _)|[(d & E & _ & _ & U & _)|(E & _)]]];
    pose proof C45_mcs9_witness as (_ & X); rewrite E in X; try contradiction.
  - exfalso. destruct (proj2 (U d) eq_refl) as (_ & H & _). vm_compute in H. discriminate H.
  - exists wit_mcs9, d. split; [vm_compute; reflexivity|]. split; [apply U; destruct d; reflexivity|]. clear. intros junk n chunks HC. apply C79_needs_zeros. intros a b X. rewrite HC in X.
    assert (F : fits 0 (a ++ repeat false 64 ++ b) = true) by (rewrite <- X; exact (concat_repeat_fits n)). rewrite fits_run in F by lia. discriminate F.
Qed.
(** REFUTED: a receiver that starts in the middle of the stream finds the frames.  The pattern of
    16 kbit/s is 17 bits, which the data of a frame may contain: where the same block is sent
    again and again, a receiver that starts there takes it for the start of the frame and never
    notices; all it ever gets is errors. *)
Lemma rotate {A} (u v : list A) n : v ++ concat (repeat (u ++ v) n) = concat (repeat (v ++ u) n) ++ v.
Proof. induction n as [|n IH]; cbn [repeat concat]; [now rewrite app_nil_r|]. rewrite <- !app_assoc. f_equal. f_equal. exact IH. Qed.
Definition wit_cs2_16 : bits :=
  let c := lsb_bits 5 (Z.testbit 0x1a) ++ [false; false] in let e := repeat true 1 ++ [false; false; true] ++ repeat true 10 ++ [true; true; false] ++ [true; true] in
  repeat false 16 ++ [true] ++ c ++ [fold_left xorb c true] ++ e ++ [fold_left xorb e true] ++ repeat true 100 ++ repeat false 16 ++ repeat true 159.
Theorem C79_join_refuted : exists f d j, length f = 320 /\ ccu_data_16 f d /\ j < 320 /\
  forall junk n chunks, concat chunks = skipn j f ++ concat (repeat f (S n)) ->
  exists s outs, do_ops junk (osmo_trau_sync_alloc PAT_16_ER_CCU) (map Rx chunks) = Some (s, outs) /\
    ~ In Lost (concat outs) /\ map er_gprs_trau_frame_decode_16k (frames (concat outs)) = repeat (Some ((-22)%Z, CNone)) (S n).
Proof.
  assert (LW : length wit_cs2_16 = 320) by (vm_compute; reflexivity).
  assert (DW : match er_gprs_trau_frame_decode_16k wit_cs2_16 with Some (rc, CData d) => rc = 0%Z /\ cd_len d = 34%Z | _ => False end) by (vm_compute; split; reflexivity).
  destruct (C45_16 wit_cs2_16 LW) as [(s & E & _)|[(d & E & U & _)|(E & _)]]; rewrite E in DW; try contradiction.
  exists wit_cs2_16, d, 145. split; [exact LW|]. split; [now apply U|]. split; [lia|]. clear E U DW d.
  intros junk n chunks HC. set (u := firstn 145 wit_cs2_16) in *. set (v := skipn 145 wit_cs2_16) in *. set (g := v ++ u).
  assert (F : wit_cs2_16 = u ++ v) by (symmetry; apply firstn_skipn). rewrite F, rotate in HC. fold g in HC.
  assert (LG : length g = 320) by (vm_compute; reflexivity).
  assert (MG : matches (sync_patterns PAT_16_ER_CCU) g).
  { destruct (C51_ericsson g) as (A & _). apply A. apply (synced_data_16 g LG). vm_compute. reflexivity. }
  destruct (stream_in junk PAT_16_ER_CCU [] (osmo_trau_sync_alloc PAT_16_ER_CCU) [] 0 g (repeat g n) v chunks) as (s & outs & E & EO).
  - constructor.
  - reflexivity.
  - exact LG.
  - exact MG.
  - apply Forall_forall. intros x X. apply repeat_spec in X. now subst.
  - intros a x y z b X. left. exists (sync_patterns PAT_16_ER_CCU). split; [apply slots_primary; constructor|].
    assert (IX : In x (repeat g n)) by (rewrite X; apply in_or_app; right; now left). apply repeat_spec in IX. now subst.
  - unfold v. rewrite skipn_length, LW. cbn. lia.
  - exact HC.
  - exists s, outs. split; [exact E|]. rewrite EO. split.
    + intros I. apply in_map_iff in I as (x & X & _). discriminate X.
    + rewrite frames_map. change (g :: repeat g n) with (repeat g (S n)). assert (D : er_gprs_trau_frame_decode_16k g = Some ((-22)%Z, CNone)) by (vm_compute; reflexivity).
      rewrite <- D. clear. induction (S n) as [|m IH]; [reflexivity|]. cbn [repeat map]. now rewrite IH.
Qed.

(** hypotheses are met: a sync frame (made by hand), a data frame, a damaged frame, a data frame *)
Example C79_example_16 : exists x d, on_line says_16 320 wit_cs1_16 (Some x) /\ on_line says_16 320 wit_cs2_16 (Some d) /\ x <> d /\
  on_line says_16 320 (firstn 60 wit_cs1_16 ++ [negb (nth 60 wit_cs1_16 false)] ++ skipn 61 wit_cs1_16) None /\ usable [Some d; None; Some x; None; None; Some d].
Proof.
  assert (K : forall f, length f = 320 -> match er_gprs_trau_frame_decode_16k f with Some (0%Z, CData d) => says_16 f (CData d) | Some ((-22)%Z, CNone) => forall x, ~ says_16 f x | _ => True end).
  { intros f L. destruct (C45_16 f L) as [(s & E & U & N)|[(d & E & U & N)|(E & N1 & N2)]]; rewrite E; [exact Logic.I|now apply U|]. intros [s|d|]; cbn [says_16]; auto. }
  assert (L1 : length wit_cs1_16 = 320) by (vm_compute; reflexivity). assert (L2 : length wit_cs2_16 = 320) by (vm_compute; reflexivity).
  assert (L3 : length (firstn 60 wit_cs1_16 ++ [negb (nth 60 wit_cs1_16 false)] ++ skipn 61 wit_cs1_16) = 320) by (vm_compute; reflexivity).
  pose proof (K _ L1) as K1. pose proof (K _ L2) as K2. pose proof (K _ L3) as K3.
  pose proof C45_16_witness as (_ & W1 & W3). rewrite W3 in K3.
  assert (W2 : match er_gprs_trau_frame_decode_16k wit_cs2_16 with Some (rc, CData d) => rc = 0%Z /\ cd_len d = 34%Z | _ => False end) by (vm_compute; split; reflexivity).
  destruct (er_gprs_trau_frame_decode_16k wit_cs1_16) as [[rc [s|d|]]|]; try contradiction. destruct W1 as (-> & _ & W1 & _).
  destruct (er_gprs_trau_frame_decode_16k wit_cs2_16) as [[rc [s|d2|]]|]; try contradiction. destruct W2 as (-> & W2).
  exists (CData d), (CData d2). split; [split; [exact L1|exact K1]|]. split; [split; [exact L2|exact K2]|]. split; [intros X; injection X as ->; congruence|]. split; [split; [exact L3|exact K3]|].
  intros a b X. do 6 (destruct a as [|? a]; [discriminate X|cbn in X; try discriminate X; injection X as _ X]); destruct a; discriminate X.
Qed.
Example C79_example_64 : exists x, on_line (says_64 (repeat true 1234)) 1280 wit_cs2 (Some x) /\ forall d, ~ ccu_data9_64 wit_cs2 d.
Proof.
  assert (L : length wit_cs2 = 1280) by (vm_compute; reflexivity). pose proof C45_64_witness as (_ & W).
  destruct (C45_64 wit_cs2 (repeat true 1234) L ltac:(apply repeat_length)) as [(s & E & _)|[(d & E & U & _ & N)|[(d & E & _ & LL & _)|(E & _)]]]; rewrite E in W; try contradiction.
  - exists (CData (deliver d)). split; [split; [exact L|]|exact N]. left. exists d. split; [now apply U|reflexivity].
  - exfalso. destruct W as (_ & _ & W2 & _). cbn [deliver cd_len] in W2. congruence.
Qed.
Print Assumptions C79_uplink_16.
Print Assumptions C79_uplink_64.
Print Assumptions C79_join_refuted.
