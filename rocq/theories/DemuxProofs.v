From Coq Require Import List Arith Lia Bool ZArith.
From Verif Require Import Base Spec OldTrauModel DemuxSpec DemuxModel.
Import ListNotations.

(** * Bit streams *)
Definition tz (h : bits) : nat := fold_left (fun z (b : bool) => if b then 0 else S z) h 0.

Lemma tz_snoc h b : tz (h ++ [b]) = if b then 0 else S (tz h).
Proof. unfold tz. now rewrite fold_left_app. Qed.

Lemma tz_spec h : forall n, n <= tz h <-> exists p, h = p ++ repeat false n.
Proof.
  induction h as [|b h IH] using rev_ind; intros n.
  - cbn. split.
    + intros H. exists []. now replace n with 0 by lia.
    + intros [p E]. apply (f_equal (@length _)) in E. rewrite app_length, repeat_length in E. cbn in E. lia.
  - rewrite tz_snoc. destruct n as [|n].
    { split; [|lia]. intros _. exists (h ++ [b]). now rewrite app_nil_r. }
    assert (R : repeat false (S n) = repeat false n ++ [false]).
    { change (S n) with (1 + n). rewrite Nat.add_comm, repeat_app. reflexivity. }
    destruct b.
    + split; [lia|]. intros [p E]. rewrite R, app_assoc in E. apply app_inj_tail in E. destruct E; discriminate.
    + rewrite R. split.
      * intros H. apply le_S_n in H. apply IH in H. destruct H as [p ->]. exists p. now rewrite app_assoc.
      * intros [p E]. rewrite app_assoc in E. apply app_inj_tail in E. destruct E as [E _].
        apply le_n_S. apply IH. now exists p.
Qed.

Lemma sync_at_length h k : sync_at h k -> k + 17 <= length h.
Proof.
  unfold sync_at. intros E. apply (f_equal (@length _)) in E.
  rewrite firstn_length, skipn_length in E. change (length sync_header) with 17 in E. lia.
Qed.

Lemma sync_at_app_l h x k : k + 17 <= length h -> sync_at (h ++ x) k <-> sync_at h k.
Proof.
  intros H. unfold sync_at. rewrite skipn_app, firstn_app, skipn_length.
  replace (17 - (length h - k)) with 0 by lia. now rewrite firstn_O, app_nil_r.
Qed.

Lemma sync_at_snoc h b k : sync_at (h ++ [b]) k <->
  sync_at h k \/ (k + 17 = S (length h) /\ b = true /\ 16 <= tz h).
Proof.
  destruct (Nat.le_gt_cases (k + 17) (length h)) as [L|L].
  { rewrite sync_at_app_l by assumption. split; [tauto|]. intros [H|[H _]]; [assumption|lia]. }
  split.
  - intros S. pose proof (sync_at_length _ _ S) as L'. rewrite app_length in L'. cbn [length] in L'.
    right. assert (Ek : k + 17 = Datatypes.S (length h)) by lia. split; [assumption|].
    unfold sync_at in S. rewrite firstn_all2 in S by (rewrite skipn_length, app_length; cbn [length]; lia).
    rewrite skipn_app in S. replace (k - length h) with 0 in S by lia. cbn [skipn] in S.
    unfold sync_header in S. apply app_inj_tail in S. destruct S as [S ->]. split; [reflexivity|].
    apply tz_spec. exists (firstn k h). rewrite <- S. symmetry. apply firstn_skipn.
  - intros [S|(Ek & -> & Hz)]; [apply sync_at_length in S; lia|].
    apply tz_spec in Hz. destruct Hz as [p ->]. rewrite app_length, repeat_length in Ek.
    unfold sync_at. rewrite <- app_assoc, skipn_app_exact by lia. reflexivity.
Qed.

Lemma sync_atb_spec h k : sync_atb h k = true <-> sync_at h k.
Proof. unfold sync_atb, sync_at. now destruct (list_eq_dec bool_dec _ _). Qed.

Lemma sync_atb_app_l h x k : k + 17 <= length h -> sync_atb (h ++ x) k = sync_atb h k.
Proof.
  intros H. apply Bool.eq_iff_eq_true. rewrite !sync_atb_spec. now apply sync_at_app_l.
Qed.

Lemma frame_ends_at_spec h t : frame_ends_at h t = true <->
  320 <= t /\ sync_at h (t - 320) /\ forall k, t - 320 < k -> k + 17 <= t -> ~ sync_at h k.
Proof.
  unfold frame_ends_at. rewrite !andb_true_iff, Nat.leb_le, sync_atb_spec, forallb_forall. split.
  - intros [[L S] N]. split; [assumption|]. split; [assumption|]. intros k Hk Hk' Sk.
    apply sync_atb_spec in Sk. specialize (N k). rewrite Sk in N.
    discriminate N. apply in_seq. lia.
  - intros (L & S & N). split; [split; assumption|]. intros k Hk. apply in_seq in Hk.
    destruct (sync_atb h k) eqn:E; [|reflexivity]. exfalso. apply sync_atb_spec in E.
    apply (N k); try assumption; lia.
Qed.

Lemma frame_ends_at_app_l h x t : t <= length h -> frame_ends_at (h ++ x) t = frame_ends_at h t.
Proof.
  intros H. apply Bool.eq_iff_eq_true. rewrite !frame_ends_at_spec. split; intros (L & S & N).
  - split; [assumption|]. split; [apply sync_at_app_l in S; [assumption|lia]|].
    intros k K1 K2 SS. apply (N k); try assumption. apply sync_at_app_l; [lia|assumption].
  - split; [assumption|]. split; [apply sync_at_app_l; [lia|assumption]|].
    intros k K1 K2 SS. apply (N k); try assumption. apply sync_at_app_l in SS; [assumption|lia].
Qed.

Lemma flat_map_ext_in {A B} (f g : A -> list B) l : (forall x, In x l -> f x = g x) -> flat_map f l = flat_map g l.
Proof.
  induction l as [|a l IH]; intros H; [reflexivity|]. cbn. rewrite H by now left.
  f_equal. apply IH. intros x Hx. apply H. now right.
Qed.

Lemma frames_of_snoc h b : frames_of (h ++ [b]) = frames_of h ++
  (if frame_ends_at (h ++ [b]) (S (length h)) then [firstn 320 (skipn (S (length h) - 320) (h ++ [b]))] else []).
Proof.
  unfold frames_of. rewrite app_length. cbn [length]. rewrite Nat.add_1_r.
  rewrite (seq_S (S (length h))), flat_map_app. cbn [plus flat_map]. rewrite app_nil_r. f_equal.
  apply flat_map_ext_in. intros t Ht. apply in_seq in Ht.
  rewrite frame_ends_at_app_l by lia. destruct (frame_ends_at h t) eqn:E; [|reflexivity].
  apply frame_ends_at_spec in E. destruct E as [L _].
  f_equal. rewrite skipn_app, firstn_app, skipn_length.
  replace (320 - (length h - (t - 320))) with 0 by lia. now rewrite firstn_O, app_nil_r.
Qed.

Lemma frames_of_nil : frames_of [] = [].
Proof. reflexivity. Qed.

Lemma no_huge_prefix h x : no_huge_gap (h ++ x) -> no_huge_gap h.
Proof.
  intros H k n E. apply (H k n). rewrite skipn_app, firstn_app.
  assert (L : n <= length (skipn k h)).
  { apply (f_equal (@length _)) in E. rewrite firstn_length, repeat_length in E. lia. }
  replace (n - length (skipn k h)) with 0 by lia. now rewrite firstn_O, app_nil_r.
Qed.

Lemma no_huge_tz h : no_huge_gap h -> (Z.of_nat (tz h) < 2 ^ 32)%Z.
Proof.
  intros H. destruct (proj1 (tz_spec h (tz h)) (le_n _)) as [p E].
  apply (H (length p)). rewrite E at 2. rewrite skipn_app_exact by reflexivity.
  rewrite firstn_all2; [reflexivity|]. rewrite repeat_length. lia.
Qed.

(** * One sub-channel *)
Record inv (h : bits) (s : sch) : Prop := {
  inv_len : length (out_bitbuf s) = 320;
  inv_idx : out_idx s < 320;
  inv_z : consecutive_zeros s = (Z.of_nat (tz h) mod UINT_MOD)%Z;
  inv_in : in_sync s = true -> exists k, k + out_idx s = length h /\ 17 <= out_idx s /\
     sync_at h k /\ (forall k', k < k' -> ~ sync_at h k') /\ tz h < 320 /\
     firstn (out_idx s) (out_bitbuf s) = skipn k h;
  inv_out : no_huge_gap h -> in_sync s = false -> forall k, sync_at h k -> k + 320 <= length h }.

Definition fresh_sch (s : sch) : Prop :=
  length (out_bitbuf s) = 320 /\ out_idx s = 0 /\ consecutive_zeros s = 0%Z /\ in_sync s = false.

Lemma inv_fresh s : fresh_sch s -> inv [] s.
Proof.
  intros (L & I & Z & S). split; try assumption.
  - lia.
  - congruence.
  - intros _ _ k Hk. apply sync_at_length in Hk. cbn in Hk. lia.
Qed.

Lemma put_firstn {A} (l l' : list A) i v : put l i v = Some l' -> firstn (S i) l' = firstn i l ++ [v].
Proof.
  unfold put. destruct (Nat.ltb_spec i (length l)); [|discriminate]. intros E; injection E as <-.
  match goal with |- firstn _ (_ ++ v :: ?r) = _ => change (v :: r) with ([v] ++ r) end.
  rewrite app_assoc.
  apply firstn_app_exact. rewrite app_length, firstn_length. cbn. lia.
Qed.

Lemma sch_step_inv h s b : inv h s ->
  exists s' fr, sch_step s b = Some (s', fr) /\ inv (h ++ [b]) s' /\
   (forall f, In f fr -> exists g, frames_of (h ++ [b]) = frames_of h ++ [g]  /\ fr = [g]) /\
   (no_huge_gap (h ++ [b]) -> frames_of (h ++ [b]) = frames_of h ++ fr).
Proof.
  intros [Il Ii Iz Iin Iout].
  unfold sch_step, append_bit. rewrite put_splice by lia.
  set (buf1 := splice (out_bitbuf s) (out_idx s) [b]).
  assert (L1 : length buf1 = 320) by (unfold buf1; rewrite splice_length; cbn [length]; lia).
  assert (F1 : firstn (S (out_idx s)) buf1 = firstn (out_idx s) (out_bitbuf s) ++ [b]).
  { unfold buf1. apply put_firstn. apply put_splice. lia. }
  assert (Lh' : length (h ++ [b]) = S (length h)) by (rewrite app_length; cbn; lia).
  unfold sync_hdr_complete. cbn [out_bitbuf out_idx consecutive_zeros in_sync].
  set (hdr := (b && (16 <=? consecutive_zeros s))%Z).
  (* exactness of the counter *)
  assert (Zin : in_sync s = true -> consecutive_zeros s = Z.of_nat (tz h)).
  { intros Hi. destruct (Iin Hi) as (k & _ & _ & _ & _ & Ht & _). rewrite Iz. apply Z.mod_small.
    unfold UINT_MOD. split; [lia|]. apply Z.lt_trans with 320%Z; [lia|reflexivity]. }
  assert (Zh : no_huge_gap h -> consecutive_zeros s = Z.of_nat (tz h)).
  { intros Hh. rewrite Iz. apply Z.mod_small. apply no_huge_tz in Hh. unfold UINT_MOD. lia. }
  assert (Zge : (16 <= consecutive_zeros s)%Z -> 16 <= tz h).
  { rewrite Iz. intros H. pose proof (Z.mod_le (Z.of_nat (tz h)) UINT_MOD ltac:(lia) ltac:(reflexivity)). lia. }
  assert (Z' : (if negb b then ((consecutive_zeros s + 1) mod UINT_MOD)%Z else 0%Z) =
               (Z.of_nat (tz (h ++ [b])) mod UINT_MOD)%Z).
  { rewrite tz_snoc. destruct b; cbn [negb]; [reflexivity|]. rewrite Iz, Nat2Z.inj_succ.
    rewrite Zplus_mod_idemp_l. reflexivity. }
  destruct hdr eqn:Hdr; unfold hdr in Hdr.
  - (* header complete *)
    apply andb_true_iff in Hdr. destruct Hdr as [-> Hz]. cbn [negb].
    change (Z.of_nat SYNC_HDR_BITS) with 16%Z. rewrite Hz. apply Z.leb_le in Hz.
    assert (T : 16 <= tz h) by now apply Zge.
    assert (Shere : sync_at (h ++ [true]) (S (length h) - 17)).
    { apply sync_at_snoc. right. destruct (proj1 (tz_spec h 16) T) as [p ->].
      rewrite app_length, repeat_length. repeat split; try assumption. lia. }
    pose proof (sync_at_length _ _ Shere) as LL.
    unfold resync_to_here, memset. cbn [out_bitbuf out_idx consecutive_zeros in_sync].
    rewrite blit_splice by (rewrite repeat_length; unfold SYNC_HDR_BITS; lia).
    rewrite put_splice by (rewrite splice_length; rewrite ?repeat_length; unfold SYNC_HDR_BITS; lia).
    cbn [out_bitbuf out_idx consecutive_zeros in_sync].
    change (TRAU_FRAME_BITS <=? SYNC_HDR_BITS + 1) with false. cbn iota.
    rewrite splice_next by (rewrite ?repeat_length; unfold SYNC_HDR_BITS; cbn [length]; lia).
    eexists; exists []. split; [reflexivity|]. split; [|split].
    + split; cbn [out_bitbuf out_idx consecutive_zeros in_sync].
      * rewrite splice_length; [assumption|]. cbn; lia.
      * cbn; lia.
      * exact Z'.
      * intros _. exists (S (length h) - 17). rewrite Lh'. split; [cbn; lia|]. split; [cbn; lia|].
        split; [assumption|]. split.
        { intros k' Hk' Sk'. apply sync_at_length in Sk'. lia. }
        split; [rewrite tz_snoc; lia|].
        unfold sync_at in Shere. rewrite firstn_all2 in Shere by (rewrite skipn_length, Lh'; lia).
        rewrite Shere. reflexivity.
      * discriminate.
    + intros f [].
    + intros _. rewrite frames_of_snoc.
      destruct (frame_ends_at _ _) eqn:E; [|reflexivity]. exfalso.
      apply frame_ends_at_spec in E. destruct E as (L & _ & N).
      apply (N (S (length h) - 17)); try assumption; lia.
  - (* no header *)
    assert (NS : in_sync s = true \/ no_huge_gap h -> forall k, sync_at (h ++ [b]) k -> sync_at h k).
    { intros Hor k Sk. apply sync_at_snoc in Sk. destruct Sk as [Sk|(Ek & -> & T)]; [assumption|].
      exfalso. cbn [andb] in Hdr. apply Z.leb_gt in Hdr.
      destruct Hor as [Hi|Hh]; [rewrite (Zin Hi) in Hdr|rewrite (Zh Hh) in Hdr]; lia. }
    match goal with |- context [let '(_, _) := ?e in _] =>
      replace e with (mkSch buf1 (S (out_idx s)) (Z.of_nat (tz (h ++ [b])) mod UINT_MOD)%Z (in_sync s), false) end.
    2:{ rewrite <- Z'. destruct b; cbn [negb andb] in *; [change (Z.of_nat SYNC_HDR_BITS) with 16%Z; rewrite Hdr|]; reflexivity. }
    cbn [out_bitbuf out_idx consecutive_zeros in_sync].
    destruct (Nat.leb_spec TRAU_FRAME_BITS (S (out_idx s))) as [Hfull|Hfull].
    + assert (Ei : out_idx s = 319) by (unfold TRAU_FRAME_BITS in *; lia).
      destruct (in_sync s) eqn:Hi.
      * destruct (Iin eq_refl) as (k & Ek & K17 & Sk & Nk & Ht & Fk).
        rewrite slice_some by (rewrite L1; lia). cbn [skipn].
        rewrite F1, Fk.
        assert (W : skipn k h ++ [b] = firstn 320 (skipn (S (length h) - 320) (h ++ [b]))).
        { rewrite firstn_all2 by (rewrite skipn_length, Lh'; lia).
          replace (S (length h) - 320) with k by lia. rewrite skipn_app.
          now replace (k - length h) with 0 by lia. }
        assert (FE : frame_ends_at (h ++ [b]) (S (length h)) = true).
        { apply frame_ends_at_spec. split; [lia|]. replace (S (length h) - 320) with k by lia. split.
          - apply sync_at_snoc. now left.
          - intros k' K1 K2 SS. apply NS in SS; [|now left]. now apply (Nk k'). }
        eexists; eexists. split; [reflexivity|]. split; [|split].
        -- split; cbn [out_bitbuf out_idx consecutive_zeros in_sync]; try assumption; try lia; try discriminate.
           intros Hh _ k' SS. apply NS in SS; [|now left]. rewrite Lh'.
           assert (k' <= k) by (destruct (Nat.le_gt_cases k' k); [assumption|exfalso; now apply (Nk k')]). lia.
        -- intros f _. eexists. rewrite frames_of_snoc, FE, W. split; reflexivity.
        -- intros _. rewrite frames_of_snoc, FE, W. reflexivity.
      * eexists; exists []. split; [reflexivity|]. split; [|split].
        -- split; cbn [out_bitbuf out_idx consecutive_zeros in_sync]; try assumption; try lia; try discriminate.
           intros Hh _ k SS. apply no_huge_prefix in Hh. apply NS in SS; [|now right]. rewrite Lh'.
           specialize (Iout Hh eq_refl k SS). lia.
        -- intros f [].
        -- intros Hh. apply no_huge_prefix in Hh. rewrite frames_of_snoc.
           destruct (frame_ends_at _ _) eqn:E; [|reflexivity]. exfalso.
           apply frame_ends_at_spec in E. destruct E as (L & SS & _). apply NS in SS; [|now right].
           specialize (Iout Hh eq_refl _ SS). lia.
    + unfold TRAU_FRAME_BITS in Hfull. eexists; exists []. split; [reflexivity|]. split; [|split].
      * split; cbn [out_bitbuf out_idx consecutive_zeros in_sync]; try assumption; try lia; try reflexivity.
        -- intros Hi. destruct (Iin Hi) as (k & Ek & K17 & Sk & Nk & Ht & Fk). exists k.
           rewrite Lh'. split; [lia|]. split; [lia|]. split; [apply sync_at_snoc; now left|].
           split; [intros k' K1 SS; apply NS in SS; [|now left]; now apply (Nk k')|].
           assert (tz (h ++ [b]) <= S (out_idx s) - 17 \/ tz h < 319) as Hd.
           { left. rewrite tz_snoc. destruct b; [lia|].
             apply Nat.nlt_ge. intros Hlt. assert (H17 : out_idx s - 17 + 1 <= tz h) by lia.
             apply tz_spec in H17. destruct H17 as [p Eh].
             assert (Lp : length p = k + 16).
             { apply (f_equal (@length _)) in Eh. rewrite app_length, repeat_length in Eh. lia. }
             unfold sync_at in Sk. rewrite Eh in Sk.
             rewrite skipn_app, firstn_app, skipn_length, Lp in Sk.
             replace (k - (k + 16)) with 0 in Sk by lia. replace (17 - (k + 16 - k)) with 1 in Sk by lia.
             cbn [skipn] in Sk. replace (out_idx s - 17 + 1) with (S (out_idx s - 17)) in Sk by lia.
             cbn [repeat firstn] in Sk. unfold sync_header in Sk. apply app_inj_tail in Sk.
             destruct Sk; discriminate. }
           split; [destruct b; rewrite tz_snoc in *; lia|].
           rewrite F1, Fk, skipn_app. now replace (k - length h) with 0 by lia.
        -- intros Hh Hi k SS. apply no_huge_prefix in Hh. apply NS in SS; [|now right]. rewrite Lh'.
           specialize (Iout Hh Hi k SS). lia.
      * intros f [].
      * intros Hh. apply no_huge_prefix in Hh. rewrite frames_of_snoc.
        destruct (frame_ends_at _ _) eqn:E; [|now rewrite !app_nil_r]. exfalso.
        apply frame_ends_at_spec in E. destruct E as (L & SS & N).
        assert (Sk : sync_at h (S (length h) - 320)) by (apply NS in SS; [assumption|now right]).
        destruct (in_sync s) eqn:Hi.
        -- destruct (Iin eq_refl) as (k & Ek & K17 & Sk0 & Nk & Ht & Fk).
           assert (S (length h) - 320 < k) by lia.
           apply (N k); try lia. apply sync_at_snoc. now left.
        -- specialize (Iout Hh eq_refl _ Sk). lia.
Qed.

(** * The whole demultiplexer *)
Definition calls_of (c : nat) (tr : list call) : list bits :=
  map snd (filter (fun x => fst x =? c) tr).

Lemma calls_of_app c t1 t2 : calls_of c (t1 ++ t2) = calls_of c t1 ++ calls_of c t2.
Proof. unfold calls_of. now rewrite filter_app, map_app. Qed.

Lemma calls_of_pair_same c fr : calls_of c (map (pair c) fr) = fr.
Proof. unfold calls_of. induction fr; cbn; [reflexivity|]. rewrite Nat.eqb_refl. cbn. now f_equal. Qed.

Lemma calls_of_pair_other c c' fr : c <> c' -> calls_of c (map (pair c') fr) = [].
Proof.
  intros N. unfold calls_of. induction fr; cbn; [reflexivity|].
  destruct (Nat.eqb_spec c' c); [congruence|assumption].
Qed.

Lemma sublist_refl {A} (l : list A) : sublist l l.
Proof. induction l; [apply sub_nil|now apply sub_take]. Qed.
Lemma sublist_app {A} (l m l' m' : list A) : sublist l m -> sublist l' m' -> sublist (l ++ l') (m ++ m').
Proof. intros H; induction H; intros; cbn; [assumption|apply sub_skip; auto|apply sub_take; auto]. Qed.
Lemma sublist_nil {A} (l : list A) : sublist [] l.
Proof. induction l; constructor; assumption. Qed.

Definition CI (c : nat) (h : bits) (s : sch) (tr : list call) : Prop :=
  inv h s /\ sublist (calls_of c tr) (frames_of h) /\
  (no_huge_gap h -> calls_of c tr = frames_of h).

Lemma CI_step c h s tr b : CI c h s tr -> exists s' fr, sch_step s b = Some (s', fr) /\
  CI c (h ++ [b]) s' (tr ++ map (pair c) fr).
Proof.
  intros (I & Sb & Eq). destruct (sch_step_inv h s b I) as (s' & fr & E & I' & F1 & F2).
  exists s', fr. split; [assumption|]. split; [assumption|].
  rewrite calls_of_app, calls_of_pair_same. split.
  - destruct fr as [|f fr].
    + rewrite app_nil_r, frames_of_snoc. rewrite <- (app_nil_r (calls_of c tr)).
      apply sublist_app; [assumption|apply sublist_nil].
    + destruct (F1 f (or_introl eq_refl)) as (g & -> & ->). apply sublist_app; [assumption|apply sublist_refl].
  - intros Hh. rewrite (F2 Hh). f_equal. apply Eq. eapply no_huge_prefix; eassumption.
Qed.

Lemma CI_other c c' h s tr fr : c <> c' -> CI c h s tr -> CI c h s (tr ++ map (pair c') fr).
Proof. intros N H. unfold CI. rewrite calls_of_app, calls_of_pair_other, app_nil_r by assumption. exact H. Qed.

Definition DI (hs : nat -> bits) (st : dmx * list call) : Prop :=
  length (subch (fst st)) = 4 /\ (forall x, In x (snd st) -> fst x < 4) /\
  forall c, c < 4 -> exists s, nth_error (subch (fst st)) c = Some s /\ CI c (hs c) s (snd st).

Definition upd (hs : nat -> bits) (c : nat) (x : bits) : nat -> bits :=
  fun c' => if c' =? c then hs c' ++ x else hs c'.

Lemma nth_error_splice_same {A} (l : list A) c v : c < length l -> nth_error (splice l c [v]) c = Some v.
Proof.
  intros. unfold splice. rewrite nth_error_app2; rewrite firstn_length, Nat.min_l by lia; [|lia].
  now rewrite Nat.sub_diag.
Qed.
Lemma nth_error_splice_other {A} (l : list A) c c' v : c < length l -> c' <> c ->
  nth_error (splice l c [v]) c' = nth_error l c'.
Proof.
  intros H N. unfold splice. destruct (Nat.lt_ge_cases c' c).
  - rewrite nth_error_app1 by (rewrite firstn_length; lia). now apply nth_error_firstn.
  - rewrite nth_error_app2; rewrite firstn_length, Nat.min_l by lia; [|lia].
    destruct (c' - c) as [|n] eqn:E; [lia|]. cbn [app nth_error length].
    rewrite nth_error_skipn. f_equal. lia.
Qed.

Lemma DI_bit hs d tr c b : DI hs (d, tr) -> c < 4 ->
  exists d' t, append_bit_resync_out d c b = Some (d', t) /\ chan_activ d' = chan_activ d /\
    DI (upd hs c [b]) (d', tr ++ t).
Proof.
  intros (L & R & H) Hc. cbn [fst snd] in *. destruct (H c Hc) as (s & Es & I).
  destruct (CI_step c _ s tr b I) as (s' & fr & E & I'). unfold append_bit_resync_out, get.
  rewrite Es, E, put_splice by lia. eexists; eexists. split; [reflexivity|]. split; [reflexivity|].
  split; [cbn [fst subch]; rewrite splice_length; cbn [length]; lia|]. cbn [fst snd subch]. split.
  { intros x Hx. apply in_app_or in Hx. destruct Hx as [Hx|Hx]; [now apply R|].
    apply in_map_iff in Hx. destruct Hx as (? & <- & _). exact Hc. }
  intros c' Hc'. unfold upd. destruct (Nat.eqb_spec c' c) as [->|N].
  - exists s'. split; [apply nth_error_splice_same; lia|assumption].
  - destruct (H c' Hc') as (s0 & E0 & I0). exists s0. split; [|now apply CI_other].
    rewrite nth_error_splice_other; [assumption|lia|assumption].
Qed.

Definition DIx (hs1 hs2 : nat -> bits) := forall c, c < 4 -> hs1 c = hs2 c.
Lemma DI_ext hs1 hs2 st : DIx hs1 hs2 -> DI hs1 st -> DI hs2 st.
Proof.
  intros X (L & R & H). split; [assumption|]. split; [assumption|]. intros c Hc. rewrite <- X by assumption. now apply H.
Qed.

Definition active (d : dmx) (c : nat) : bool := Z.testbit (chan_activ d) (Z.of_nat c).

Definition byte_pair (c : nat) (b : Z) : bits := [Z.testbit b (Z.of_nat (2 * c)); Z.testbit b (Z.of_nat (2 * c + 1))].

Lemma DI_subch hs d tr inbyte c : DI hs (d, tr) -> c < 4 ->
  exists d' tr', demux_subch inbyte c (d, tr) = Some (d', tr') /\ chan_activ d' = chan_activ d /\
    DI (if active d c then upd hs c (byte_pair c inbyte) else hs) (d', tr').
Proof.
  intros H Hc. unfold demux_subch, active. destruct (Z.testbit (chan_activ d) (Z.of_nat c)); cbn [negb].
  2:{ exists d, tr. auto. }
  destruct (DI_bit hs d tr c (Z.testbit (Z.shiftr inbyte (Z.of_nat (2 * c))) 0) H Hc) as (d1 & t1 & -> & A1 & H1).
  destruct (DI_bit _ d1 _ c (Z.testbit (Z.shiftr inbyte (Z.of_nat (2 * c))) 1) H1 Hc) as (d2 & t2 & -> & A2 & H2).
  exists d2, (tr ++ t1 ++ t2). split; [reflexivity|]. split; [congruence|].
  rewrite app_assoc. eapply DI_ext; [|exact H2]. intros c' _. unfold upd, byte_pair.
  destruct (c' =? c); [|reflexivity]. rewrite <- app_assoc. cbn [app].
  rewrite !Z.shiftr_spec by lia.
  replace (0 + Z.of_nat (2 * c))%Z with (Z.of_nat (2 * c)) by lia.
  now replace (1 + Z.of_nat (2 * c))%Z with (Z.of_nat (2 * c + 1)) by lia.
Qed.

Lemma DI_byte hs d tr inbyte : DI hs (d, tr) ->
  exists d' tr', demux_byte (d, tr) inbyte = Some (d', tr') /\ chan_activ d' = chan_activ d /\
    DI (fun c => if active d c then hs c ++ byte_pair c inbyte else hs c) (d', tr').
Proof.
  intros H. unfold demux_byte, NR_SUBCH. cbn [forM].
  destruct (DI_subch hs d tr inbyte 0 H) as (d1 & t1 & -> & A1 & H1); [lia|].
  destruct (DI_subch _ d1 t1 inbyte 1 H1) as (d2 & t2 & -> & A2 & H2); [lia|].
  destruct (DI_subch _ d2 t2 inbyte 2 H2) as (d3 & t3 & -> & A3 & H3); [lia|].
  destruct (DI_subch _ d3 t3 inbyte 3 H3) as (d4 & t4 & -> & A4 & H4); [lia|].
  exists d4, t4. split; [reflexivity|]. split; [congruence|]. eapply DI_ext; [|exact H4].
  intros c Hc. unfold active. rewrite A3, A2, A1.
  do 4 (destruct c as [|c]; [repeat match goal with |- context [Z.testbit (chan_activ d) ?n] => destruct (Z.testbit (chan_activ d) n) end; reflexivity|]). lia.
Qed.

Lemma DI_in data : forall hs d tr, DI hs (d, tr) ->
  exists d' tr', subch_demux_in (d, tr) data = Some (d', tr') /\ chan_activ d' = chan_activ d /\
    DI (fun c => if active d c then hs c ++ channel_bits c data else hs c) (d', tr').
Proof.
  induction data as [|b data IH]; intros hs d tr H; cbn [subch_demux_in].
  - exists d, tr. split; [reflexivity|]. split; [reflexivity|]. eapply DI_ext; [|exact H].
    intros c _. cbn. rewrite app_nil_r. now destruct (active d c).
  - destruct (DI_byte hs d tr b H) as (d1 & t1 & -> & A1 & H1).
    destruct (IH _ d1 t1 H1) as (d2 & t2 & -> & A2 & H2). exists d2, t2. split; [reflexivity|].
    split; [congruence|]. eapply DI_ext; [|exact H2]. intros c _. unfold active. rewrite A1.
    destruct (Z.testbit _ _); [|reflexivity]. rewrite <- app_assoc. reflexivity.
Qed.

(** bits received on sub-channel [c] during a history of calls, [act] = active at the start *)
Fixpoint received (act : bool) (c : nat) (l : list dop) : bits :=
  match l with
  | [] => []
  | Activate n :: r => received (if Z.eqb n (Z.of_nat c) then true else act) c r
  | Deactivate n :: r => received (if Z.eqb n (Z.of_nat c) then false else act) c r
  | In_ data :: r => (if act then channel_bits c data else []) ++ received act c r
  end.

Definition dop_ok (o : dop) : Prop :=
  match o with Activate n | Deactivate n => (0 <= n)%Z | In_ _ => True end.

Lemma mod256_testbit x c : (0 <= c < 8)%Z -> Z.testbit (x mod 256) c = Z.testbit x c.
Proof.
  intros H. change 256%Z with (2 ^ 8)%Z. rewrite Z.mod_pow2_bits_low by lia. reflexivity.
Qed.

Lemma activate_spec d n : (0 <= n)%Z -> exists rc d', subch_demux_activate d n = Some (rc, d') /\
  subch d' = subch d /\ forall c, c < 4 -> active d' c = if Z.eqb n (Z.of_nat c) then true else active d c.
Proof.
  intros Hn. unfold subch_demux_activate, NR_SUBCH. destruct (Z.leb_spec (Z.of_nat 4) n).
  { eexists; eexists; split; [reflexivity|]. split; [reflexivity|]. intros c Hc.
    destruct (Z.eqb_spec n (Z.of_nat c)); [lia|reflexivity]. }
  destruct (Z.ltb_spec n 0); [lia|]. eexists; eexists; split; [reflexivity|]. split; [reflexivity|].
  intros c Hc. unfold active. cbn [chan_activ]. rewrite mod256_testbit by lia.
  rewrite Z.lor_spec, Z.shiftl_1_l, Z.pow2_bits_eqb by lia.
  destruct (Z.eqb_spec n (Z.of_nat c)); [apply orb_true_r|apply orb_false_r].
Qed.

Lemma deactivate_spec d n : (0 <= n)%Z -> exists rc d', subch_demux_deactivate d n = Some (rc, d') /\
  subch d' = subch d /\ forall c, c < 4 -> active d' c = if Z.eqb n (Z.of_nat c) then false else active d c.
Proof.
  intros Hn. unfold subch_demux_deactivate, NR_SUBCH. destruct (Z.leb_spec (Z.of_nat 4) n).
  { eexists; eexists; split; [reflexivity|]. split; [reflexivity|]. intros c Hc.
    destruct (Z.eqb_spec n (Z.of_nat c)); [lia|reflexivity]. }
  destruct (Z.ltb_spec n 0); [lia|]. eexists; eexists; split; [reflexivity|]. split; [reflexivity|].
  intros c Hc. unfold active. cbn [chan_activ]. rewrite mod256_testbit by lia.
  rewrite Z.land_spec, Z.lnot_spec, Z.shiftl_1_l, Z.pow2_bits_eqb by lia.
  destruct (Z.eqb_spec n (Z.of_nat c)); [apply andb_false_r|apply andb_true_r].
Qed.

Lemma dops_DI l : forall hs d tr, Forall dop_ok l -> DI hs (d, tr) ->
  exists d' tr', dops (d, tr) l = Some (d', tr') /\
    DI (fun c => hs c ++ received (active d c) c l) (d', tr').
Proof.
  induction l as [|o l IH]; intros hs d tr F H; cbn [dops].
  { exists d, tr. split; [reflexivity|]. eapply DI_ext; [|exact H]. intros c _. cbn. now rewrite app_nil_r. }
  inversion F as [|? ? Fo Fl]; subst. destruct o as [n|n|data]; cbn [dop_step dop_ok] in *.
  - destruct (activate_spec d n Fo) as (rc & d1 & -> & S1 & A1). cbn [snd].
    assert (H1 : DI hs (d1, tr)) by (unfold DI in *; cbn [fst snd] in *; now rewrite S1).
    destruct (IH hs d1 tr Fl H1) as (d2 & t2 & -> & H2). exists d2, t2. split; [reflexivity|].
    eapply DI_ext; [|exact H2]. intros c Hc. cbn [received]. now rewrite A1.
  - destruct (deactivate_spec d n Fo) as (rc & d1 & -> & S1 & A1). cbn [snd].
    assert (H1 : DI hs (d1, tr)) by (unfold DI in *; cbn [fst snd] in *; now rewrite S1).
    destruct (IH hs d1 tr Fl H1) as (d2 & t2 & -> & H2). exists d2, t2. split; [reflexivity|].
    eapply DI_ext; [|exact H2]. intros c Hc. cbn [received]. now rewrite A1.
  - destruct (DI_in data hs d tr H) as (d1 & t1 & -> & A1 & H1).
    destruct (IH _ d1 t1 Fl H1) as (d2 & t2 & -> & H2). exists d2, t2. split; [reflexivity|].
    eapply DI_ext; [|exact H2]. intros c Hc. cbn [received]. unfold active. rewrite A1.
    destruct (Z.testbit _ _); [now rewrite app_assoc|reflexivity].
Qed.

Lemma DI_fresh : DI (fun _ => []) (subch_demux_init zero_dmx, []).
Proof.
  split; [reflexivity|]. split; [intros x []|]. intros c Hc. exists (mkSch (repeat true 320) 0 0 false). split.
  - cbn [fst]. do 4 (destruct c as [|c]; [reflexivity|]). lia.
  - split; [apply inv_fresh; repeat split|]. split; [constructor|]. reflexivity.
Qed.

(** chunking *)
Lemma demux_in_app a b st : subch_demux_in st (a ++ b) = (do st <- subch_demux_in st a; subch_demux_in st b).
Proof.
  revert st. induction a as [|x a IH]; intros st; cbn [app subch_demux_in]; [reflexivity|].
  destruct (demux_byte st x); [apply IH|reflexivity].
Qed.
