(** Lemmas for C45: the decoder reads frames through their figures. *)
From Coq Require Import List Arith Lia Bool ZArith.
From Verif Require Import Base ErModel ErSpec ErProofs LapdProofs.
Import ListNotations.
Open Scope nat_scope.

Lemma get_nth (f : bits) i : i < length f -> get f i = Some (nth i f false).
Proof. intros H. unfold get. now apply nth_error_nth'. Qed.
Lemma get_cell F f c p : cell_pos F c = p -> p < length f -> get f p = Some (rd F f c).
Proof. intros <- H. now apply get_nth. Qed.
Lemma slice_cells F f l p n : map (cell_pos F) l = seq p n -> p + n <= length f -> slice f p n = Some (rds F f l).
Proof.
  intros H1 H2. assert (n = length l) as -> by (rewrite <- (map_length (cell_pos F)), H1, seq_length; reflexivity).
  rewrite slice_some by assumption. f_equal. symmetry. now apply rds_slice.
Qed.

(** ** sync cells *)
Definition isT (t : cell) (F : list cell) (i : nat) : bool := match nth_error F i with Some c => cell_eqb c t | None => false end.
Definition posT (t : cell) (F : list cell) : list nat := filter (isT t F) (seq 0 (length F)).
Lemma posT_in t F i : (t = T0 \/ t = T1) -> (In i (posT t F) <-> nth_error F i = Some t).
Proof.
  intros Ht. unfold posT, isT. rewrite filter_In, in_seq. split.
  - intros [_ H]. destruct (nth_error F i) as [c|]; [|discriminate]. destruct Ht as [-> | ->]; destruct c; (discriminate || reflexivity).
  - intros H. split; [split; [lia|apply nth_error_Some; congruence]|]. rewrite H. destruct Ht as [-> | ->]; reflexivity.
Qed.
Lemma synced_pos F f p0 p1 : length F <= length f -> posT T0 F = p0 -> posT T1 F = p1 ->
  (synced F f <-> Forall (fun i => nth i f false = false) p0 /\ Forall (fun i => nth i f false = true) p1).
Proof.
  intros L <- <-. rewrite !Forall_forall. unfold synced.
  assert (E : forall i c, nth_error F i = Some c -> nth_error f i = Some (nth i f false)).
  { intros i c H. apply nth_error_nth'. assert (i < length F) by (apply nth_error_Some; congruence). lia. }
  split.
  - intros H. split; intros i Hi; apply posT_in in Hi; auto; destruct (H i) as [A B]; pose proof (E _ _ Hi); [specialize (A Hi)|specialize (B Hi)]; congruence.
  - intros [A B] i. split; intros Hi; rewrite (E _ _ Hi); f_equal; [apply A|apply B]; apply posT_in; auto.
Qed.
Lemma beq_start f n : n < length f -> (beq (firstn (n + 1) f) (repeat false n ++ [true]) = true <-> Forall (fun i => nth i f false = false) (seq 0 n) /\ nth n f false = true).
Proof.
  rewrite beq_spec. revert f. induction n as [|n IH]; intros [|b f] H; cbn [length] in H; try lia.
  - cbn. split; [intros E; split; [constructor|congruence]|intros [_ ->]; reflexivity].
  - cbn [Nat.add firstn repeat app seq nth]. rewrite Forall_cons_iff, <- seq_shift, Forall_map. cbn [nth].
    specialize (IH f ltac:(lia)). split.
    + intros E. injection E as -> E. apply IH in E as [E1 E2]. auto.
    + intros [[-> E1] E2]. f_equal. apply IH. auto.
Qed.
Lemma t1_all f step : 19 * step < length f -> t1_ok f step = Some (forallb (fun i => nth (step + i * step) f false) (seq 0 19)).
Proof.
  intros H. unfold t1_ok.
  assert (G : forall n from ok, (from + n) * step < length f -> forM n from (fun i ok => do b <- get f (step + i * step); Some (ok && b)) ok =
     Some (ok && forallb (fun i => nth (step + i * step) f false) (seq from n))).
  { induction n as [|n IH]; intros from ok Hl; [cbn; now rewrite andb_true_r|]. cbn [forM seq forallb].
    rewrite get_nth by nia. rewrite IH by (replace (S from + n) with (from + S n) by lia; exact Hl). now rewrite andb_assoc. }
  rewrite G by exact H. reflexivity.
Qed.

(** ** numbers, parity *)
Lemma parity_eqb l p : Bool.eqb (fold_left xorb l true) p = true <-> odd_ones (l ++ [p]).
Proof. rewrite odd_ones_parity, Bool.eqb_true_iff. intuition congruence. Qed.
Lemma e1_eqb a b : Bool.eqb a (negb b) = true <-> odd_ones [a; b].
Proof. rewrite odd_ones_fold. destruct a, b; cbn; intuition congruence. Qed.
Lemma eadd_ok c e : eadd_of c = Some e <-> eadd_code c e.
Proof.
  unfold eadd_of, eadd_code. split.
  - intros H. repeat match type of H with context [(?x =? ?y)%Z] => destruct (Z.eqb_spec x y); [injection H as <-; subst; cbn; tauto|] end. discriminate.
  - cbn [In]. intros H. repeat (destruct H as [H|H]; [injection H as <- <-; reflexivity|]). contradiction.
Qed.
Definition cs_of_16 (c : Z) : option Z := (if c =? 0 then Some CS_CS1 else if c =? 1 then Some CS_CS2 else if c =? 4 then Some CS_AB else None)%Z.
Lemma cs_of_16_ok c s : cs_of_16 c = Some s <-> cs_16 c s.
Proof.
  unfold cs_of_16, cs_16. split.
  - intros H. repeat match type of H with context [(?x =? ?y)%Z] => destruct (Z.eqb_spec x y); [injection H as <-; subst; cbn; tauto|] end. discriminate.
  - cbn [In]. intros H. repeat (destruct H as [H|H]; [injection H as <- <-; reflexivity|]). contradiction.
Qed.

(** ** MAC block, access bursts *)
Lemma block_from_ok f off n : off + n <= length f -> n <= 1240 -> block_from f off n = Some (block (firstn n (skipn off f))).
Proof.
  intros H1 H2. unfold block_from. rewrite memcpy_some by (rewrite ?repeat_length; lia). cbn [firstn app]. unfold block. do 2 f_equal.
  assert (S : forall k m, skipn k (repeat false m) = repeat false (m - k)) by (induction k as [|k IH]; intros [|m]; cbn; auto).
  rewrite S, firstn_length, skipn_length. f_equal. lia.
Qed.
Lemma block_cells F f l off n : map (cell_pos F) l = seq off n -> off + n <= length f -> n <= 1240 -> block_from f off n = Some (block (rds F f l)).
Proof.
  intros H1 H2 H3. rewrite block_from_ok by assumption. pose proof (slice_cells F f l off n H1 H2) as S. rewrite slice_some in S by assumption. congruence.
Qed.
Lemma block_length l : length l <= 1240 -> length (block l) = 1240.
Proof. intros H. unfold block. rewrite app_length, repeat_length. lia. Qed.
Lemma octet_ok d k : 8 * k + 8 <= length d -> octet d k = Some (oct d k).
Proof. intros H. unfold octet, oct. rewrite slice_some by assumption. now rewrite val_lsb_spec. Qed.
Lemma oct_range d k : (0 <= oct d k < 256)%Z.
Proof.
  unfold oct. pose proof (lsb1st_bound (firstn 8 (skipn (8 * k) d))) as [A B]. split; [exact A|].
  eapply Z.lt_le_trans; [exact B|]. change 256%Z with (2 ^ 8)%Z. apply Z.pow_le_mono_r; [lia|]. rewrite firstn_length. lia.
Qed.
Lemma ab_hi b : (0 <= b < 256)%Z -> Z.land (Z.shiftl b 2) 0x300 = (b / 64 * 256)%Z /\ Z.land (Z.shiftl b 3) 0x700 = (b / 32 * 256)%Z /\
  Z.land b 0x1f = (b mod 32)%Z /\ Z.land (Z.shiftr b 5) 7 = (b / 32)%Z /\ Z.land (Z.shiftr b 6) 3 = (b / 64)%Z.
Proof.
  intros H. pose proof (Zall 256 (fun b => ((Z.land (Z.shiftl b 2) 0x300 =? b / 64 * 256) && (Z.land (Z.shiftl b 3) 0x700 =? b / 32 * 256) &&
    (Z.land b 0x1f =? b mod 32) && (Z.land (Z.shiftr b 5) 7 =? b / 32) && (Z.land (Z.shiftr b 6) 3 =? b / 64))%Z) eq_refl b H) as G.
  cbv beta in G. repeat (apply andb_true_iff in G as [G ?]). repeat match goal with Q : (_ =? _)%Z = true |- _ => apply Z.eqb_eq in Q end. auto.
Qed.
Lemma lor_hi k b : (0 <= k < 8)%Z -> (0 <= b < 256)%Z -> Z.lor (k * 256) b = (k * 256 + b)%Z.
Proof. intros Hk Hb. apply Z.eqb_eq. exact (Zall2 8 256 (fun k b => Z.lor (k * 256) b =? k * 256 + b)%Z eq_refl k b Hk Hb). Qed.
Lemma decode_ab_ok d o : 8 * (o + 7) + 8 <= length d -> exists r, decode_ab d o = Some r /\ forall a, r = Some a <-> access_burst d o a.
Proof.
  intros H. unfold decode_ab. rewrite !octet_ok by lia.
  pose proof (oct_range d o) as B0. pose proof (oct_range d (o + 4)) as B4. pose proof (oct_range d (o + 5)) as B5. pose proof (oct_range d (o + 6)) as B6. pose proof (oct_range d (o + 7)) as B7.
  pose proof (oct_range d (o + 3)) as B3.
  destruct (ab_hi _ B0) as (_ & _ & -> & -> & _). destruct (ab_hi _ B4) as (-> & _). destruct (ab_hi _ B6) as (_ & -> & _). destruct (ab_hi _ B3) as (_ & _ & _ & _ & ->).
  rewrite !lor_hi by first [assumption | split; [apply Z.div_pos; lia|apply Z.div_lt_upper_bound; lia]].
  unfold access_burst. destruct (Z.eqb_spec (oct d o mod 32) 31) as [E|E]; [|destruct (Z.eqb_spec (oct d o mod 32) 0) as [E0|E0]].
  - eexists. split; [reflexivity|]. intros [u r a dd]. cbn [ab_u_ ab_rxlev ab_acc_delay ab_data]. split.
    + intros X. injection X as <- <- <- <-. auto 6.
    + intros (-> & -> & -> & [[_ ->]|[X _]]); [reflexivity|rewrite E in X; discriminate].
  - eexists. split; [reflexivity|]. intros [u r a dd]. cbn [ab_u_ ab_rxlev ab_acc_delay ab_data]. split.
    + intros X. injection X as <- <- <- <-. auto 6.
    + intros (-> & -> & -> & [[X _]|[_ ->]]); [rewrite E0 in X; discriminate|reflexivity].
  - exists None. split; [reflexivity|]. intros a. split; [discriminate|]. intros (_ & _ & _ & [[X _]|[X _]]); lia.
Qed.
Lemma decode_abs_ok d l : Forall (fun o => 8 * (o + 7) + 8 <= length d) l ->
  exists r, decode_abs d l = Some r /\ forall a, r = Some a <-> Forall2 (access_burst d) l a.
Proof.
  induction l as [|o l IH]; intros H.
  - exists (Some []). split; [reflexivity|]. intros a. split; [intros X; injection X as <-; constructor|inversion 1; reflexivity].
  - inversion H as [|? ? Ho Hl]; subst. destruct (decode_ab_ok d o Ho) as (r & E & R). destruct (IH Hl) as (rs & Es & Rs). cbn [decode_abs]. rewrite E.
    destruct r as [a|]; [rewrite Es; destruct rs as [al|]|].
    + eexists. split; [reflexivity|]. intros x. split.
      * intros X. injection X as <-. constructor; [now apply R|now apply Rs].
      * inversion 1; subst. apply R in H3. apply Rs in H5. congruence.
    + eexists. split; [reflexivity|]. intros x. split; [discriminate|]. inversion 1; subst. apply Rs in H5. discriminate.
    + eexists. split; [reflexivity|]. intros x. split; [discriminate|]. inversion 1; subst. apply R in H3. discriminate.
Qed.
Lemma check_crc_cells F f off n l lc : map (cell_pos F) l = seq off n -> map (cell_pos F) lc = seq (off + n) 16 -> off + n + 16 <= length f ->
  exists ok, check_crc f off n = Some ok /\ (ok = true <-> rds F f lc = crc_of (rds F f l)).
Proof.
  intros H1 H2 H3. unfold check_crc. rewrite (slice_cells F f l) by (assumption || lia). rewrite (slice_cells F f lc) by (assumption || lia).
  eexists. split; [reflexivity|]. now rewrite beq_spec, crc16_spec.
Qed.
(** 22-bit numbers *)
Lemma get_u32 F f bl map_ off l : 32 <=? 22 = false -> length map_ <? bl = false -> bl <=? off = false ->
  (exists out, get_loop (bl + 2) (repeat false 32) f map_ off 0 0 22 (bl - off) (length map_ - off) = Some (0%Z, out) /\ slice out 0 22 = Some (rds F f l)) ->
  get_trau_uint32 f bl map_ off 22 = Some (msb1st (rds F f l)).
Proof.
  intros H0 H1 H2 (out & E & S). unfold get_trau_uint32. rewrite H0, H1, H2, E. cbn [fst snd Z.ltb Z.compare]. rewrite S. now rewrite val_msb_spec.
Qed.
