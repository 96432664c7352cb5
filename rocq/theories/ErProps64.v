(** C44: frames the PCU sends at 64 kbit/s (trau_pcu_ericsson.c, encoder). *)
From Coq Require Import List Arith Lia Bool ZArith.
From Verif Require Import Base ErModel ErSpec ErProofs ErProofs64 ErProps.
Import ListNotations.
Open Scope nat_scope.

Lemma cellpos_rng F k p A B a b : map (cell_pos F) (rng k A B) = seq p (B + 1 - A) -> A <= a -> b <= B -> a <= b + 1 ->
  map (cell_pos F) (rng k a b) = seq (p + (a - A)) (b + 1 - a).
Proof.
  unfold rng. intros H HA HB Hab.
  assert (G : forall i, i < B + 1 - A -> cell_pos F (k (A + i)) = p + i).
  { intros i Hi. apply (f_equal (fun l => nth_error l i)) in H. rewrite !nth_error_map in H.
    rewrite !(nth_error_nth' (seq _ _) 0) in H by (rewrite seq_length; lia). rewrite !seq_nth in H by lia. cbn in H. congruence. }
  rewrite map_map. apply list_ext. intros i. rewrite nth_error_map. destruct (Nat.ltb_spec i (b + 1 - a)).
  - rewrite !(nth_error_nth' (seq _ _) 0) by (rewrite seq_length; lia). rewrite !seq_nth by lia. cbn.
    replace (a + i) with (A + (a - A + i)) by lia. rewrite G by lia. f_equal. lia.
  - rewrite !(proj2 (nth_error_None _ _)); [reflexivity|rewrite seq_length; lia..].
Qed.
Lemma rng_length k a b : length (rng k a b) = b + 1 - a.
Proof. unfold rng. now rewrite map_length, seq_length. Qed.
(** a run of cells lying behind the first [n0] bits *)
Lemma rds_tail F k p A B a b (pre y : bits) n0 : map (cell_pos F) (rng k A B) = seq p (B + 1 - A) -> A <= a -> b <= B -> a <= b + 1 ->
  length pre = n0 -> n0 <= p -> p + (b + 1 - A) <= n0 + length y ->
  rds F (pre ++ y) (rng k a b) = firstn (b + 1 - a) (skipn (p + (a - A) - n0) y).
Proof.
  intros H HA HB Hab L Hp Hl. rewrite (rds_slice _ _ _ (p + (a - A))).
  - rewrite rng_length, skipn_app, skipn_all2, L by lia. reflexivity.
  - rewrite rng_length. now apply cellpos_rng with (B := B).
  - rewrite rng_length, app_length, L. lia.
Qed.
Lemma ones_of F f l : rds F f l = repeat true (length l) -> one_each F f l.
Proof. apply one_each_map. Qed.
Lemma memcpy_tail (p data : bits) s n R n0 : length p = n0 -> s + n <= length data -> n <= R ->
  memcpy (p ++ repeat true R) n0 data s n = Some (p ++ firstn n (skipn s data) ++ repeat true (R - n)).
Proof.
  intros L H1 H2. rewrite memcpy_some by (rewrite ?app_length, ?repeat_length; lia).
  rewrite firstn_app_exact by assumption. rewrite skipn_app, (skipn_all2 p), L, skipn_repeat by lia. cbn [app].
  replace (n0 + n - n0) with n by lia. reflexivity.
Qed.
Lemma put_crc_tail (p w : bits) R n0 n : length p = n0 -> length w = n -> 16 <= R ->
  put_crc (p ++ w ++ repeat true R) n0 n = Some (p ++ w ++ crc_of w ++ repeat true (R - 16)).
Proof.
  intros L Lw H. unfold put_crc. rewrite slice_some by (rewrite !app_length, repeat_length; lia).
  rewrite firstn_mid by assumption. rewrite blit_some by (rewrite crc16_length, !app_length, repeat_length; lia).
  rewrite crc16_length, (app_assoc p w). rewrite firstn_app_exact by (rewrite app_length; lia).
  rewrite skipn_app, skipn_all2 by (rewrite app_length; lia). rewrite app_length, L, Lw, skipn_repeat. cbn [app].
  rewrite crc16_spec, <- !app_assoc. do 4 f_equal. f_equal. lia.
Qed.

Lemma start_64 {A} buf (k : bits -> option A) : length buf = 1296 ->
  (do b <- memset buf 0 false 64; do b <- memset b 64 true (1280 + 16 - 64); k b) = k blank_64.
Proof.
  intros L. pose proof (memset2 buf 64 1232 L) as M. destruct (memset buf 0 false 64) as [b1|]; [|discriminate].
  change (1280 + 16 - 64) with 1232. rewrite M. reflexivity.
Qed.

(** type and timing cells; what the C bits say as a whole *)
Definition control_64 (F : list cell) (f : bits) (ft tav : Z) (err : bool) : Prop :=
  pcu_type_64 F f ft tav /\ rd F f (C 8) = true /\ rd F f PC = negb err.
Lemma control_64_of F f ft tav err : (0 <= tav <= 3)%Z ->
  rds F f (rng C 1 7) = lsb_bits 5 (Z.testbit ft) ++ lsb_bits 2 (Z.testbit tav) -> rd F f (C 8) = true -> rd F f PC = negb err ->
  lsb1st (lsb_bits 5 (Z.testbit ft)) = ft -> control_64 F f ft tav err.
Proof.
  intros Ht H1 H2 H3 H4.
  change (rng C 1 7) with (rng C 1 5 ++ [C 6; C 7]) in H1. rewrite rds_app in H1.
  apply (f_equal (firstn 5)) in H1 as A. rewrite !firstn_app_exact in A by reflexivity.
  apply (f_equal (skipn 5)) in H1 as B. rewrite !skipn_app_exact in B by reflexivity.
  unfold control_64, pcu_type_64. rewrite A, B, H4, lsb1st_bits2 by lia. auto.
Qed.

Theorem C44_sync_64 : forall buf s, length buf = 1296 -> (0 <= ps_tav s <= 2)%Z ->
  exists f, er_gprs_trau_frame_encode_64k buf (PSync s) = Some (len_64 (ps_tav s), f) /\ length f = 1296 /\ pcu_sync_64 f s /\
    control_64 fig_pcu_sync_64 f 0x0f (ps_tav s) (ps_err s) /\
    msb1st (rds fig_pcu_sync_64 f (rng D 196 210)) = (ps_fn_ss s mod 2 ^ 15)%Z /\ rd fig_pcu_sync_64 f (D 211) = true.
Proof.
  intros buf s L Ht. unfold er_gprs_trau_frame_encode_64k. rewrite start_64 by assumption.
  unfold enc_pcu_sync_ind_64.
  pose proof (enc_sync_64 (ps_tav s) (ps_err s) (Z.testbit (ps_pseq s)) (Z.testbit (ps_ss s)) (Z.testbit (ps_fn_ul s)) (Z.testbit (ps_fn_ss s)) (Z.testbit (ps_fn_dl s)) (Z.testbit (ps_ls s)) Ht) as H.
  destruct (put_c blank_64 FT_PCU_SYNC_IND (ps_tav s) (ps_err s) 65 73 74) as [b|]; [|contradiction].
  match goal with |- context [put_u32s ?a ?b0 ?c ?l] => destruct (put_u32s a b0 c l) as [[rc f]|]; [|contradiction] end.
  destruct H as (-> & H0 & H1 & H2 & H3 & H4 & H5 & H6 & H7 & H8 & H9 & H10 & H11 & H12).
  exists f. split; [change (Some (timing_64 (ps_tav s), f) = Some (len_64 (ps_tav s), f)); now rewrite timing_64_len|].
  split; [exact H0|].
  assert (CT : control_64 fig_pcu_sync_64 f 0x0f (ps_tav s) (ps_err s)) by (apply control_64_of; try assumption; (lia || reflexivity)).
  change (rng D 196 211) with (rng D 196 210 ++ [D 211]) in H10. rewrite rds_app in H10. apply app_inj_tail in H10 as [H10 H10'].
  split; [|split; [exact CT|split; [now rewrite H10, msb1st_bits|exact H10']]].
  unfold pcu_sync_64. split; [apply synced_b_spec; [rewrite H0; vm_compute; lia|exact H1]|].
  split.
  { intros i Hi HK. apply filled_b_spec in H2. specialize (H2 i HK).
    assert (LF : length (firstn 74 f) = 74) by (rewrite firstn_length; lia).
    destruct (Nat.ltb_spec i 74).
    - rewrite nth_error_app1, nth_error_firstn in H2 by lia. exact H2.
    - rewrite nth_error_app2, LF in H2 by lia. destruct (i - 74) as [|j] eqn:J; [lia|]. cbn [nth_error] in H2.
      rewrite nth_error_skipn in H2. replace i with (75 + j) by lia. exact H2. }
  split; [now apply one_each_map|]. split; [apply CT|].
  rewrite H7, H8, H9, H11, H12, !msb1st_bits. repeat split; reflexivity.
Qed.

Lemma bits_of_lsb l n v : length l = n -> lsb1st l = v -> (0 <= v)%Z -> l = lsb_bits n (Z.testbit v).
Proof.
  revert n v. induction l as [|b l IH]; intros [|n] v Hn Hv Hp; cbn in Hn; try discriminate; [reflexivity|].
  cbn [lsb1st] in Hv. pose proof (lsb1st_bound l) as [B _].
  assert (E : l = lsb_bits n (Z.testbit (lsb1st l))) by (apply IH; [lia|reflexivity|lia]).
  unfold lsb_bits. cbn [seq map]. f_equal.
  - rewrite Z.bit0_odd, <- Hv. destruct b; cbn [bz]; rewrite Z.odd_add_mul_2; reflexivity.
  - rewrite <- seq_shift, map_map. rewrite E at 1. unfold lsb_bits. apply map_ext. intros a.
    rewrite Nat2Z.inj_succ, <- Z.div2_bits by lia. f_equal. rewrite <- Hv.
    rewrite (Z.mul_comm 2), Z.div_add by lia. destruct b; reflexivity.
Qed.
(** odd parity over C1-C8 and PC, when C8 is always 1 and PC is the error flag *)
Lemma parity_64 F f ft tav err n : control_64 F f ft tav err -> (0 <= ft)%Z -> (0 <= tav <= 2)%Z ->
  fold_left xorb (lsb_bits 5 (Z.testbit ft)) false = n ->
  (pcu_control F f ft tav err <-> err = false /\ n = (tav =? 0)%Z).
Proof.
  intros [[C1 C2] [C3 C4]] Hf Ht Hn.
  apply (bits_of_lsb _ 5) in C1 as R1; [|reflexivity|assumption]. apply (bits_of_lsb _ 2) in C2 as R2; [|reflexivity|lia].
  unfold pcu_control. rewrite C3, C1, C2, odd_ones_fold.
  change (rng C 1 8 ++ [PC]) with (rng C 1 5 ++ [C 6; C 7] ++ [C 8; PC]). rewrite !rds_app, R1, R2.
  change (rds F f [C 8; PC]) with [rd F f (C 8); rd F f PC]. rewrite C3, C4.
  rewrite !fold_left_app, Hn. clear C1 C2 C3 C4 R1 R2 Hn. tav3 Ht; subst tav; destruct err, n; cbn; intuition congruence.
Qed.
Lemma not_zero t : (0 <= t)%Z -> (false = (t =? 0)%Z <-> t <> 0%Z).
Proof. intros H. destruct (Z.eqb_spec t 0); intuition congruence. Qed.
Lemma is_zero t : true = (t =? 0)%Z <-> t = 0%Z.
Proof. destruct (Z.eqb_spec t 0); intuition congruence. Qed.

(** C8 is not the uplink-frame-error flag at 64k, and the C bits have odd parity only by
    accident. *)
Theorem C44_control_sync_64_refuted : forall buf s, length buf = 1296 -> (0 <= ps_tav s <= 2)%Z ->
  exists f, er_gprs_trau_frame_encode_64k buf (PSync s) = Some (len_64 (ps_tav s), f) /\
    (pcu_control fig_pcu_sync_64 f 0x0f (ps_tav s) (ps_err s) <-> ps_err s = false /\ ps_tav s <> 0%Z).
Proof.
  intros buf s L Ht. destruct (C44_sync_64 buf s L Ht) as (f & E & _ & _ & H & _). exists f. split; [exact E|].
  rewrite (parity_64 _ _ _ _ _ false H) by (lia || reflexivity). now rewrite not_zero by lia.
Qed.

(** ** data frames *)
Lemma pre_64_get tav err te tm to ta : (0 <= tav <= 2)%Z ->
  exists p, pre_64 blank_64 tav err te tm to ta = Some (p ++ repeat true 1164) /\ forall x, ok_pre_64 p x tav err te tm to ta.
Proof.
  intros Ht.
  assert (G : forall x, exists p, pre_64 blank_64 tav err te tm to ta = Some (p ++ repeat true 1164) /\ ok_pre_64 p x tav err te tm to ta).
  { intros x. pose proof (pre_64_ok tav err te tm to ta x Ht) as P.
    destruct (pre_64 _ _ _ _ _ _ _) as [b|]; [|contradiction]. exists (firstn 132 b). destruct P as [P1 P2]. split; [now rewrite <- P1|exact P2]. }
  destruct (G []) as (p & Ep & _). exists p. split; [exact Ep|].
  intros x. destruct (G x) as (p' & Ep' & Q). rewrite Ep in Ep'. injection Ep' as Ep'. apply app_inv_tail in Ep'. now subst p'.
Qed.
(** what follows the first 132 bits *)
Definition body_64 (d : pcu_data) (mcs : Z) : bits :=
  if (pd_cs d =? CS_CS1)%Z then firstn 184 (pd_data d) ++ crc_of (firstn 184 (pd_data d)) else firstn (dl_size (pd_cs d) mcs) (pd_data d).
Lemma dl_size_bound cs mcs : (0 <= mcs <= 8)%Z -> dl_size cs mcs <= 1132.
Proof.
  intros H. assert (mcs = 0 \/ mcs = 1 \/ mcs = 2 \/ mcs = 3 \/ mcs = 4 \/ mcs = 5 \/ mcs = 6 \/ mcs = 7 \/ mcs = 8)%Z as M by lia.
  destruct M as [->|M]; [unfold dl_size, cs_size; cbn [Z.eqb]; repeat (match goal with |- context [if ?b then _ else _] => destruct b end); lia|].
  repeat (destruct M as [->|M]; [vm_compute; lia|]). subst; vm_compute; lia.
Qed.
Lemma crc_length w : length (crc_of w) = 16.
Proof. rewrite <- crc16_spec. apply crc16_length. Qed.
Lemma enc_body p d mcs : length p = 132 -> length (pd_data d) = 1240 ->
  ((CS_CS1 <= pd_cs d <= CS_CS4 /\ mcs = 0) \/ (CS_HDR1 <= pd_cs d <= CS_HDR3 /\ 1 <= mcs <= 8))%Z ->
  (if (pd_cs d =? CS_CS1)%Z then do b <- memcpy (p ++ repeat true 1164) 132 (pd_data d) 0 184; put_crc b 132 184
   else if (pd_cs d =? CS_CS2)%Z then memcpy (p ++ repeat true 1164) 132 (pd_data d) 0 271
   else if (pd_cs d =? CS_CS3)%Z then memcpy (p ++ repeat true 1164) 132 (pd_data d) 0 315
   else if (pd_cs d =? CS_CS4)%Z then memcpy (p ++ repeat true 1164) 132 (pd_data d) 0 431
   else memcpy (p ++ repeat true 1164) 132 (pd_data d) 0 (mcs_bits_dl mcs)) =
  Some (p ++ body_64 d mcs ++ repeat true (1164 - length (body_64 d mcs))).
Proof.
  intros Lp Ld H. unfold CS_CS1, CS_CS2, CS_CS3, CS_CS4, CS_HDR1, CS_HDR3 in *.
  assert (G : forall n, n <= 1132 -> memcpy (p ++ repeat true 1164) 132 (pd_data d) 0 n = Some (p ++ firstn n (pd_data d) ++ repeat true (1164 - length (firstn n (pd_data d))))).
  { intros n Hn. rewrite memcpy_tail by lia. rewrite skipn_O, firstn_length. do 4 f_equal. lia. }
  unfold body_64, CS_CS1.
  destruct (Z.eqb_spec (pd_cs d) 1) as [E|E].
  - rewrite G by lia. rewrite put_crc_tail by (assumption || rewrite firstn_length; lia).
    rewrite app_length, crc_length, firstn_length. rewrite <- (app_assoc (firstn 184 (pd_data d))). do 5 f_equal. lia.
  - destruct H as [[H1 ->]|[H1 H2]].
    + unfold dl_size, cs_size. cbn [Z.eqb]. unfold CS_CS1, CS_CS2, CS_CS3. rewrite (proj2 (Z.eqb_neq _ _) E).
      destruct (Z.eqb_spec (pd_cs d) 2); [now rewrite G by lia|]. destruct (Z.eqb_spec (pd_cs d) 3); [now rewrite G by lia|].
      destruct (Z.eqb_spec (pd_cs d) 4); [now rewrite G by lia|]. lia.
    + destruct (Z.eqb_spec (pd_cs d) 2); [lia|]. destruct (Z.eqb_spec (pd_cs d) 3); [lia|]. destruct (Z.eqb_spec (pd_cs d) 4); [lia|].
      assert (D : dl_size (pd_cs d) mcs = mcs_bits_dl mcs).
      { unfold dl_size. destruct (Z.eqb_spec mcs 0); [lia|]. symmetry. now apply mcs_bits_dl_ok. }
      rewrite D. apply G. rewrite <- D. apply dl_size_bound. lia.
Qed.
Lemma body_length d mcs : length (pd_data d) = 1240 -> (0 <= mcs <= 8)%Z -> length (body_64 d mcs) <= 1132.
Proof.
  intros L H. unfold body_64. destruct (_ =? _)%Z; rewrite ?app_length, ?crc_length, firstn_length; [lia|].
  pose proof (dl_size_bound (pd_cs d) mcs H). lia.
Qed.
Lemma rds_data F k p A B (pre w : bits) n0 R a b : map (cell_pos F) (rng k A B) = seq p (B + 1 - A) -> A <= a -> b <= B -> a <= b + 1 ->
  length pre = n0 -> n0 <= p -> p + (b + 1 - A) <= n0 + length w ->
  rds F (pre ++ w ++ repeat true R) (rng k a b) = firstn (b + 1 - a) (skipn (p + (a - A) - n0) w).
Proof.
  intros. rewrite (rds_tail F k p A B _ _ _ _ n0); try assumption; [|rewrite app_length; lia].
  rewrite skipn_app, firstn_app. rewrite skipn_length.
  replace (b + 1 - a - (length w - (p + (a - A) - n0))) with 0 by lia. cbn [firstn]. apply app_nil_r.
Qed.
Lemma rds_ones F k p A B (pre w : bits) n0 R a b : map (cell_pos F) (rng k A B) = seq p (B + 1 - A) -> A <= a -> b <= B -> a <= b + 1 ->
  length pre = n0 -> n0 + length w <= p + (a - A) -> n0 <= p -> p + (b + 1 - A) <= n0 + length w + R ->
  one_each F (pre ++ w ++ repeat true R) (rng k a b).
Proof.
  intros. apply one_each_map. fold (rds F (pre ++ w ++ repeat true R) (rng k a b)).
  rewrite (rds_tail F k p A B _ _ _ _ n0); try assumption; [|rewrite app_length, repeat_length; lia].
  rewrite skipn_app, skipn_all2, skipn_repeat by lia. cbn [app]. rewrite firstn_repeat by lia. now rewrite rng_length.
Qed.
Lemma one_each_app F f a b : one_each F f (a ++ b) <-> one_each F f a /\ one_each F f b.
Proof. apply Forall_app. Qed.
Lemma msb3 v : (0 <= v < 8)%Z -> msb1st (msb_bits 3 (Z.testbit v)) = v.
Proof. intros H. rewrite msb1st_bits. apply Z.mod_small. exact H. Qed.

Lemma data_64 d mcs : length (pd_data d) = 1240 -> (0 <= pd_tav d <= 2)%Z -> (0 <= pd_mode d <= 4)%Z ->
  ((CS_CS1 <= pd_cs d <= CS_CS4 /\ mcs = 0) \/ (CS_HDR1 <= pd_cs d <= CS_HDR3 /\ 1 <= mcs <= 8))%Z ->
  exists f, enc_pcu_data_ind_64 blank_64 d mcs = Some (len_64 (pd_tav d), f) /\ length f = 1296 /\
    pcu_data_64 f d (dl_size (pd_cs d) mcs) /\ control_64 fig_pcu_data_64 f 0x1a (pd_tav d) (pd_err d).
Proof.
  intros Ld Ht Hm Hc.
  assert (Hcs : (1 <= pd_cs d <= 7)%Z) by (unfold CS_CS1, CS_CS4, CS_HDR1, CS_HDR3 in Hc; lia).
  assert (Hmcs : (0 <= mcs <= 8)%Z) by lia.
  rewrite (enc_data_64_eq _ _ (msb_bits 3 (Z.testbit (pd_cs d))) (msb_bits 3 (Z.testbit (pd_mode d)))).
  2: { unfold cs_code_64, CS_CS1, CS_HDR3. destruct (Z.leb_spec 1 (pd_cs d)); [|lia]. destruct (Z.leb_spec (pd_cs d) 7); [reflexivity|lia]. }
  2: { unfold mode_code_64, UL_VOID, UL_AB_UNKN. destruct (Z.leb_spec 0 (pd_mode d)); [|lia]. destruct (Z.leb_spec (pd_mode d) 4); [reflexivity|lia]. }
  rewrite timing_64_len by assumption.
  destruct (pre_64_get (pd_tav d) (pd_err d) (Z.testbit (pd_cs d)) (Z.testbit (pd_mode d)) (Z.testbit (pd_offs d)) (Z.testbit (pd_atten d)) Ht) as (p & -> & G).
  destruct (G []) as (Lp & _). rewrite enc_body by assumption.
  set (w := body_64 d mcs). assert (Lw : length w <= 1132) by now apply body_length.
  set (y := w ++ repeat true (1164 - length w)). assert (Ly : length y = 1164) by (subst y; rewrite app_length, repeat_length; lia).
  exists (p ++ y). split; [reflexivity|]. assert (Lf : length (p ++ y) = 1296) by (rewrite app_length; lia). split; [exact Lf|].
  destruct (G y) as (_ & Q1 & Q2 & Q3 & Q4 & Q5 & Q6 & Q7 & Q8 & Q9 & Q10 & Q11).
  assert (CT : control_64 fig_pcu_data_64 (p ++ y) 0x1a (pd_tav d) (pd_err d)) by (apply control_64_of; try assumption; (lia || reflexivity)).
  split; [|exact CT]. unfold pcu_data_64. split.
  { apply synced_b_spec; [rewrite Lf; vm_compute; lia|]. rewrite <- (firstn_skipn 132 fig_pcu_data_64), synced_b_app by (rewrite Lp; reflexivity).
    rewrite Q1. apply synced_free; [reflexivity|]. rewrite Ly. vm_compute. lia. }
  split.
  { apply one_each_app. split; [now apply one_each_map|]. subst y. apply (rds_ones _ _ 1264 1 32 _ _ 132); (reflexivity || lia). }
  split; [apply CT|]. split.
  { rewrite rds_app. change (rds fig_pcu_data_64 (p ++ y) [PE]) with [rd fig_pcu_data_64 (p ++ y) PE]. apply odd_ones_parity.
    rewrite Q11. f_equal. change (rng E 1 36) with (rng E 1 3 ++ rng E 4 6 ++ rng E 7 14 ++ rng E 15 32 ++ rng E 33 36).
    now rewrite !rds_app, Q5, Q6, Q7, Q8, Q9. }
  split; [rewrite Q5; apply msb3; lia|]. split; [rewrite Q6; apply msb3; lia|]. split; [now rewrite Q7, msb1st_bits|].
  split; [now apply one_each_map|]. split; [now rewrite Q9, msb1st_bits|].
  assert (PD : map (cell_pos fig_pcu_data_64) (rng D 1 1132) = seq 132 1132) by d_run.
  subst y. unfold w, body_64 in *. unfold dl_size in *.
  destruct (Z.eqb_spec (pd_cs d) CS_CS1) as [E|E].
  - assert (mcs = 0%Z) as -> by (unfold CS_CS1, CS_HDR1 in *; lia). rewrite E. change (cs_size CS_CS1) with 184. cbn [Z.eqb].
    assert (L1 : length (firstn 184 (pd_data d)) = 184) by (rewrite firstn_length; lia).
    assert (L2 : length (firstn 184 (pd_data d) ++ crc_of (firstn 184 (pd_data d))) = 200) by (rewrite app_length, crc_length, L1; reflexivity).
    rewrite L2. split; [|split].
    + rewrite (rds_data _ _ 132 1 1132 _ _ 132) by (assumption || lia). change (132 + (1 - 1) - 132) with 0. change (184 + 1 - 1) with 184.
      rewrite skipn_O. now apply firstn_app_exact.
    + rewrite (rds_data _ _ 132 1 1132 _ _ 132) by (assumption || lia). change (132 + (185 - 1) - 132) with 184. change (200 + 1 - 185) with 16.
      rewrite skipn_app_exact by assumption. apply firstn_all2. rewrite crc_length. lia.
    + apply (rds_ones _ _ 132 1 1132 _ _ 132); (assumption || lia).
  - set (n := if (mcs =? 0)%Z then cs_size (pd_cs d) else hdr_dl mcs + payload mcs) in *.
    assert (Hn : n <= 1132) by (apply (dl_size_bound (pd_cs d) mcs); lia).
    assert (L1 : length (firstn n (pd_data d)) = n) by (rewrite firstn_length; lia). rewrite L1. split.
    + rewrite (rds_data _ _ 132 1 1132 _ _ 132) by (assumption || lia). change (132 + (1 - 1) - 132) with 0. rewrite skipn_O.
      replace (n + 1 - 1) with n by lia. now rewrite firstn_firstn, Nat.min_id.
    + apply (rds_ones _ _ 132 1 1132 _ _ 132); (assumption || lia).
Qed.
Theorem C44_data_64 : forall buf d mcs, length buf = 1296 -> length (pd_data d) = 1240 -> (0 <= pd_tav d <= 2)%Z -> (0 <= pd_mode d <= 4)%Z ->
  dl_block d mcs -> mcs <> 9%Z ->
  exists f, er_gprs_trau_frame_encode_64k buf (PData d) = Some (len_64 (pd_tav d), f) /\ length f = 1296 /\
    pcu_data_64 f d (dl_size (pd_cs d) mcs) /\ control_64 fig_pcu_data_64 f 0x1a (pd_tav d) (pd_err d).
Proof.
  intros buf d mcs L Ld Ht Hm Hb Hn9. unfold er_gprs_trau_frame_encode_64k. rewrite start_64 by assumption.
  destruct Hb as [[H ->]|[H Hmcs]].
  - replace ((pd_cs d =? CS_HDR1) || (pd_cs d =? CS_HDR2) || (pd_cs d =? CS_HDR3))%Z with false.
    2: { unfold CS_CS1, CS_CS4, CS_HDR1, CS_HDR2, CS_HDR3 in *. destruct (Z.eqb_spec (pd_cs d) 5); [lia|]. destruct (Z.eqb_spec (pd_cs d) 6); [lia|]. destruct (Z.eqb_spec (pd_cs d) 7); [lia|]. reflexivity. }
    apply data_64; try assumption. left. auto.
  - replace ((pd_cs d =? CS_HDR1) || (pd_cs d =? CS_HDR2) || (pd_cs d =? CS_HDR3))%Z with true.
    2: { unfold CS_HDR1, CS_HDR2, CS_HDR3 in *. destruct (Z.eqb_spec (pd_cs d) 5); [reflexivity|]. destruct (Z.eqb_spec (pd_cs d) 6); [reflexivity|]. destruct (Z.eqb_spec (pd_cs d) 7); [reflexivity|]. lia. }
    rewrite cps_dl_ok by assumption.
    rewrite (proj2 (mcs_from_cps_ok _ _ mcs (cps_dl_nonneg _ _)) Hmcs).
    apply mcs_of_range in Hmcs as [R _]. destruct (Z.ltb_spec mcs 9); [|lia]. apply data_64; try assumption. right. split; [assumption|lia].
Qed.
Theorem C44_control_data_64_refuted : forall buf d mcs, length buf = 1296 -> length (pd_data d) = 1240 -> (0 <= pd_tav d <= 2)%Z -> (0 <= pd_mode d <= 4)%Z ->
  dl_block d mcs -> mcs <> 9%Z ->
  exists f, er_gprs_trau_frame_encode_64k buf (PData d) = Some (len_64 (pd_tav d), f) /\
    (pcu_control fig_pcu_data_64 f 0x1a (pd_tav d) (pd_err d) <-> pd_err d = false /\ pd_tav d = 0%Z).
Proof.
  intros buf d mcs L Ld Ht Hm Hb H9. destruct (C44_data_64 buf d mcs L Ld Ht Hm Hb H9) as (f & E & _ & _ & H). exists f. split; [exact E|].
  rewrite (parity_64 _ _ _ _ _ true H) by (lia || reflexivity). now rewrite is_zero.
Qed.

(** ** MCS9 *)
Lemma pre_9_get w tav err tm ta : length w = 48 -> (0 <= tav <= 2)%Z ->
  exists p, pre_9 blank_64 w tav err tm ta = Some (p ++ repeat true 1212) /\ forall x, ok_pre_9 p x w tav err tm ta.
Proof.
  intros Hw Ht.
  assert (G : forall x, exists p, pre_9 blank_64 w tav err tm ta = Some (p ++ repeat true 1212) /\ ok_pre_9 p x w tav err tm ta).
  { intros x. pose proof (pre_9_ok w tav err tm ta x Hw Ht) as P.
    destruct (pre_9 _ _ _ _ _ _) as [b|]; [|contradiction]. exists (firstn 84 b). destruct P as [P1 P2]. split; [now rewrite <- P1|exact P2]. }
  destruct (G []) as (p & Ep & _). exists p. split; [exact Ep|].
  intros x. destruct (G x) as (p' & Ep' & Q). rewrite Ep in Ep'. injection Ep' as Ep'. apply app_inv_tail in Ep'. now subst p'.
Qed.
Theorem C44_data9_64 : forall buf d, length buf = 1296 -> length (pd_data d) = 1240 -> (0 <= pd_tav d <= 2)%Z -> (0 <= pd_mode d <= 4)%Z ->
  dl_block d 9 ->
  exists f, er_gprs_trau_frame_encode_64k buf (PData d) = Some (len_64 (pd_tav d), f) /\ length f = 1296 /\
    pcu_data9_64 f d /\ control_64 fig_pcu_data9_64 f 0x04 (pd_tav d) (pd_err d).
Proof.
  intros buf d L Ld Ht Hm Hb. unfold er_gprs_trau_frame_encode_64k. rewrite start_64 by assumption.
  destruct Hb as [[_ H]|[H Hmcs]]; [discriminate|].
  replace ((pd_cs d =? CS_HDR1) || (pd_cs d =? CS_HDR2) || (pd_cs d =? CS_HDR3))%Z with true.
  2: { unfold CS_HDR1, CS_HDR2, CS_HDR3 in *. destruct (Z.eqb_spec (pd_cs d) 5); [reflexivity|]. destruct (Z.eqb_spec (pd_cs d) 6); [reflexivity|]. destruct (Z.eqb_spec (pd_cs d) 7); [reflexivity|]. lia. }
  rewrite cps_dl_ok by assumption. rewrite (proj2 (mcs_from_cps_ok _ _ 9 (cps_dl_nonneg _ _)) Hmcs). cbn [Z.ltb Z.compare Pos.compare Pos.compare_cont].
  rewrite (enc_data_9_eq _ _ (msb_bits 3 (Z.testbit (pd_mode d)))); [|assumption|].
  2: { unfold mode_code_64, UL_VOID, UL_AB_UNKN. destruct (Z.leb_spec 0 (pd_mode d)); [|lia]. destruct (Z.leb_spec (pd_mode d) 4); [reflexivity|lia]. }
  rewrite timing_64_len by assumption.
  destruct (pre_9_get (firstn 48 (pd_data d)) (pd_tav d) (pd_err d) (Z.testbit (pd_mode d)) (Z.testbit (pd_atten d))) as (p & -> & G); [rewrite firstn_length; lia|assumption|].
  destruct (G []) as (Lp & _). rewrite memcpy_tail by lia.
  set (w := firstn 1180 (skipn 48 (pd_data d))). assert (Lw : length w = 1180) by (unfold w; rewrite firstn_length, skipn_length; lia).
  set (y := w ++ repeat true (1212 - 1180)). assert (Ly : length y = 1212) by (subst y; rewrite app_length, repeat_length; lia).
  exists (p ++ y). split; [reflexivity|]. assert (Lf : length (p ++ y) = 1296) by (rewrite app_length; lia). split; [exact Lf|].
  destruct (G y) as (_ & Q1 & Q2 & Q3 & Q4 & Q5 & Q6 & Q7 & Q8 & Q9).
  assert (CT : control_64 fig_pcu_data9_64 (p ++ y) 0x04 (pd_tav d) (pd_err d)) by (apply control_64_of; try assumption; (lia || reflexivity)).
  split; [|exact CT]. unfold pcu_data9_64. split.
  { apply synced_b_spec; [rewrite Lf; vm_compute; lia|]. rewrite <- (firstn_skipn 84 fig_pcu_data9_64), synced_b_app by (rewrite Lp; reflexivity).
    rewrite Q1. apply synced_free; [reflexivity|]. rewrite Ly. vm_compute. lia. }
  split; [subst y; apply (rds_ones _ _ 1264 1 32 _ _ 84); (reflexivity || lia)|].
  split; [apply CT|]. split.
  { rewrite rds_app. change (rds fig_pcu_data9_64 (p ++ y) [PE]) with [rd fig_pcu_data9_64 (p ++ y) PE]. apply odd_ones_parity.
    rewrite Q9. f_equal. change (rng E 1 9) with (rng E 1 3 ++ [E 4; E 5] ++ rng E 6 9). now rewrite !rds_app, Q6, Q7, Q8. }
  split; [rewrite Q6; apply msb3; lia|]. split; [now apply one_each_map|]. split; [now rewrite Q8, msb1st_bits|].
  replace (rng D 1 1228) with (rng D 1 48 ++ rng D 49 1228) by (unfold rng; rewrite <- map_app; f_equal; symmetry; apply (seq_app 48 1180 1)). rewrite rds_app, Q2. subst y.
  rewrite (rds_data _ _ 84 49 1228 _ _ 84); [|d_run|lia..].
  change (84 + (49 - 49) - 84) with 0. change (1228 + 1 - 49) with 1180. rewrite skipn_O, (firstn_all2 w) by lia. unfold w.
  rewrite <- (firstn_skipn 48 (firstn 1228 (pd_data d))), firstn_firstn, skipn_firstn_comm. reflexivity.
Qed.
Theorem C44_control_data9_64_refuted : forall buf d, length buf = 1296 -> length (pd_data d) = 1240 -> (0 <= pd_tav d <= 2)%Z -> (0 <= pd_mode d <= 4)%Z ->
  dl_block d 9 ->
  exists f, er_gprs_trau_frame_encode_64k buf (PData d) = Some (len_64 (pd_tav d), f) /\
    (pcu_control fig_pcu_data9_64 f 0x04 (pd_tav d) (pd_err d) <-> pd_err d = false /\ pd_tav d = 0%Z).
Proof.
  intros buf d L Ld Ht Hm Hb. destruct (C44_data9_64 buf d L Ld Ht Hm Hb) as (f & E & _ & _ & H). exists f. split; [exact E|].
  rewrite (parity_64 _ _ _ _ _ true H) by (lia || reflexivity). now rewrite is_zero.
Qed.

(** ** refused *)
Lemma timing_64_bad t : ~ (0 <= t <= 2)%Z -> timing_64 t = (-22)%Z.
Proof.
  intros H. unfold timing_64, TIME_ADJ_NONE, TIME_ADJ_DELAY, TIME_ADJ_ADVANCE.
  destruct (Z.eqb_spec t 0); [lia|]. destruct (Z.eqb_spec t 1); [lia|]. destruct (Z.eqb_spec t 2); [lia|]. reflexivity.
Qed.
Lemma put_c_total b ft tav err at_ e par : at_ + 8 <= length b -> e < length b -> par < length b ->
  exists b', put_c b ft tav err at_ e par = Some b' /\ length b' = length b.
Proof.
  intros H1 H2 H3. unfold put_c.
  destruct (blit b at_ (lsb_bits 5 (Z.testbit ft))) as [b1|] eqn:E1; [|rewrite blit_some in E1; [discriminate|cbn; lia]].
  apply blit_length in E1.
  destruct (blit b1 (at_ + 5) (lsb_bits 2 (Z.testbit tav))) as [b2|] eqn:E2; [|rewrite blit_some in E2; [discriminate|cbn; lia]].
  apply blit_length in E2.
  assert (exists b3, (if err then put b2 e false else Some b2) = Some b3 /\ length b3 = length b2) as (b3 & -> & L3).
  { destruct err; [|eexists; split; reflexivity]. destruct (put b2 e false) as [x|] eqn:E; [|rewrite put_splice in E by lia; discriminate].
    apply put_length in E. eexists; split; [reflexivity|lia]. }
  unfold calc_parity. rewrite slice_some by lia.
  destruct (put b3 par _) as [x|] eqn:E; [|rewrite put_splice in E by lia; discriminate].
  apply put_length in E. eexists; split; [reflexivity|lia].
Qed.
Lemma mcs_bits_dl_bound m : mcs_bits_dl m <= 1132.
Proof. unfold mcs_bits_dl. repeat (match goal with |- context [if ?b then _ else _] => destruct b end); lia. Qed.
Lemma enc_64_total d mcs : length (pd_data d) = 1240 -> exists rc f, enc_pcu_data_ind_64 blank_64 d mcs = Some (rc, f) /\
  ((~ (1 <= pd_cs d <= 7) \/ ~ (0 <= pd_mode d <= 4) \/ ~ (0 <= pd_tav d <= 2)) -> rc = -22)%Z.
Proof.
  intros Ld. destruct (cs_code_64 (pd_cs d)) as [e|] eqn:Ec.
  2: { unfold enc_pcu_data_ind_64. rewrite Ec. destruct (put_c_total blank_64 FT_DATA_IND (pd_tav d) (pd_err d) 65 73 74) as (b & -> & Lb); [vm_compute; lia..|].
       do 2 eexists. split; [reflexivity|reflexivity]. }
  destruct (mode_code_64 (pd_mode d)) as [m|] eqn:Em.
  2: { unfold enc_pcu_data_ind_64. rewrite Ec, Em. destruct (put_c_total blank_64 FT_DATA_IND (pd_tav d) (pd_err d) 65 73 74) as (b & -> & Lb); [vm_compute; lia..|].
       change (length blank_64) with 1296 in Lb.
       rewrite blit_some. 2: { unfold cs_code_64 in Ec. destruct (_ && _)%bool in Ec; [|discriminate]. injection Ec as <-. rewrite msb_bits_length. lia. }
       do 2 eexists. split; [reflexivity|reflexivity]. }
  rewrite (enc_data_64_eq _ _ _ _ _ Ec Em).
  pose proof (pre_64_len (pd_tav d) (pd_err d) (Z.testbit (pd_cs d)) (Z.testbit (pd_mode d)) (Z.testbit (pd_offs d)) (Z.testbit (pd_atten d))) as P.
  destruct (pre_64 _ _ _ _ _ _ _) as [b|]; [|contradiction].
  assert (M : forall n, n <= 1132 -> exists b', memcpy b 132 (pd_data d) 0 n = Some b' /\ length b' = 1296).
  { intros n Hn. rewrite memcpy_some by lia. eexists. split; [reflexivity|]. rewrite !app_length, !firstn_length, !skipn_length. lia. }
  match goal with |- exists rc f, match ?e with Some _ => _ | None => _ end = _ /\ _ => assert (exists b', e = Some b') as (b' & ->) end.
  { destruct (_ =? _)%Z.
    - destruct (M 184 ltac:(lia)) as (b1 & -> & L1). unfold put_crc. rewrite slice_some by lia. rewrite blit_some by (rewrite crc16_length; lia). eexists; reflexivity.
    - pose proof (mcs_bits_dl_bound mcs) as B. repeat match goal with |- context [if ?c then _ else _] => destruct c end;
        match goal with |- context [memcpy b 132 _ 0 ?n] => destruct (M n ltac:(lia)) as (b1 & -> & _); eexists; reflexivity end. }
  do 2 eexists. split; [reflexivity|]. intros H. apply timing_64_bad.
  unfold cs_code_64, CS_CS1, CS_HDR3 in Ec. unfold mode_code_64, UL_VOID, UL_AB_UNKN in Em.
  destruct (Z.leb_spec 1 (pd_cs d)); [|discriminate]. destruct (Z.leb_spec (pd_cs d) 7); [|discriminate].
  destruct (Z.leb_spec 0 (pd_mode d)); [|discriminate]. destruct (Z.leb_spec (pd_mode d) 4); [|discriminate]. lia.
Qed.
Lemma enc_9_total d : length (pd_data d) = 1240 -> exists rc f, enc_pcu_data_ind_64_mcs9 blank_64 d = Some (rc, f) /\
  ((~ (0 <= pd_mode d <= 4) \/ ~ (0 <= pd_tav d <= 2)) -> rc = -22)%Z.
Proof.
  intros Ld. destruct (mode_code_64 (pd_mode d)) as [m|] eqn:Em.
  2: { unfold enc_pcu_data_ind_64_mcs9. rewrite Em. rewrite put_splice by (vm_compute; lia).
       set (b0 := splice blank_64 16 [true]). assert (L0 : length b0 = 1296) by reflexivity. rewrite memcpy_some by lia.
       match goal with |- context [put_c ?b _ _ _ _ _ _] => assert (Lb : length b = 1296) by (rewrite !app_length, !firstn_length, !skipn_length; lia);
         destruct (put_c_total b FT_DATA9_IND (pd_tav d) (pd_err d) 65 73 74) as (b' & -> & Lb'); [lia..|] end.
       do 2 eexists. split; [reflexivity|reflexivity]. }
  rewrite (enc_data_9_eq _ _ _ Ld Em).
  pose proof (pre_9_len (firstn 48 (pd_data d)) (pd_tav d) (pd_err d) (Z.testbit (pd_mode d)) (Z.testbit (pd_atten d))) as P.
  specialize (P ltac:(rewrite firstn_length; lia)). destruct (pre_9 _ _ _ _ _ _) as [b|]; [|contradiction].
  rewrite memcpy_some by lia. do 2 eexists. split; [reflexivity|]. intros H. apply timing_64_bad.
  unfold mode_code_64, UL_VOID, UL_AB_UNKN in Em.
  destruct (Z.leb_spec 0 (pd_mode d)); [|discriminate]. destruct (Z.leb_spec (pd_mode d) 4); [|discriminate]. lia.
Qed.
(** Everything else is refused: -EINVAL. *)
Theorem C44_refused_64 : forall buf, length buf = 1296 ->
  (forall s, ~ (0 <= ps_tav s <= 2)%Z -> exists f, er_gprs_trau_frame_encode_64k buf (PSync s) = Some ((-22)%Z, f)) /\
  (forall d, length (pd_data d) = 1240 ->
     ((forall mcs, ~ dl_block d mcs) \/ ~ (0 <= pd_mode d <= 4)%Z \/ ~ (0 <= pd_tav d <= 2)%Z) ->
     exists f, er_gprs_trau_frame_encode_64k buf (PData d) = Some ((-22)%Z, f)) /\
  (exists f, er_gprs_trau_frame_encode_64k buf POther = Some ((-22)%Z, f)).
Proof.
  intros buf L. unfold er_gprs_trau_frame_encode_64k. rewrite !start_64 by assumption. split; [|split].
  - intros s Ht. rewrite start_64 by assumption. unfold enc_pcu_sync_ind_64.
    pose proof (enc_sync_64_len (ps_tav s) (ps_err s) (Z.testbit (ps_pseq s)) (Z.testbit (ps_ss s)) (Z.testbit (ps_fn_ul s)) (Z.testbit (ps_fn_ss s)) (Z.testbit (ps_fn_dl s)) (Z.testbit (ps_ls s))) as H.
    destruct (put_c blank_64 FT_PCU_SYNC_IND (ps_tav s) (ps_err s) 65 73 74) as [b|]; [|contradiction].
    match goal with |- context [put_u32s ?a ?b0 ?c ?l] => destruct (put_u32s a b0 c l) as [[rc f]|]; [|contradiction] end.
    destruct H as (-> & H0). exists f. change (Some (timing_64 (ps_tav s), f) = Some ((-22)%Z, f)). now rewrite timing_64_bad.
  - intros d Ld H. rewrite start_64 by assumption.
    destruct ((pd_cs d =? CS_HDR1) || (pd_cs d =? CS_HDR2) || (pd_cs d =? CS_HDR3))%Z eqn:Eh.
    + assert (Hh : (CS_HDR1 <= pd_cs d <= CS_HDR3)%Z).
      { unfold CS_HDR1, CS_HDR2, CS_HDR3 in *. destruct (Z.eqb_spec (pd_cs d) 5); [lia|]. destruct (Z.eqb_spec (pd_cs d) 6); [lia|]. destruct (Z.eqb_spec (pd_cs d) 7); [lia|discriminate]. }
      rewrite cps_dl_ok by assumption. destruct (mcs_from_cps (cps_dl (pd_cs d) (pd_data d)) (pd_cs d)) as [mcs|] eqn:Em; [|eexists; reflexivity].
      apply mcs_from_cps_ok in Em; [|apply cps_dl_nonneg]. assert (Hb : dl_block d mcs) by (right; auto).
      destruct (mcs <? 9)%Z.
      * destruct (enc_64_total d mcs Ld) as (rc & f & -> & R). exists f. rewrite R; [reflexivity|]. right. destruct H as [H|H]; [now destruct (H mcs)|exact H].
      * destruct (enc_9_total d Ld) as (rc & f & -> & R). exists f. rewrite R; [reflexivity|]. destruct H as [H|H]; [now destruct (H mcs)|exact H].
    + destruct (enc_64_total d 0%Z Ld) as (rc & f & -> & R). exists f. rewrite R; [reflexivity|]. destruct H as [H|H]; [left|right; exact H].
      intros Hc. apply (H 0%Z). left. split; [|reflexivity]. unfold CS_CS1, CS_CS4, CS_HDR1, CS_HDR2, CS_HDR3 in *.
      destruct (Z.eqb_spec (pd_cs d) 5); [discriminate|]. destruct (Z.eqb_spec (pd_cs d) 6); [discriminate|]. destruct (Z.eqb_spec (pd_cs d) 7); [discriminate|]. lia.
  - eexists; reflexivity.
Qed.

(** ** witnesses *)
Definition blk : bits := map (fun i => Nat.even (i / 3)) (seq 0 1240).
Example C44_sync_64_witness : let s := mkPS 1 true 5 6 7 8 9 10 in (0 <= ps_tav s <= 2)%Z /\
  match er_gprs_trau_frame_encode_64k (repeat false 1296) (PSync s) with Some (rc, f) => rc = 1296%Z /\ msb1st (firstn 22 (skipn 298 f)) = 9%Z | None => False end.
Proof. vm_compute. repeat split; congruence. Qed.
(** CPS 13 in a type 3 header = MCS-2; CPS 2 in a type 1 header = MCS-9 *)
Definition with_cps (o : nat) (l : bits) : bits := firstn o blk ++ l ++ skipn (o + length l) blk.
Example C44_data_64_witness : let d := mkPD 2 false CS_HDR3 1 3 200 (with_cps 25 [true; false; true; true]) in
  length (pd_data d) = 1240 /\ dl_block d 2 /\ dl_size (pd_cs d) 2 = 257.
Proof.
  cbv zeta. split; [vm_compute; reflexivity|]. split; [|vm_compute; reflexivity]. right. split; [vm_compute; split; congruence|].
  exists 13%Z, 14%Z. split; [cbn; tauto|]. vm_compute. split; congruence.
Qed.
Example C44_data9_64_witness : let d := mkPD 0 false CS_HDR1 1 3 200 (with_cps 35 [false; true; false; false; false]) in
  length (pd_data d) = 1240 /\ dl_block d 9.
Proof.
  cbv zeta. split; [vm_compute; reflexivity|]. right. split; [vm_compute; split; congruence|].
  exists 0%Z, 10%Z. split; [cbn; tauto|]. vm_compute. split; congruence.
Qed.
Example C44_cs1_witness : let d := mkPD 0 true CS_CS1 4 3 200 blk in length (pd_data d) = 1240 /\ dl_block d 0.
Proof. split; [vm_compute; reflexivity|]. left. vm_compute. repeat split; congruence. Qed.
