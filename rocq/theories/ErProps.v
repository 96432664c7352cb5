(** C44: frames the PCU sends (trau_pcu_ericsson.c, encoder). *)
From Coq Require Import List Arith Lia Bool ZArith.
From Verif Require Import Base ErModel ErSpec ErProofs.
Import ListNotations.
Open Scope nat_scope.

Lemma one_each_map F f l : map (rd F f) l = repeat true (length l) -> one_each F f l.
Proof.
  intros H. unfold one_each. apply Forall_forall. intros c Hc. revert H.
  induction l as [|x l IH]; [contradiction|]. cbn. intros E. injection E as E1 E2. destruct Hc as [->|Hc]; auto.
Qed.
Lemma rds_app F f a b : rds F f (a ++ b) = rds F f a ++ rds F f b.
Proof. apply map_app. Qed.
Lemma rds_length F f l : length (rds F f l) = length l.
Proof. apply map_length. Qed.
(** control bits from their computed values *)
Lemma control_of F f ft tav err : (0 <= tav <= 3)%Z -> (0 <= ft < 32)%Z ->
  rds F f (rng C 1 7) = lsb_bits 5 (Z.testbit ft) ++ lsb_bits 2 (Z.testbit tav) -> rd F f (C 8) = negb err ->
  fold_left xorb (rds F f (rng C 1 8 ++ [PC])) false = true -> lsb1st (lsb_bits 5 (Z.testbit ft)) = ft ->
  pcu_control F f ft tav err.
Proof.
  intros Ht Hf H1 H2 H3 H4.
  change (rng C 1 7) with (rng C 1 5 ++ [C 6; C 7]) in H1. rewrite rds_app in H1.
  apply (f_equal (firstn 5)) in H1 as A. rewrite !firstn_app_exact in A by reflexivity.
  apply (f_equal (skipn 5)) in H1 as B. rewrite !skipn_app_exact in B by reflexivity.
  unfold pcu_control. rewrite A, B, H4, lsb1st_bits2 by lia. repeat split; try assumption. now apply odd_ones_fold.
Qed.

Theorem C44_sync_16 : forall buf s, length buf = 324 -> (0 <= ps_tav s <= 2)%Z ->
  exists f, er_gprs_trau_frame_encode_16k buf (PSync s) = Some (len_16 (ps_tav s), f) /\ length f = 324 /\ pcu_sync_16 f s.
Proof.
  intros buf s L Ht. unfold er_gprs_trau_frame_encode_16k.
  pose proof (memset2 buf 16 308 L) as M. destruct (memset buf 0 false 16) as [b1|]; [|discriminate].
  change (320 + 4 - 16) with 308. rewrite M. clear M b1. fold blank_16.
  unfold enc_pcu_sync_ind_16.
  pose proof (enc_sync_16 (ps_tav s) (ps_err s) (Z.testbit (ps_pseq s)) (Z.testbit (ps_ss s)) (Z.testbit (ps_fn_ul s)) (Z.testbit (ps_fn_ss s)) (Z.testbit (ps_fn_dl s)) (Z.testbit (ps_ls s)) Ht) as H.
  destruct (put_c blank_16 FT_PCU_SYNC_IND (ps_tav s) (ps_err s) 17 24 25) as [b|]; [|contradiction].
  match goal with |- context [put_u32s ?a ?b0 ?c ?l] => destruct (put_u32s a b0 c l) as [[rc f]|]; [|contradiction] end.
  destruct H as (-> & H0 & H1 & H2 & H3 & H4 & H5 & H6 & H7 & H8 & H9 & H10 & H11 & H12 & _).
  cbn [fst snd]. exists f. split; [|split; [exact H0|]].
  { replace (timing_16 (ps_tav s)) with (len_16 (ps_tav s)); [reflexivity|]. tav3 Ht; rewrite H; reflexivity. }
  unfold pcu_sync_16. split; [apply synced_b_spec; [rewrite H0; vm_compute; lia|exact H1]|].
  split; [now apply filled_b_spec|]. split; [now apply one_each_map|].
  split; [apply control_of; try assumption; (lia || reflexivity)|].
  rewrite H7, H8, H9, H10, H11, H12, !msb1st_bits. repeat split; reflexivity.
Qed.

(** The cells the figure shows as 0 (bits 26-31 and 33-40) are sent as 1. *)
Theorem C44_zero_cells_16_refuted : forall buf s, length buf = 324 -> (0 <= ps_tav s <= 2)%Z ->
  exists f, er_gprs_trau_frame_encode_16k buf (PSync s) = Some (len_16 (ps_tav s), f) /\
  forall i, nth_error fig_pcu_sync_16 i = Some (K false) -> nth_error f i = Some true.
Proof.
  intros buf s L Ht. destruct (C44_sync_16 buf s L Ht) as (f & E & _). exists f. split; [exact E|].
  unfold er_gprs_trau_frame_encode_16k in E.
  pose proof (memset2 buf 16 308 L) as M. destruct (memset buf 0 false 16) as [b1|]; [|discriminate].
  change (320 + 4 - 16) with 308 in E. rewrite M in E. clear M b1. fold blank_16 in E. unfold enc_pcu_sync_ind_16 in E.
  pose proof (enc_sync_16 (ps_tav s) (ps_err s) (Z.testbit (ps_pseq s)) (Z.testbit (ps_ss s)) (Z.testbit (ps_fn_ul s)) (Z.testbit (ps_fn_ss s)) (Z.testbit (ps_fn_dl s)) (Z.testbit (ps_ls s)) Ht) as H.
  destruct (put_c blank_16 FT_PCU_SYNC_IND (ps_tav s) (ps_err s) 17 24 25) as [b|]; [|contradiction].
  match type of E with context [put_u32s ?a ?b0 ?c ?l] => destruct (put_u32s a b0 c l) as [[rc f']|]; [|contradiction] end.
  destruct H as (-> & H). change (Some (timing_16 (ps_tav s), f') = Some (len_16 (ps_tav s), f)) in E. assert (f' = f) as -> by congruence. clear E.
  destruct H as (_ & _ & _ & _ & _ & _ & _ & _ & _ & _ & _ & _ & _ & Za & Zb).
  intros i Hi.
  assert (R : 26 <= i < 32 \/ 33 <= i < 41).
  { assert (G : forallb (fun i => negb (match nth_error fig_pcu_sync_16 i with Some (K false) => true | _ => false end) ||
               ((26 <=? i) && (i <? 32) || (33 <=? i) && (i <? 41))) (seq 0 324) = true) by (vm_compute; reflexivity).
    rewrite forallb_forall in G.
    assert (B : i < 324) by (apply (proj1 (nth_error_Some fig_pcu_sync_16 i)); congruence).
    specialize (G i). rewrite Hi in G. cbn [negb orb] in G. rewrite in_seq in G. specialize (G ltac:(lia)).
    rewrite orb_true_iff, !andb_true_iff, !Nat.leb_le, !Nat.ltb_lt in G. lia. }
  destruct R as [R|R].
  - replace i with (26 + (i - 26)) by lia. rewrite <- nth_error_skipn, <- (nth_error_firstn _ 6) by lia. rewrite Za.
    assert (J : i - 26 < 6) by lia. revert J. generalize (i - 26). intros j J. do 6 (destruct j as [|j]; [reflexivity|]). lia.
  - replace i with (33 + (i - 33)) by lia. rewrite <- nth_error_skipn, <- (nth_error_firstn _ 8) by lia. rewrite Zb.
    assert (J : i - 33 < 8) by lia. revert J. generalize (i - 33). intros j J. do 8 (destruct j as [|j]; [reflexivity|]). lia.
Qed.

Lemma timing_16_len t : (0 <= t <= 2)%Z -> timing_16 t = len_16 t.
Proof. intros H. tav3 H; subst t; reflexivity. Qed.
Lemma timing_64_len t : (0 <= t <= 2)%Z -> timing_64 t = len_64 t.
Proof. intros H. tav3 H; subst t; reflexivity. Qed.
Lemma mode_16_code m : (0 <= m <= 4)%Z -> exists e3 e4, mode_code_16 m = Some (e3, e4) /\ mode_16 m = [e3; e4].
Proof.
  intros H. assert (m = 0 \/ m = 1 \/ m = 2 \/ m = 3 \/ m = 4)%Z as [->|[->|[->|[->| ->]]]] by lia; do 2 eexists; split; reflexivity.
Qed.
Lemma firstn_mid {A} (a b c : list A) n m : length a = n -> length b = m -> firstn m (skipn n (a ++ b ++ c)) = b.
Proof. intros H1 H2. rewrite skipn_app_exact by assumption. now apply firstn_app_exact. Qed.
Lemma firstn_repeat {A} (x : A) n : forall m, n <= m -> firstn n (repeat x m) = repeat x n.
Proof. induction n as [|n IH]; intros [|m] H; cbn; try lia; try reflexivity. rewrite IH by lia. reflexivity. Qed.
Lemma skipn_repeat {A} (x : A) n : forall m, skipn n (repeat x m) = repeat x (m - n).
Proof. induction n as [|n IH]; intros [|m]; cbn; try reflexivity. apply IH. Qed.

Theorem C44_data_16 : forall buf d, length buf = 324 -> length (pd_data d) = 1240 -> (0 <= pd_tav d <= 2)%Z ->
  (pd_cs d = CS_CS1 \/ pd_cs d = CS_CS2) -> (0 <= pd_mode d <= 4)%Z ->
  exists f, er_gprs_trau_frame_encode_16k buf (PData d) = Some (len_16 (pd_tav d), f) /\ length f = 324 /\ pcu_data_16 f d.
Proof.
  intros buf d L Ld Ht Hcs Hm. unfold er_gprs_trau_frame_encode_16k.
  pose proof (memset2 buf 16 308 L) as M. destruct (memset buf 0 false 16) as [b1|]; [|discriminate].
  change (320 + 4 - 16) with 308. rewrite M. clear M b1. fold blank_16.
  destruct (mode_16_code _ Hm) as (e3 & e4 & Em & Es).
  set (e2 := (pd_cs d =? CS_CS2)%Z).
  assert (Ec : cs_code_16 (pd_cs d) = Some (false, e2)) by (subst e2; destruct Hcs as [-> | ->]; reflexivity).
  rewrite (enc_data_16_eq _ _ _ _ _ _ Ec Em). rewrite timing_16_len by assumption.
  set (to := Z.testbit (pd_offs d)). set (ta := Z.testbit (pd_atten d)).
  assert (G : forall x, exists p, pre_16 blank_16 (pd_tav d) (pd_err d) false e2 e3 e4 to ta = Some (p ++ repeat true 281) /\ ok_pre_16 p x (pd_tav d) (pd_err d) false e2 e3 e4 to ta).
  { intros x. pose proof (pre_16_ok (pd_tav d) (pd_err d) false e2 e3 e4 to ta x Ht) as P.
    destruct (pre_16 _ _ _ _ _ _ _ _ _) as [b|]; [|contradiction]. exists (firstn 43 b). destruct P as [P1 P2]. split; [now rewrite <- P1|exact P2]. }
  destruct (G []) as (p & Ep & Lp & _). rewrite Ep.
  assert (G' : forall x, ok_pre_16 p x (pd_tav d) (pd_err d) false e2 e3 e4 to ta).
  { intros x. destruct (G x) as (p' & Ep' & Q). rewrite Ep in Ep'. injection Ep' as Ep'. apply app_inv_tail in Ep'. now subst p'. }
  clear G Ep.
  assert (F : exists y, length y = 281 /\
     (do b <- (if (pd_cs d =? CS_CS1)%Z then do b <- memcpy (p ++ repeat true 281) 43 (pd_data d) 0 184; put_crc b 43 184
               else memcpy (p ++ repeat true 281) 43 (pd_data d) 0 271); Some (len_16 (pd_tav d), b)) = Some (len_16 (pd_tav d), p ++ y) /\
     (pd_cs d = CS_CS1 -> y = firstn 184 (pd_data d) ++ crc_of (firstn 184 (pd_data d)) ++ repeat true 81) /\
     (pd_cs d = CS_CS2 -> y = firstn 271 (pd_data d) ++ repeat true 10)).
  { assert (Lr : length (p ++ repeat true 281) = 324) by (rewrite app_length, Lp; reflexivity).
    destruct Hcs as [Hcs|Hcs]; rewrite Hcs; cbn [Z.eqb CS_CS1 CS_CS2 Pos.eqb].
    - rewrite memcpy_some by lia. cbn [skipn].
      rewrite firstn_app_exact, skipn_app, skipn_all2, Lp, skipn_repeat by (rewrite ?Lp; lia). cbn [app].
      change (281 - (43 + 184 - 43)) with 97.
      unfold put_crc. rewrite slice_some by (rewrite !app_length, Lp, firstn_length, repeat_length; lia).
      rewrite firstn_mid by (rewrite ?firstn_length; lia).
      set (w := firstn 184 (pd_data d)). assert (Lw : length w = 184) by (unfold w; rewrite firstn_length; lia).
      rewrite blit_some by (rewrite crc16_length, !app_length, Lp, Lw, repeat_length; lia).
      rewrite crc16_length, (app_assoc p w). rewrite firstn_app_exact by (rewrite app_length; lia).
      rewrite skipn_app, skipn_all2 by (rewrite app_length; lia). rewrite app_length, Lp, Lw, skipn_repeat. cbn [app].
      change (97 - (43 + 184 + 16 - (43 + 184))) with 81. rewrite crc16_spec.
      exists (w ++ crc_of w ++ repeat true 81). split; [rewrite <- crc16_spec, !app_length, crc16_length, Lw; reflexivity|].
      split; [now rewrite <- !app_assoc|]. split; [reflexivity|discriminate].
    - rewrite memcpy_some by lia. cbn [skipn].
      rewrite firstn_app_exact, skipn_app, skipn_all2, Lp, skipn_repeat by (rewrite ?Lp; lia). cbn [app].
      exists (firstn 271 (pd_data d) ++ repeat true 10).
      split; [rewrite app_length, firstn_length, repeat_length; lia|]. split; [reflexivity|]. split; [discriminate|reflexivity]. }
  destruct F as (y & Ly & Ey & Y1 & Y2). rewrite Ey. exists (p ++ y). split; [reflexivity|].
  assert (Lf : length (p ++ y) = 324) by (rewrite app_length; lia). split; [exact Lf|].
  destruct (G' y) as (_ & Q1 & Q2 & Q3 & Q4 & Q5 & Q6 & Q7 & Q8 & Q9).
  unfold pcu_data_16.
  assert (SK : forall k n, 43 <= k -> firstn n (skipn k (p ++ y)) = firstn n (skipn (k - 43) y)).
  { intros k n Hk. rewrite skipn_app, skipn_all2, Lp by lia. reflexivity. }
  split.
  { apply synced_b_spec; [rewrite Lf; vm_compute; lia|]. rewrite <- (firstn_skipn 43 fig_pcu_data_16), synced_b_app by (rewrite Lp; reflexivity).
    rewrite Q1. apply synced_free; [reflexivity|]. rewrite Ly. vm_compute. lia. }
  assert (Tail : forall l k n, map (cell_pos fig_pcu_data_16) l = seq k (length l) -> n = length l -> 43 <= k -> k + n <= 324 ->
     rds fig_pcu_data_16 (p ++ y) l = firstn n (skipn (k - 43) y)).
  { intros l k n H1 -> H3 H4. rewrite (rds_slice _ _ _ k) by (assumption || lia). apply SK. assumption. }
  assert (Ones : forall l k, map (cell_pos fig_pcu_data_16) l = seq k (length l) -> 43 <= k -> k + length l <= 324 ->
     firstn (length l) (skipn (k - 43) y) = repeat true (length l) -> one_each fig_pcu_data_16 (p ++ y) l).
  { intros l k H1 H3 H4 H5. apply (one_each_slice _ _ _ k); [assumption|lia|]. rewrite SK by assumption. exact H5. }
  split.
  { apply (Ones _ 316); [reflexivity|lia|cbn; lia|]. change (length (rng TA 1 8)) with 8. change (316 - 43) with 273. destruct Hcs as [Hcs|Hcs].
    - rewrite (Y1 Hcs), app_assoc, skipn_app, skipn_all2 by (rewrite <- crc16_spec, app_length, crc16_length, firstn_length; lia).
      rewrite <- crc16_spec, app_length, crc16_length, firstn_length, Ld, skipn_repeat. reflexivity.
    - rewrite (Y2 Hcs), skipn_app, skipn_all2 by (rewrite firstn_length; lia). rewrite firstn_length, Ld, skipn_repeat. reflexivity. }
  split; [apply control_of; try assumption; (lia || reflexivity)|].
  split.
  { rewrite rds_app. change (rds fig_pcu_data_16 (p ++ y) [PE]) with [rd fig_pcu_data_16 (p ++ y) PE]. apply odd_ones_parity.
    rewrite Q9. f_equal. change (rng E 1 16) with ([E 1; E 2] ++ [E 3; E 4] ++ rng E 5 12 ++ rng E 13 16). rewrite !rds_app, Q5, Q6, Q7, Q8. reflexivity. }
  split; [exact Q5|]. split; [now rewrite Q6, Es|]. rewrite Q7, Q8. unfold to, ta. rewrite !msb1st_bits. split; [reflexivity|]. split; [reflexivity|].
  split; intros Hc.
  - assert (Lw : length (firstn 184 (pd_data d)) = 184) by (rewrite firstn_length; lia).
    split; [|split].
    + rewrite (Tail (rng D 1 184) 43 184), (Y1 Hc) by (reflexivity || lia). change (43 - 43) with 0. rewrite skipn_O. now apply firstn_app_exact.
    + rewrite (Tail (rng D 185 200) 227 16), (Y1 Hc) by (reflexivity || lia). change (227 - 43) with 184.
      apply firstn_mid; [exact Lw|]. rewrite <- crc16_spec. apply crc16_length.
    + apply (Ones _ 243); [reflexivity|lia|cbn; lia|]. rewrite (Y1 Hc).
      rewrite app_assoc, skipn_app, skipn_all2 by (rewrite <- crc16_spec, app_length, crc16_length, Lw; lia).
      rewrite <- crc16_spec, app_length, crc16_length, Lw. reflexivity.
  - assert (Lw : length (firstn 271 (pd_data d)) = 271) by (rewrite firstn_length; lia).
    split.
    + rewrite (Tail (rng D 1 271) 43 271), (Y2 Hc) by (reflexivity || lia). change (43 - 43) with 0. rewrite skipn_O. now apply firstn_app_exact.
    + apply (Ones _ 314); [reflexivity|lia|cbn; lia|]. rewrite (Y2 Hc), skipn_app, skipn_all2, Lw by lia. reflexivity.
Qed.

(** Everything else is refused: -EINVAL. *)
Theorem C44_refused_16 : forall buf, length buf = 324 ->
  (forall s, ~ (0 <= ps_tav s <= 2)%Z -> exists f, er_gprs_trau_frame_encode_16k buf (PSync s) = Some ((-22)%Z, f)) /\
  (forall d, length (pd_data d) = 1240 ->
     (~ (pd_cs d = CS_CS1 \/ pd_cs d = CS_CS2) \/ ~ (0 <= pd_mode d <= 4)%Z \/ ~ (0 <= pd_tav d <= 2)%Z) ->
     exists f, er_gprs_trau_frame_encode_16k buf (PData d) = Some ((-22)%Z, f)) /\
  (exists f, er_gprs_trau_frame_encode_16k buf POther = Some ((-22)%Z, f)).
Proof.
  intros buf L. unfold er_gprs_trau_frame_encode_16k.
  pose proof (memset2 buf 16 308 L) as M. destruct (memset buf 0 false 16) as [b1|]; [|discriminate].
  change (320 + 4 - 16) with 308. rewrite M. clear M b1. fold blank_16.
  assert (Tm : forall t, ~ (0 <= t <= 2)%Z -> timing_16 t = (-22)%Z).
  { intros t H. unfold timing_16, TIME_ADJ_NONE, TIME_ADJ_DELAY, TIME_ADJ_ADVANCE.
    destruct (Z.eqb_spec t 0); [lia|]. destruct (Z.eqb_spec t 1); [lia|]. destruct (Z.eqb_spec t 2); [lia|]. reflexivity. }
  split; [|split].
  - intros s Ht. unfold enc_pcu_sync_ind_16.
    pose proof (enc_sync_16_len (ps_tav s) (ps_err s) (Z.testbit (ps_pseq s)) (Z.testbit (ps_ss s)) (Z.testbit (ps_fn_ul s)) (Z.testbit (ps_fn_ss s)) (Z.testbit (ps_fn_dl s)) (Z.testbit (ps_ls s))) as H.
    destruct (put_c blank_16 FT_PCU_SYNC_IND (ps_tav s) (ps_err s) 17 24 25) as [b|]; [|contradiction].
    match goal with |- context [put_u32s ?a ?b0 ?c ?l] => destruct (put_u32s a b0 c l) as [[rc f]|]; [|contradiction] end.
    destruct H as (-> & _). exists f. change (Some (timing_16 (ps_tav s), f) = Some ((-22)%Z, f)). now rewrite Tm.
  - intros d Ld H.
    assert (P : forall e1 e2 e3 e4, match pre_16 blank_16 (pd_tav d) (pd_err d) e1 e2 e3 e4 (Z.testbit (pd_offs d)) (Z.testbit (pd_atten d)) with Some b => length b = 324 | None => False end).
    { intros. unfold pre_16, put_c. generalize (Z.testbit (pd_tav d)), (Z.testbit (pd_offs d)), (Z.testbit (pd_atten d)). intros. destruct (pd_err d); vm_compute; reflexivity. }
    assert (Pc : exists b, put_c blank_16 FT_DATA_IND (pd_tav d) (pd_err d) 17 24 25 = Some b /\ length b = 324).
    { specialize (P false false false false). unfold pre_16 in P.
      destruct (put_c blank_16 FT_DATA_IND (pd_tav d) (pd_err d) 17 24 25) as [b|] eqn:E; [|contradiction]. exists b. split; [reflexivity|].
      unfold put_c in E. repeat match type of E with (match ?e with Some _ => _ | None => _ end) = Some _ => destruct e eqn:?; [|discriminate] end.
      repeat match goal with H : blit _ _ _ = Some _ |- _ => apply blit_length in H | H : put _ _ _ = Some _ |- _ => apply put_length in H end.
      rewrite E.
      match goal with H : (if pd_err d then _ else _) = Some _ |- _ => destruct (pd_err d); [apply put_length in H|injection H as H; subst] end;
      change 324 with (length blank_16); congruence. }
    destruct (cs_code_16 (pd_cs d)) as [[e1 e2]|] eqn:Ec.
    + destruct (mode_code_16 (pd_mode d)) as [[e3 e4]|] eqn:Em.
      * rewrite (enc_data_16_eq _ _ _ _ _ _ Ec Em). specialize (P e1 e2 e3 e4). destruct (pre_16 _ _ _ _ _ _ _ _ _) as [b|]; [|contradiction].
        assert (Ht : ~ (0 <= pd_tav d <= 2)%Z).
        { destruct H as [H|[H|H]]; [| |exact H]; exfalso; apply H; clear H.
          - unfold cs_code_16 in Ec. destruct (Z.eqb_spec (pd_cs d) CS_CS1); [now left|]. destruct (Z.eqb_spec (pd_cs d) CS_CS2); [now right|discriminate].
          - unfold mode_code_16, UL_NB_GMSK, UL_NB_UNKN, UL_AB, UL_AB_UNKN, UL_VOID in Em.
            repeat match type of Em with context [(?x =? ?y)%Z] => destruct (Z.eqb_spec x y); [lia|] end. discriminate. }
        rewrite (Tm _ Ht). destruct (pd_cs d =? CS_CS1)%Z.
        -- rewrite memcpy_some by lia. unfold put_crc.
           assert (Lb : length (firstn 43 b ++ firstn 184 (skipn 0 (pd_data d)) ++ skipn (43 + 184) b) = 324) by (rewrite !app_length, !firstn_length, !skipn_length; lia).
           rewrite slice_some by (rewrite Lb; lia). rewrite blit_some by (rewrite crc16_length, Lb; lia). eexists; reflexivity.
        -- rewrite memcpy_some by lia. eexists; reflexivity.
      * unfold enc_pcu_data_ind_16. destruct Pc as (b & -> & Lb). rewrite Ec, Em.
        rewrite put_splice by lia. rewrite put_splice by (rewrite splice_length; cbn [length]; lia). eexists; reflexivity.
    + unfold enc_pcu_data_ind_16. destruct Pc as (b & -> & Lb). rewrite Ec. eexists; reflexivity.
  - eexists; reflexivity.
Qed.

Example C44_16_witness :
  let d := mkPD 1 true CS_CS1 3 5 100 (map (fun i => Nat.even (i / 3)) (seq 0 1240)) in
  length (pd_data d) = 1240 /\
  match er_gprs_trau_frame_encode_16k (repeat false 324) (PData d) with Some (rc, f) => rc = 324%Z /\ rds fig_pcu_data_16 f (rng E 3 4) = [false; true] | None => False end /\
  match er_gprs_trau_frame_encode_16k (repeat false 324) (PSync (mkPS 2 false 4194303 1 2 3 4 5)) with Some (rc, f) => rc = 316%Z /\ msb1st (rds fig_pcu_sync_16 f (rng D 15 36)) = 4194303%Z | None => False end.
Proof. vm_compute. repeat split; reflexivity. Qed.
