(** C45: frames received from the CCU (trau_pcu_ericsson.c, decoder), 16 kbit/s. *)
From Coq Require Import List Arith Lia Bool ZArith.
From Verif Require Import Base ErModel ErSpec ErProofs ErDecProofs.
Import ListNotations.
Open Scope nat_scope.

Ltac cells := vm_compute; reflexivity.
Lemma num_16 f off a b : length f = 320 -> (off = 41 /\ a = 13 /\ b = 34 \/ off = 89 /\ a = 58 /\ b = 79 \/ off = 137 /\ a = 103 /\ b = 124) ->
  get_trau_uint32 f 320 T_bits_16 off 22 = Some (msb1st (rds fig_ccu_sync_16 f (rng D a b))).
Proof.
  intros L H. apply get_u32; [reflexivity|reflexivity|destruct H as [(-> & _)|[(-> & _)|(-> & _)]]; reflexivity|].
  assert (G : match get_loop (320 + 2) (repeat false 32) f T_bits_16 off 0 0 22 (320 - off) (length T_bits_16 - off) with
    | Some (rc, out) => rc = 0%Z /\ slice out 0 22 = Some (rds fig_ccu_sync_16 f (rng D a b)) | None => False end).
  { rewrite (vec_of_list f 320 L). generalize (fun i => nth i f false). intros g. clear L f.
    destruct H as [(-> & -> & ->)|[(-> & -> & ->)|(-> & -> & ->)]]; vm_compute; split; reflexivity. }
  destruct (get_loop _ _ _ _ _ _ _ _ _ _) as [[rc out]|]; [|contradiction]. destruct G as [-> G]. exists out. auto.
Qed.
Lemma synced_sync_16 f : length f = 320 -> (synced fig_ccu_sync_16 f <->
  beq (firstn 17 f) (repeat false 16 ++ [true]) = true /\ forallb (fun i => nth (16 + i * 16) f false) (seq 0 19) = true).
Proof.
  intros L. rewrite (synced_pos _ f (seq 0 16) (map (fun i => 16 + i * 16) (seq 0 19))); [|rewrite L; vm_compute; lia|cells|cells].
  change 17 with (16 + 1). rewrite beq_start by lia. rewrite Forall_map, forallb_forall, Forall_forall, Forall_forall.
  assert (H0 : In 0 (seq 0 19)) by (apply in_seq; lia).
  split; [intros [A B]; repeat split; auto; exact (B 0 H0)|intros [[A _] B]; auto].
Qed.
Lemma synced_data_16 f : length f = 320 -> (synced fig_ccu_data_16 f <-> beq (firstn 17 f) (repeat false 16 ++ [true]) = true).
Proof.
  intros L. rewrite (synced_pos _ f (seq 0 16) [16]); [|rewrite L; vm_compute; lia|cells|cells].
  change 17 with (16 + 1). rewrite beq_start by lia. split; [intros [A B]; split; [auto|now inversion B]|intros [A B]; auto].
Qed.
(** the frame type is read alike through every figure *)
Lemma type_16 f : length f = 320 -> slice f 17 5 = Some (rds fig_ccu_sync_16 f (rng C 1 5)) /\ slice f 17 5 = Some (rds fig_ccu_data_16 f (rng C 1 5)).
Proof. intros L. split; apply slice_cells; (cells || lia). Qed.

Lemma bool_iff b (P : Prop) : (b = true <-> P) -> b = false -> ~ P.
Proof. intros H -> X. apply H in X. discriminate. Qed.

Lemma dec_sync_16 f : length f = 320 -> beq (firstn 17 f) (repeat false 16 ++ [true]) = true -> lsb1st (rds fig_ccu_sync_16 f (rng C 1 5)) = 0x15%Z ->
  (exists s, dec_ccu_sync_ind_16 f = Some (0%Z, CSync s) /\ forall s', ccu_sync_16 f s' <-> s' = s) \/
  (dec_ccu_sync_ind_16 f = Some ((-22)%Z, CNone) /\ forall s', ~ ccu_sync_16 f s').
Proof.
  intros L Hs Ht. unfold dec_ccu_sync_ind_16, dec_ccu_sync, ccu_sync_16. set (F := fig_ccu_sync_16) in *.
  pose proof (synced_sync_16 f L) as SY. fold F in SY. rewrite t1_all by lia.
  destruct (forallb _ (seq 0 19)); [|right; split; [reflexivity|intros s' H; destruct H as [H _]; apply SY in H as [_ H]; discriminate]].
  assert (SY' : synced F f) by now apply SY.
  cbn [negb]. unfold calc_parity. rewrite (slice_cells F f (rng C 1 8) 17 8) by (cells || lia).
  rewrite (get_cell F f PC) by (cells || lia).
  destruct (Bool.eqb (fold_left xorb (rds F f (rng C 1 8)) true) (rd F f PC)) eqn:E1.
  2: { right. split; [reflexivity|]. intros s' H. decompose [and] H. eapply bool_iff in E1; [|apply parity_eqb]. apply E1.
       change [rd F f PC] with (rds F f [PC]). unfold rds in *. rewrite <- map_app. assumption. }
  apply parity_eqb in E1. cbn [negb].
  rewrite (slice_cells F f [C 6; C 7] (17 + 5) 2), (get_cell F f (C 8)), (get_cell F f (E 1)), (get_cell F f PE) by (cells || (rewrite ?L; cbn; lia)).
  destruct (Bool.eqb (rd F f (E 1)) (negb (rd F f PE))) eqn:E2.
  2: { right. split; [reflexivity|]. intros s' H. decompose [and] H. eapply bool_iff in E2; [|apply e1_eqb]. now apply E2. }
  apply e1_eqb in E2. cbn [negb].
  rewrite (num_16 f 41 13 34), (num_16 f 89 58 79), (num_16 f 137 103 124) by (assumption || tauto).
  rewrite val_lsb_spec. left. eexists. split; [reflexivity|].
  intros [a b c d e g]. cbn [cs_tav cs_dfe cs_dbe cs_pseq cs_afn_ul cs_afn_dl]. fold F.
  assert (E1' : odd_ones (rds F f (rng C 1 8 ++ [PC]))) by (unfold rds in *; rewrite map_app; exact E1).
  split; [intros (_ & _ & _ & _ & -> & -> & -> & -> & -> & ->); reflexivity|].
  intros X. injection X as -> -> -> -> -> ->. repeat (split; [assumption || reflexivity || auto|]); reflexivity.
Qed.

Lemma cs16_cases c cs : cs_of_16 c = Some cs -> cs = CS_CS1 \/ cs = CS_CS2 \/ cs = CS_AB.
Proof. unfold cs_of_16. destruct (c =? 0)%Z; [|destruct (c =? 1)%Z; [|destruct (c =? 4)%Z; [|discriminate]]]; intros H; injection H as <-; auto. Qed.
Lemma dec_data_16 f : length f = 320 -> beq (firstn 17 f) (repeat false 16 ++ [true]) = true -> lsb1st (rds fig_ccu_data_16 f (rng C 1 5)) = 0x1a%Z ->
  (exists d, dec_ccu_data_ind_16 f = Some (0%Z, CData d) /\ forall d', ccu_data_16 f d' <-> d' = d) \/
  (dec_ccu_data_ind_16 f = Some ((-22)%Z, CNone) /\ forall d', ~ ccu_data_16 f d').
Proof.
  intros L Hs Ht. unfold dec_ccu_data_ind_16, ccu_data_16. set (F := fig_ccu_data_16) in *. apply (synced_data_16 f L) in Hs. fold F in Hs.
  unfold calc_parity. rewrite (slice_cells F f (rng C 1 7) 17 7), (get_cell F f PC) by (cells || lia).
  destruct (Bool.eqb (fold_left xorb (rds F f (rng C 1 7)) true) (rd F f PC)) eqn:E1.
  2: { right. split; [reflexivity|]. intros s' H. decompose [and] H. eapply bool_iff in E1; [|apply parity_eqb]. apply E1.
       change [rd F f PC] with (rds F f [PC]). unfold rds in *. rewrite <- map_app. assumption. }
  apply parity_eqb in E1. cbn [negb].
  assert (E1' : odd_ones (rds F f (rng C 1 7 ++ [PC]))) by (unfold rds in *; rewrite map_app; exact E1). clear E1.
  rewrite (slice_cells F f [C 6; C 7] 22 2), (slice_cells F f (rng E 1 19) 25 19), (get_cell F f PE), (get_cell F f (E 1)), (slice_cells F f (rng E 2 4) 26 3) by (cells || lia).
  destruct (Bool.eqb (fold_left xorb (rds F f (rng E 1 19)) true) (rd F f PE)) eqn:E2.
  2: { right. split; [reflexivity|]. intros s' H. decompose [and] H. eapply bool_iff in E2; [|apply parity_eqb]. apply E2.
       change [rd F f PE] with (rds F f [PE]). unfold rds in *. rewrite <- map_app. assumption. }
  apply parity_eqb in E2. cbn [negb].
  assert (E2' : odd_ones (rds F f (rng E 1 19 ++ [PE]))) by (unfold rds in *; rewrite map_app; exact E2). clear E2.
  rewrite val_msb_spec. fold (cs_of_16 (msb1st (rds F f (rng E 2 4)))).
  destruct (cs_of_16 _) as [cs|] eqn:Ec.
  2: { right. split; [reflexivity|]. intros s' H. decompose [and] H. match goal with H : cs_16 _ _ |- _ => apply cs_of_16_ok in H end. congruence. }
  rewrite (slice_cells F f (rng E 5 7) 29 3), (get_cell F f (E 8)), (slice_cells F f (rng E 9 14) 33 6), (slice_cells F f (rng E 15 17) 39 3) by (cells || lia).
  rewrite !val_msb_spec, val_lsb_spec.
  destruct (eadd_of (msb1st (rds F f (rng E 15 17)))) as [ea|] eqn:Ee.
  2: { right. split; [reflexivity|]. intros s' H. decompose [and] H. match goal with H : eadd_code _ _ |- _ => apply eadd_ok in H end. congruence. }
  assert (UC : forall x, cs_16 (msb1st (rds F f (rng E 2 4))) x <-> x = cs) by (intros x; rewrite <- cs_of_16_ok, Ec; intuition congruence).
  assert (UE : forall x, eadd_code (msb1st (rds F f (rng E 15 17))) x <-> x = ea) by (intros x; rewrite <- eadd_ok, Ee; intuition congruence).
  assert (FIN : forall data len abs,
    (forall len' data' abs', ((cs = CS_CS1 /\ len' = 23%Z /\ abs' = [] /\ data' = block (rds F f (rng D 1 184)) /\ rds F f (rng D 185 200) = crc_of (rds F f (rng D 1 184))) \/
      (cs = CS_CS2 /\ len' = 34%Z /\ abs' = [] /\ data' = block (rds F f (rng D 1 271))) \/
      (cs = CS_AB /\ len' = 32%Z /\ data' = block (rds F f (rng D 4 259)) /\ Forall2 (access_burst data') [0; 8; 16; 24] abs')) <-> len' = len /\ data' = data /\ abs' = abs) ->
    forall d', (synced F f /\ lsb1st (rds F f (rng C 1 5)) = 26%Z /\ odd_ones (rds F f (rng C 1 7 ++ [PC])) /\ odd_ones (rds F f (rng E 1 19 ++ [PE])) /\
      cd_tav d' = lsb1st (rds F f [C 6; C 7]) /\ cd_dbe d' = negb (rd F f (E 1)) /\ cs_16 (msb1st (rds F f (rng E 2 4))) (cd_cs d') /\
      cd_u d' = Gprs (msb1st (rds F f (rng E 5 7))) (rd F f (E 8)) /\ cd_rx_lev d' = msb1st (rds F f (rng E 9 14)) /\
      eadd_code (msb1st (rds F f (rng E 15 17))) (cd_eadd d') /\
      ((cd_cs d' = CS_CS1 /\ cd_len d' = 23%Z /\ cd_ab d' = [] /\ cd_data d' = block (rds F f (rng D 1 184)) /\ rds F f (rng D 185 200) = crc_of (rds F f (rng D 1 184))) \/
      (cd_cs d' = CS_CS2 /\ cd_len d' = 34%Z /\ cd_ab d' = [] /\ cd_data d' = block (rds F f (rng D 1 271))) \/
      (cd_cs d' = CS_AB /\ cd_len d' = 32%Z /\ cd_data d' = block (rds F f (rng D 4 259)) /\ Forall2 (access_burst (cd_data d')) [0; 8; 16; 24] (cd_ab d')))) <->
      d' = mkCD (lsb1st (rds F f [C 6; C 7])) (negb (rd F f (E 1))) cs (msb1st (rds F f (rng E 9 14))) ea (Gprs (msb1st (rds F f (rng E 5 7))) (rd F f (E 8))) data len abs).
  { intros data len abs H [t1 t2 t3 t4 t5 t6 t7 t8 t9]. cbn [cd_tav cd_dbe cd_cs cd_rx_lev cd_eadd cd_u cd_data cd_len cd_ab]. rewrite UC, UE.
    specialize (H t8 t7 t9). split.
    - intros (_ & _ & _ & _ & -> & -> & -> & -> & -> & -> & X). apply H in X as (-> & -> & ->). reflexivity.
    - intros X. injection X as -> -> -> -> -> -> -> -> ->. repeat (split; [assumption || reflexivity|]). apply H. auto. }
  destruct (cs16_cases _ _ Ec) as [Hc|[Hc|Hc]]; rewrite Hc; cbn [Z.eqb CS_CS1 CS_CS2 CS_AB Pos.eqb]; clear UC.
  - rewrite (block_cells F f (rng D 1 184) 45 184) by (cells || lia).
    destruct (check_crc_cells F f 45 184 (rng D 1 184) (rng D 185 200)) as (ok & -> & K); [cells|cells|rewrite L; cbn; lia|].
    destruct ok; cbn [negb].
    + left. eexists. split; [reflexivity|]. subst cs. apply FIN. intros len' data' abs'. split.
      * intros [X|[X|X]]; [tauto|destruct X; discriminate|destruct X; discriminate].
      * intros (-> & -> & ->). left. repeat (split; [reflexivity|]). now apply K.
    + right. split; [reflexivity|]. intros d' H. destruct H as (_ & _ & _ & _ & _ & _ & X & _ & _ & _ & H). apply cs_of_16_ok in X.
      assert (cd_cs d' = CS_CS1) as Q by congruence. rewrite Q in H.
      destruct H as [H|[H|H]]; [|destruct H; discriminate|destruct H; discriminate]. destruct H as (_ & _ & _ & _ & H). apply K in H. discriminate.
  - rewrite (block_cells F f (rng D 1 271) 45 271) by (cells || lia).
    left. eexists. split; [reflexivity|]. subst cs. apply FIN. intros len' data' abs'. split.
    + intros [X|[X|X]]; [destruct X; discriminate|tauto|destruct X; discriminate].
    + intros (-> & -> & ->). right. left. auto.
  - rewrite (block_cells F f (rng D 4 259) 48 256) by (cells || lia).
    destruct (decode_abs_ok (block (rds F f (rng D 4 259))) [0; 8; 16; 24]) as (r & -> & R).
    { rewrite block_length by (unfold rds; rewrite map_length; vm_compute; lia). repeat (apply Forall_cons; [lia|]); apply Forall_nil. }
    destruct r as [al|].
    + left. eexists. split; [reflexivity|]. subst cs. apply FIN. intros len' data' abs'. split.
      * intros [X|[X|X]]; [destruct X; discriminate|destruct X; discriminate|]. destruct X as (_ & -> & -> & X). apply R in X. injection X as <-. auto.
      * intros (-> & -> & ->). right. right. repeat (split; [reflexivity|]). now apply R.
    + right. split; [reflexivity|]. intros d' H. destruct H as (_ & _ & _ & _ & _ & _ & X & _ & _ & _ & H). apply cs_of_16_ok in X.
      assert (cd_cs d' = CS_AB) as Q by congruence. rewrite Q in H.
      destruct H as [H|[H|H]]; [destruct H; discriminate|destruct H; discriminate|]. destruct H as (_ & _ & D' & H). rewrite D' in H. apply R in H. discriminate.
Qed.

(** A received 320-bit block is reported as a CCU-SYNC-IND or CCU-DATA-IND exactly when
    it is one, with exactly the contents it carries; anything else is -EINVAL and
    nothing is delivered. *)
Theorem C45_16 : forall f, length f = 320 ->
  (exists s, er_gprs_trau_frame_decode_16k f = Some (0%Z, CSync s) /\ (forall s', ccu_sync_16 f s' <-> s' = s) /\ forall d, ~ ccu_data_16 f d) \/
  (exists d, er_gprs_trau_frame_decode_16k f = Some (0%Z, CData d) /\ (forall d', ccu_data_16 f d' <-> d' = d) /\ forall s, ~ ccu_sync_16 f s) \/
  (er_gprs_trau_frame_decode_16k f = Some ((-22)%Z, CNone) /\ (forall s, ~ ccu_sync_16 f s) /\ forall d, ~ ccu_data_16 f d).
Proof.
  intros f L. unfold er_gprs_trau_frame_decode_16k. rewrite slice_some, skipn_O by lia.
  destruct (type_16 f L) as [T1_ T2_]. rewrite T1_.
  assert (TE : rds fig_ccu_sync_16 f (rng C 1 5) = rds fig_ccu_data_16 f (rng C 1 5)) by congruence.
  destruct (beq (firstn 17 f) (repeat false 16 ++ [true])) eqn:Hb; cbn [negb].
  2: { right. right. split; [reflexivity|]. split; intros x H.
       - destruct H as (H & _). apply (synced_sync_16 f L) in H as [H _]. congruence.
       - destruct H as (H & _). apply (synced_data_16 f L) in H. congruence. }
  rewrite val_lsb_spec. unfold FT_CCU_SYNC_IND, FT_DATA_IND.
  destruct (Z.eqb_spec (lsb1st (rds fig_ccu_sync_16 f (rng C 1 5))) 0x15) as [H1|H1].
  - assert (N : forall d, ~ ccu_data_16 f d) by (intros d (_ & H & _); rewrite <- TE in H; congruence).
    destruct (dec_sync_16 f L Hb H1) as [(s & E & U)|(E & U)]; [left; exists s; auto|right; right; auto].
  - assert (N : forall s, ~ ccu_sync_16 f s) by (intros d (_ & H & _); congruence).
    destruct (Z.eqb_spec (lsb1st (rds fig_ccu_sync_16 f (rng C 1 5))) 0x1a) as [H2|H2].
    + rewrite TE in H2. destruct (dec_data_16 f L Hb H2) as [(d & E & U)|(E & U)]; [right; left; exists d; auto|right; right; auto].
    + right. right. split; [reflexivity|]. split; [exact N|]. intros d (_ & H & _). congruence.
Qed.

Definition wit_cs1_16 : bits :=
  let c := lsb_bits 5 (Z.testbit 0x1a) ++ [false; false] in let e := repeat true 1 ++ [false;false;false] ++ repeat true 10 ++ [true;true;false] ++ [true;true] in
  let w := map (fun i => Nat.even (i / 3)) (seq 0 184) in
  repeat false 16 ++ [true] ++ c ++ [fold_left xorb c true] ++ e ++ [fold_left xorb e true] ++ w ++ crc_of w ++ repeat true 75.
Example C45_16_witness : length wit_cs1_16 = 320 /\
  match er_gprs_trau_frame_decode_16k wit_cs1_16 with
  | Some (rc, CData d) => rc = 0%Z /\ cd_cs d = CS_CS1 /\ cd_len d = 23%Z /\ cd_eadd d = 0%Z | _ => False end /\
  (** one bit changed: the CRC no longer fits *)
  er_gprs_trau_frame_decode_16k (firstn 60 wit_cs1_16 ++ [negb (nth 60 wit_cs1_16 false)] ++ skipn 61 wit_cs1_16) = Some ((-22)%Z, CNone).
Proof. vm_compute. repeat split; reflexivity. Qed.
