(** Lemmas for C44: 64k encoder. *)
From Coq Require Import List Arith Lia Bool ZArith.
From Verif Require Import Base ErModel ErSpec ErProofs.
Import ListNotations.
Open Scope nat_scope.

Definition ok_pcu_sync_64 (f : bits) tav (err : bool) t1 t2 t3 t4 t5 t6 : Prop :=
  let F := fig_pcu_sync_64 in
  length f = 1296 /\ synced_b F f = true /\ filled_b F (firstn 74 f ++ true :: skipn 75 f) = true /\ rds F f (rng TA 1 32) = repeat true 32 /\
  rds F f (rng C 1 7) = lsb_bits 5 (Z.testbit 0x0f) ++ lsb_bits 2 (Z.testbit tav) /\ rd F f (C 8) = true /\ rd F f PC = negb err /\
  rds F f (rng D 96 117) = msb_bits 22 t1 /\ rds F f (rng D 133 148) = msb_bits 16 t2 /\ rds F f (rng D 159 180) = msb_bits 22 t3 /\
  rds F f (rng D 196 211) = msb_bits 15 t4 ++ [true] /\ rds F f (rng D 222 243) = msb_bits 22 t5 /\ rds F f (rng D 259 274) = msb_bits 16 t6.
Lemma enc_sync_64 tav err t1 t2 t3 t4 t5 t6 : (0 <= tav <= 2)%Z ->
  match (do b <- put_c blank_64 FT_PCU_SYNC_IND tav err 65 73 74;
         put_u32s b 1280 T_bits_64 [(t1, 170, 22); (t2, 208, 16); (t3, 234, 22); (t4, 272, 15); (t5, 298, 22); (t6, 336, 16)]) with
  | Some (rc, f) => rc = 0%Z /\ ok_pcu_sync_64 f tav err t1 t2 t3 t4 t5 t6
  | None => False
  end.
Proof. intros H. tav3 H; subst tav; destruct err; vm_compute; conjs. Qed.
Lemma enc_sync_64_len tav err t1 t2 t3 t4 t5 t6 :
  match (do b <- put_c blank_64 FT_PCU_SYNC_IND tav err 65 73 74;
         put_u32s b 1280 T_bits_64 [(t1, 170, 22); (t2, 208, 16); (t3, 234, 22); (t4, 272, 15); (t5, 298, 22); (t6, 336, 16)]) with
  | Some (rc, f) => rc = 0%Z /\ length f = 1296
  | None => False
  end.
Proof. unfold put_c. generalize (Z.testbit tav). intros t. destruct err; vm_compute; conjs. Qed.

(** first 132 bits of a 64k data frame *)
Definition pre_64 (b : bits) (tav : Z) (err : bool) (te tm to ta : Z -> bool) : option bits :=
  do b <- put_c b FT_DATA_IND tav err 65 73 74;
  do b <- blit b 74 (msb_bits 3 te); do b <- blit b 77 (msb_bits 3 tm);
  do b <- blit b 80 (msb_bits 8 to); do b <- blit b 106 (msb_bits 4 ta);
  do p <- calc_parity b 74 36; put b 110 p.
Definition ok_pre_64 (p x : bits) tav (err : bool) te tm to ta : Prop :=
  let F := fig_pcu_data_64 in let f := p ++ x in
  length p = 132 /\ synced_b (firstn 132 F) p = true /\
  rds F f (rng C 1 7) = lsb_bits 5 (Z.testbit 0x1a) ++ lsb_bits 2 (Z.testbit tav) /\ rd F f (C 8) = true /\ rd F f PC = negb err /\
  rds F f (rng E 1 3) = msb_bits 3 te /\ rds F f (rng E 4 6) = msb_bits 3 tm /\ rds F f (rng E 7 14) = msb_bits 8 to /\
  rds F f (rng E 15 32) = repeat true 18 /\ rds F f (rng E 33 36) = msb_bits 4 ta /\ rds F f (rng S_ 1 21) = repeat true 21 /\
  rd F f PE = fold_left xorb (msb_bits 3 te ++ msb_bits 3 tm ++ msb_bits 8 to ++ repeat true 18 ++ msb_bits 4 ta) true.
Lemma pre_64_ok tav err te tm to ta x : (0 <= tav <= 2)%Z ->
  match pre_64 blank_64 tav err te tm to ta with
  | Some b => b = firstn 132 b ++ repeat true 1164 /\ ok_pre_64 (firstn 132 b) x tav err te tm to ta
  | None => False
  end.
Proof. intros H. tav3 H; subst tav; destruct err; vm_compute; conjs. Qed.
Lemma pre_64_len tav err te tm to ta : match pre_64 blank_64 tav err te tm to ta with Some b => length b = 1296 | None => False end.
Proof. unfold pre_64, put_c. generalize (Z.testbit tav). intros. destruct err; vm_compute; reflexivity. Qed.
Lemma enc_data_64_eq b d e m mcs : cs_code_64 (pd_cs d) = Some e -> mode_code_64 (pd_mode d) = Some m ->
  enc_pcu_data_ind_64 b d mcs =
  do b <- pre_64 b (pd_tav d) (pd_err d) (Z.testbit (pd_cs d)) (Z.testbit (pd_mode d)) (Z.testbit (pd_offs d)) (Z.testbit (pd_atten d));
  do b <- (if (pd_cs d =? CS_CS1)%Z then do b <- memcpy b 132 (pd_data d) 0 184; put_crc b 132 184
           else if (pd_cs d =? CS_CS2)%Z then memcpy b 132 (pd_data d) 0 271
           else if (pd_cs d =? CS_CS3)%Z then memcpy b 132 (pd_data d) 0 315
           else if (pd_cs d =? CS_CS4)%Z then memcpy b 132 (pd_data d) 0 431
           else memcpy b 132 (pd_data d) 0 (mcs_bits_dl mcs));
  Some (timing_64 (pd_tav d), b).
Proof.
  intros H1 H2. unfold enc_pcu_data_ind_64, pre_64. rewrite H1, H2.
  unfold cs_code_64 in H1. destruct (_ && _)%bool in H1; [|discriminate]. injection H1 as <-.
  unfold mode_code_64 in H2. destruct (_ && _)%bool in H2; [|discriminate]. injection H2 as <-.
  destruct (put_c b FT_DATA_IND (pd_tav d) (pd_err d) 65 73 74) as [b1|]; [|reflexivity].
  destruct (blit b1 74 _) as [b2|]; [|reflexivity]. destruct (blit b2 77 _) as [b3|]; [|reflexivity].
  destruct (blit b3 80 _) as [b4|]; [|reflexivity]. destruct (blit b4 106 _) as [b5|]; [|reflexivity].
  destruct (calc_parity b5 74 36) as [p|]; [|reflexivity]. destruct (put b5 110 p); reflexivity.
Qed.

(** first 84 bits of a 64k MCS9 frame; [w] = its first 48 data bits *)
Definition pre_9 (b : bits) (w : bits) (tav : Z) (err : bool) (tm ta : Z -> bool) : option bits :=
  do b <- put b 16 true; do b <- blit b 17 w;
  do b <- put_c b FT_DATA9_IND tav err 65 73 74;
  do b <- blit b 74 (msb_bits 3 tm); do b <- blit b 79 (msb_bits 4 ta);
  do p <- calc_parity b 74 9; put b 83 p.
Definition ok_pre_9 (p x w : bits) tav (err : bool) tm ta : Prop :=
  let F := fig_pcu_data9_64 in let f := p ++ x in
  length p = 84 /\ synced_b (firstn 84 F) p = true /\ rds F f (rng D 1 48) = w /\
  rds F f (rng C 1 7) = lsb_bits 5 (Z.testbit 0x04) ++ lsb_bits 2 (Z.testbit tav) /\ rd F f (C 8) = true /\ rd F f PC = negb err /\
  rds F f (rng E 1 3) = msb_bits 3 tm /\ rds F f [E 4; E 5] = [true; true] /\ rds F f (rng E 6 9) = msb_bits 4 ta /\
  rd F f PE = fold_left xorb (msb_bits 3 tm ++ [true; true] ++ msb_bits 4 ta) true.
Lemma pre_9_ok w tav err tm ta x : length w = 48 -> (0 <= tav <= 2)%Z ->
  match pre_9 blank_64 w tav err tm ta with
  | Some b => b = firstn 84 b ++ repeat true 1212 /\ ok_pre_9 (firstn 84 b) x w tav err tm ta
  | None => False
  end.
Proof.
  intros L H. rewrite (vec_of_list w 48 L). generalize (fun i => nth i w false). clear L. intros g.
  tav3 H; subst tav; destruct err; vm_compute; conjs.
Qed.
Lemma pre_9_len w tav err tm ta : length w = 48 -> match pre_9 blank_64 w tav err tm ta with Some b => length b = 1296 | None => False end.
Proof.
  intros L. rewrite (vec_of_list w 48 L). generalize (fun i => nth i w false). clear L. intros g.
  unfold pre_9, put_c. generalize (Z.testbit tav). intros. destruct err; vm_compute; reflexivity.
Qed.
Lemma enc_data_9_eq b d m : length (pd_data d) = 1240 -> mode_code_64 (pd_mode d) = Some m ->
  enc_pcu_data_ind_64_mcs9 b d =
  do b <- pre_9 b (firstn 48 (pd_data d)) (pd_tav d) (pd_err d) (Z.testbit (pd_mode d)) (Z.testbit (pd_atten d));
  do b <- memcpy b 84 (pd_data d) 48 1180;
  Some (timing_64 (pd_tav d), b).
Proof.
  intros L H2. unfold enc_pcu_data_ind_64_mcs9, pre_9. rewrite H2.
  unfold mode_code_64 in H2. destruct (_ && _)%bool in H2; [|discriminate]. injection H2 as <-.
  destruct (put b 16 true) as [b0|]; [|reflexivity].
  unfold memcpy at 1. rewrite slice_some by lia. rewrite skipn_O.
  destruct (blit b0 17 _) as [b01|]; [|reflexivity].
  destruct (put_c b01 FT_DATA9_IND (pd_tav d) (pd_err d) 65 73 74) as [b1|]; [|reflexivity].
  destruct (blit b1 74 _) as [b2|]; [|reflexivity]. destruct (blit b2 79 _) as [b3|]; [|reflexivity].
  destruct (calc_parity b3 74 9) as [p|]; [|reflexivity]. destruct (put b3 83 p); reflexivity.
Qed.

(** coding and puncturing scheme *)
Lemma cps_dl_ok d cs : (CS_HDR1 <= cs <= CS_HDR3)%Z -> length d = 1240 -> cps_from_mcs_block d cs false = Some (Some (cps_dl cs d)).
Proof.
  intros H L. assert (cs = CS_HDR1 \/ cs = CS_HDR2 \/ cs = CS_HDR3)%Z as [->|[->| ->]] by (unfold CS_HDR1, CS_HDR2, CS_HDR3 in *; lia);
    unfold cps_from_mcs_block, cps_dl; cbn [CS_HDR1 CS_HDR2 CS_HDR3 Z.eqb Pos.eqb]; rewrite slice_some by lia; now rewrite val_lsb_spec.
Qed.
Lemma cps_ul_ok d cs : (CS_HDR1 <= cs <= CS_HDR3)%Z -> 40 <= length d -> cps_from_mcs_block d cs true = Some (Some (cps_ul cs d)).
Proof.
  intros H L. assert (cs = CS_HDR1 \/ cs = CS_HDR2 \/ cs = CS_HDR3)%Z as [->|[->| ->]] by (unfold CS_HDR1, CS_HDR2, CS_HDR3 in *; lia);
    unfold cps_from_mcs_block, cps_ul; cbn [CS_HDR1 CS_HDR2 CS_HDR3 Z.eqb Pos.eqb]; rewrite slice_some by lia; now rewrite val_lsb_spec.
Qed.
Ltac zcases H := repeat (match type of H with
  | context [(?x =? ?y)%Z] => destruct (Z.eqb_spec x y)
  | context [(?x <=? ?y)%Z] => destruct (Z.leb_spec x y)
  end; try lia; cbn [orb andb] in H).
Ltac mcs_try a b := exists a, b; split; [subst; cbn; solve [repeat (first [left; reflexivity | right])] |lia].
Lemma mcs_from_cps_ok cps cs m : (0 <= cps)%Z -> (mcs_from_cps cps cs = Some m <-> mcs_of cs cps m).
Proof.
  intros Hp. unfold mcs_from_cps, mcs_of, cps_table, CS_HDR1, CS_HDR2, CS_HDR3. split.
  - intros H. zcases H; try discriminate; injection H as <-;
      first [mcs_try 0%Z 10%Z | mcs_try 11%Z 19%Z | mcs_try 20%Z 28%Z | mcs_try 0%Z 3%Z | mcs_try 4%Z 5%Z | mcs_try 6%Z 7%Z | mcs_try 0%Z 2%Z | mcs_try 3%Z 8%Z | mcs_try 9%Z 10%Z | mcs_try 11%Z 12%Z | mcs_try 13%Z 14%Z].
  - intros (a & b & HI & Hr). cbn [In] in HI.
    repeat (destruct HI as [HI|HI]; [injection HI as <- <- <- <-; cbn [Z.eqb Pos.eqb];
      repeat (match goal with |- context [(?x =? ?y)%Z] => destruct (Z.eqb_spec x y) | |- context [(?x <=? ?y)%Z] => destruct (Z.leb_spec x y) end; try lia; cbn [orb]); try reflexivity|]); contradiction.
Qed.
Lemma mcs_of_range h c m : mcs_of h c m -> (1 <= m <= 9)%Z /\ (CS_HDR1 <= h <= CS_HDR3)%Z.
Proof.
  intros (a & b & HI & _). cbn [In cps_table] in HI. unfold CS_HDR1, CS_HDR2, CS_HDR3 in *.
  repeat (destruct HI as [HI|HI]; [injection HI as <- <- <- <-; lia|]); contradiction.
Qed.
Lemma mcs_bits_dl_ok m : (1 <= m <= 8)%Z -> mcs_bits_dl m = hdr_dl m + payload m.
Proof. intros H. assert (m = 1 \/ m = 2 \/ m = 3 \/ m = 4 \/ m = 5 \/ m = 6 \/ m = 7 \/ m = 8)%Z as [->|[->|[->|[->|[->|[->|[->| ->]]]]]]] by lia; reflexivity. Qed.
Lemma mcs_bits_ul_ok m : (1 <= m <= 8)%Z -> mcs_bits_ul m = Some (hdr_ul m + payload m, octets (hdr_ul m + payload m)).
Proof. intros H. assert (m = 1 \/ m = 2 \/ m = 3 \/ m = 4 \/ m = 5 \/ m = 6 \/ m = 7 \/ m = 8)%Z as [->|[->|[->|[->|[->|[->|[->| ->]]]]]]] by lia; reflexivity. Qed.
Lemma cps_dl_nonneg h d : (0 <= cps_dl h d)%Z.
Proof. apply lsb1st_bound. Qed.
Lemma cps_ul_nonneg h d : (0 <= cps_ul h d)%Z.
Proof. apply lsb1st_bound. Qed.
