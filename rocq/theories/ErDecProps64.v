(** C45: frames received from the CCU (trau_pcu_ericsson.c, decoder), 64 kbit/s. *)
From Coq Require Import List Arith Lia Bool ZArith.
From Verif Require Import Base ErModel ErSpec ErProofs ErProofs64 ErProps64 ErDecProofs ErDecProps.
Import ListNotations.
Open Scope nat_scope.

Lemma num_64 f off a b : length f = 1280 -> (off = 170 /\ a = 94 /\ b = 115 \/ off = 234 /\ a = 157 /\ b = 178 \/ off = 298 /\ a = 220 /\ b = 241) ->
  get_trau_uint32 f 1280 T_bits_64 off 22 = Some (msb1st (rds fig_ccu_sync_64 f (rng D a b))).
Proof.
  intros L H. apply get_u32; [reflexivity|reflexivity|destruct H as [(-> & _)|[(-> & _)|(-> & _)]]; reflexivity|].
  assert (G : match get_loop (1280 + 2) (repeat false 32) f T_bits_64 off 0 0 22 (1280 - off) (length T_bits_64 - off) with
    | Some (rc, out) => rc = 0%Z /\ slice out 0 22 = Some (rds fig_ccu_sync_64 f (rng D a b)) | None => False end).
  { rewrite (vec_of_list f 1280 L). generalize (fun i => nth i f false). intros g. clear L f.
    destruct H as [(-> & -> & ->)|[(-> & -> & ->)|(-> & -> & ->)]]; vm_compute; split; reflexivity. }
  destruct (get_loop _ _ _ _ _ _ _ _ _ _) as [[rc out]|]; [|contradiction]. destruct G as [-> G]. exists out. auto.
Qed.
Lemma synced_sync_64 f : length f = 1280 -> (synced fig_ccu_sync_64 f <->
  beq (firstn 65 f) (repeat false 64 ++ [true]) = true /\ forallb (fun i => nth (64 + i * 64) f false) (seq 0 19) = true).
Proof.
  intros L. rewrite (synced_pos _ f (seq 0 64) (map (fun i => 64 + i * 64) (seq 0 19))); [|rewrite L; vm_compute; lia|cells|cells].
  change 65 with (64 + 1). rewrite beq_start by lia. rewrite Forall_map, forallb_forall, Forall_forall, Forall_forall.
  assert (H0 : In 0 (seq 0 19)) by (apply in_seq; lia).
  split; [intros [A B]; repeat split; auto; exact (B 0 H0)|intros [[A _] B]; auto].
Qed.
Lemma synced_data_64 f : length f = 1280 -> (synced fig_ccu_data_64 f <-> beq (firstn 65 f) (repeat false 64 ++ [true]) = true).
Proof.
  intros L. rewrite (synced_pos _ f (seq 0 64) [64]); [|rewrite L; vm_compute; lia|cells|cells].
  change 65 with (64 + 1). rewrite beq_start by lia. split; [intros [A B]; split; [auto|now inversion B]|intros [A B]; auto].
Qed.
Lemma synced_data9_64 f : length f = 1280 -> (synced fig_ccu_data9_64 f <-> beq (firstn 17 f) (repeat false 16 ++ [true]) = true).
Proof.
  intros L. rewrite (synced_pos _ f (seq 0 16) [16]); [|rewrite L; vm_compute; lia|cells|cells].
  change 17 with (16 + 1). rewrite beq_start by lia. split; [intros [A B]; split; [auto|now inversion B]|intros [A B]; auto].
Qed.
Lemma type_64 f : length f = 1280 -> slice f 65 5 = Some (rds fig_ccu_sync_64 f (rng C 1 5)) /\
  slice f 65 5 = Some (rds fig_ccu_data_64 f (rng C 1 5)) /\ slice f 65 5 = Some (rds fig_ccu_data9_64 f (rng C 1 5)).
Proof. intros L. repeat split; apply slice_cells; (cells || lia). Qed.

Lemma dec_sync_64 f : length f = 1280 -> beq (firstn 65 f) (repeat false 64 ++ [true]) = true -> lsb1st (rds fig_ccu_sync_64 f (rng C 1 5)) = 0x15%Z ->
  (exists s, dec_ccu_sync_ind_64 f = Some (0%Z, CSync s) /\ forall s', ccu_sync_64 f s' <-> s' = s) \/
  (dec_ccu_sync_ind_64 f = Some ((-22)%Z, CNone) /\ forall s', ~ ccu_sync_64 f s').
Proof.
  intros L Hs Ht. unfold dec_ccu_sync_ind_64, dec_ccu_sync, ccu_sync_64. set (F := fig_ccu_sync_64) in *.
  pose proof (synced_sync_64 f L) as SY. fold F in SY. rewrite t1_all by lia.
  destruct (forallb _ (seq 0 19)); [|right; split; [reflexivity|intros s' H; destruct H as [H _]; apply SY in H as [_ H]; discriminate]].
  assert (SY' : synced F f) by now apply SY.
  cbn [negb]. unfold calc_parity. rewrite (slice_cells F f (rng C 1 8) 65 8) by (cells || lia).
  rewrite (get_cell F f PC) by (cells || lia).
  destruct (Bool.eqb (fold_left xorb (rds F f (rng C 1 8)) true) (rd F f PC)) eqn:E1.
  2: { right. split; [reflexivity|]. intros s' H. decompose [and] H. eapply bool_iff in E1; [|apply parity_eqb]. apply E1.
       change [rd F f PC] with (rds F f [PC]). unfold rds in *. rewrite <- map_app. assumption. }
  apply parity_eqb in E1. cbn [negb].
  rewrite (slice_cells F f [C 6; C 7] (65 + 5) 2), (get_cell F f (C 8)), (get_cell F f (E 1)), (get_cell F f PE) by (cells || lia).
  destruct (Bool.eqb (rd F f (E 1)) (negb (rd F f PE))) eqn:E2.
  2: { right. split; [reflexivity|]. intros s' H. decompose [and] H. eapply bool_iff in E2; [|apply e1_eqb]. now apply E2. }
  apply e1_eqb in E2. cbn [negb].
  rewrite (num_64 f 170 94 115), (num_64 f 234 157 178), (num_64 f 298 220 241) by (assumption || tauto).
  rewrite val_lsb_spec. left. eexists. split; [reflexivity|].
  intros [a b c d e g]. cbn [cs_tav cs_dfe cs_dbe cs_pseq cs_afn_ul cs_afn_dl]. fold F.
  assert (E1' : odd_ones (rds F f (rng C 1 8 ++ [PC]))) by (unfold rds in *; rewrite map_app; exact E1).
  split; [intros (_ & _ & _ & _ & -> & -> & -> & -> & -> & ->); reflexivity|].
  intros X. injection X as -> -> -> -> -> ->. repeat (split; [assumption || reflexivity || auto|]); reflexivity.
Qed.

(** what is delivered for what the frame says: the mean bit error probability is
    replaced by the coefficient of variation, which is itself reported as 0 *)
Definition forget_bep (q : qual) : qual := match q with Egprs _ cv h a b => Egprs cv 0 h a b | q => q end.
Definition deliver (d : ccu_data) : ccu_data :=
  mkCD (cd_tav d) (cd_dbe d) (cd_cs d) (cd_rx_lev d) (cd_eadd d) (forget_bep (cd_u d)) (cd_data d) (cd_len d) (cd_ab d).

(** documented quality *)
Definition doc_qual (F : list cell) (f : bits) (m1 m2 c1 c2 h1 : nat) : qual :=
  let h := rd F f (E h1) in
  Egprs (msb1st (rds F f (rng E m1 m2))) (msb1st (rds F f (rng E c1 c2))) (negb h) (negb h && negb (rd F f (E (h1 + 1)))) (negb h && negb (rd F f (E (h1 + 2)))).
Lemma egprs_cells F f pm pc ph m1 m2 c1 c2 h1 :
  map (cell_pos F) (rng E m1 m2) = seq pm 7 -> map (cell_pos F) (rng E c1 c2) = seq pc 3 ->
  map (cell_pos F) (rng E h1 (h1 + 2)) = seq ph 3 -> pm + 7 <= length f -> pc + 3 <= length f -> ph + 3 <= length f ->
  egprs_qual f pm pc ph = Some (forget_bep (doc_qual F f m1 m2 c1 c2 h1)) /\
  forall q, egprs_says (rds F f (rng E m1 m2)) (rds F f (rng E c1 c2)) (rds F f (rng E h1 (h1 + 2))) q <-> q = doc_qual F f m1 m2 c1 c2 h1.
Proof.
  intros H1 H2 H3 L1 L2 L3. unfold rng in H3 at 1. replace (h1 + 2 + 1 - h1) with 3 in H3 by lia. cbn [seq map] in H3. injection H3 as P0 P1 P2.
  replace (S h1) with (h1 + 1) in P1 by lia. replace (S (S h1)) with (h1 + 2) in P2 by lia.
  split.
  - unfold egprs_qual. rewrite (slice_cells F f _ _ _ H1 L1), (slice_cells F f _ _ _ H2 L2).
    rewrite (get_cell F f (E h1)), (get_cell F f (E (h1 + 1)) (ph + 1)), (get_cell F f (E (h1 + 2)) (ph + 2)) by (assumption || lia).
    rewrite !val_msb_spec. reflexivity.
  - intros q. assert (RH : rds F f (rng E h1 (h1 + 2)) = [rd F f (E h1); rd F f (E (h1 + 1)); rd F f (E (h1 + 2))]).
    { unfold rng. replace (h1 + 2 + 1 - h1) with 3 by lia. cbn [seq map rds].
      replace (S h1) with (h1 + 1) by lia. replace (S (h1 + 1)) with (h1 + 2) by lia. reflexivity. }
    rewrite RH. reflexivity.
Qed.
Lemma cps_block h l : 40 = length l -> (CS_HDR1 <= h <= CS_HDR3)%Z -> cps_ul h (block l) = cps_ul h l.
Proof.
  intros L H. unfold cps_ul, block.
  assert (G : forall a n, a + n <= 40 -> firstn n (skipn a (l ++ repeat false (1240 - length l))) = firstn n (skipn a l)).
  { intros a n Ha. rewrite skipn_app, firstn_app, skipn_length. replace (n - (length l - a)) with 0 by lia. cbn [firstn]. apply app_nil_r. }
  rewrite !G by lia. reflexivity.
Qed.
Lemma cps_block_ok h l : 40 = length l -> (CS_HDR1 <= h <= CS_HDR3)%Z -> cps_from_mcs_block (block l) h true = Some (Some (cps_ul h l)).
Proof. intros L H. rewrite cps_ul_ok by (assumption || (rewrite block_length; lia)). now rewrite cps_block. Qed.
Lemma ul_bound m : (1 <= m <= 8)%Z -> hdr_ul m + payload m <= 1138.
Proof. intros H. assert (m = 1 \/ m = 2 \/ m = 3 \/ m = 4 \/ m = 5 \/ m = 6 \/ m = 7 \/ m = 8)%Z as [->|[->|[->|[->|[->|[->|[->| ->]]]]]]] by lia; vm_compute; lia. Qed.
Lemma mcs_of_unique h c m m' : (0 <= c)%Z -> mcs_of h c m -> mcs_of h c m' -> m = m'.
Proof. intros Hc H1 H2. apply mcs_from_cps_ok in H1, H2; congruence. Qed.
Lemma msb3_range F f k : (0 <= msb1st (rds F f (rng k 2 4)) <= 7)%Z.
Proof. pose proof (msb1st_bound (rds F f (rng k 2 4))) as B. change (Z.of_nat (length (rds F f (rng k 2 4)))) with 3%Z in B. change (2 ^ 3)%Z with 8%Z in B. lia. Qed.

Section DATA64.
Variable f : bits.
Hypothesis L : length f = 1280.
Notation F := fig_ccu_data_64.
Notation CSv := (msb1st (rds F f (rng E 2 4))).
(** the documented part that depends on the coding scheme *)
Definition doc_block (cs : Z) (data : bits) (len : Z) (abs : list ab) : Prop :=
  (CS_CS1 <= cs <= CS_CS4 /\ abs = [] /\ len = octets (cs_size cs) /\ data = block (rds F f (rng D 1 (cs_size cs))) /\
     (cs = CS_CS1 -> rds F f (rng D 185 200) = crc_of (rds F f (rng D 1 184))))%Z \/
  (cs = CS_AB /\ len = 32%Z /\ data = block (rds F f (rng D 11 266)) /\ Forall2 (access_burst data) [0; 8; 16; 24] abs) \/
  ((CS_HDR1 <= cs <= CS_HDR3)%Z /\ abs = [] /\
     let cps := cps_ul cs (rds F f (rng D 1 40)) in
     ((exists mcs, mcs_of cs cps mcs /\ (mcs <= 8)%Z /\ let n := hdr_ul mcs + payload mcs in len = octets n /\ data = block (rds F f (rng D 1 n))) \/
      ((forall mcs, ~ mcs_of cs cps mcs) /\ len = 0%Z /\ data = block (rds F f (rng D 1 40))))).
Lemma D_cells n : n <= 1138 -> map (cell_pos F) (rng D 1 n) = seq 134 n.
Proof.
  intros Hn. assert (A : map (cell_pos F) (rng D 1 1138) = seq 134 (1138 + 1 - 1)) by d_run.
  replace (seq 134 n) with (seq (134 + (1 - 1)) (n + 1 - 1)) by (f_equal; lia). apply cellpos_rng with (B := 1138); [exact A|lia..].
Qed.
Lemma D_block n : n <= 1138 -> block_from f 134 n = Some (block (rds F f (rng D 1 n))).
Proof. intros Hn. apply block_cells; [now apply D_cells|lia|lia]. Qed.

(** the last step of the decoder, on its own *)
Definition dec_block (cs : Z) : option (option (bits * Z * list ab)) :=
  if (cs =? CS_CS1)%Z then
    do data <- block_from f 134 184; do ok <- check_crc f 134 184;
    if negb ok then Some None else Some (Some (data, 23%Z, []))
  else if (cs =? CS_CS2)%Z then do data <- block_from f 134 271; Some (Some (data, 34%Z, []))
  else if (cs =? CS_CS3)%Z then do data <- block_from f 134 315; Some (Some (data, 40%Z, []))
  else if (cs =? CS_CS4)%Z then do data <- block_from f 134 431; Some (Some (data, 54%Z, []))
  else if (cs =? CS_AB)%Z then do data <- block_from f 144 256; do a <- decode_abs data [0; 8; 16; 24];
       match a with None => Some None | Some l => Some (Some (data, 32%Z, l)) end
  else
    do data <- block_from f 134 40;
    do c <- cps_from_mcs_block data cs true;
    match c with None => Some (Some (data, 0%Z, [])) | Some cps =>
      match mcs_from_cps cps cs with
      | None => Some (Some (data, 0%Z, []))
      | Some mcs => match mcs_bits_ul mcs with
                    | Some (n, len) => do data <- block_from f 134 n; Some (Some (data, len, []))
                    | None => Some None
                    end
      end
    end.
Ltac cslia := unfold CS_CS1, CS_CS2, CS_CS3, CS_CS4, CS_AB, CS_HDR1, CS_HDR2, CS_HDR3 in *; lia.
Lemma cs_case cs data len abs n l : (CS_CS2 <= cs <= CS_CS4)%Z -> n = cs_size cs -> l = octets (cs_size cs) ->
  (doc_block cs data len abs <-> Some (block (rds F f (rng D 1 n)), l, []) = Some (data, len, abs)).
Proof.
  intros H -> ->. unfold doc_block. generalize (block (rds F f (rng D 1 (cs_size cs)))). generalize (octets (cs_size cs)). intros o b. split.
  - intros [(_ & -> & -> & -> & _)|[(X & _)|(X & _)]]; [reflexivity|cslia|cslia].
  - intros X. injection X as <- <- <-. left. split; [cslia|]. repeat (split; [reflexivity|]). cslia.
Qed.
Lemma dec_block_ok cs : (0 <= cs <= 7)%Z -> exists r, dec_block cs = Some r /\ forall data len abs, doc_block cs data len abs <-> r = Some (data, len, abs).
Proof.
  intros Hr. unfold dec_block.
  assert (cs = CS_CS1 \/ cs = CS_CS2 \/ cs = CS_CS3 \/ cs = CS_CS4 \/ cs = CS_AB \/ CS_HDR1 <= cs <= CS_HDR3)%Z as H
    by (unfold CS_CS1, CS_CS2, CS_CS3, CS_CS4, CS_AB, CS_HDR1, CS_HDR3; lia).
  assert (Q2 : forall n len, (n = cs_size CS_CS2 /\ len = 34 \/ n = cs_size CS_CS3 /\ len = 40 \/ n = cs_size CS_CS4 /\ len = 54)%Z -> n <= 1138 /\ len = octets n).
  { intros n len [[-> ->]|[[-> ->]|[-> ->]]]; split; (vm_compute; (lia || reflexivity)). }
  destruct H as [->|[->|[->|[->|[->|H]]]]]; cbn [Z.eqb CS_CS1 CS_CS2 CS_CS3 CS_CS4 CS_AB Pos.eqb].
  - rewrite D_block by lia. destruct (check_crc_cells F f 134 184 (rng D 1 184) (rng D 185 200)) as (ok & -> & K); [cells|cells|rewrite L; cbn; lia|].
    unfold doc_block. change (cs_size CS_CS1) with 184. change (octets 184) with 23%Z.
    revert K. generalize (block (rds F f (rng D 1 184))). intros bl K.
    destruct ok; cbn [negb]; eexists; (split; [reflexivity|]); intros data len abs.
    + split.
      * intros [(_ & -> & -> & -> & _)|[(X & _)|(X & _)]]; [reflexivity|discriminate|cslia].
      * intros X. injection X as <- <- <-. left. split; [cslia|]. repeat (split; [reflexivity|]). intros _. now apply K.
    + split; [|discriminate]. intros [(_ & _ & _ & _ & X)|[(X & _)|(X & _)]]; [|discriminate|cslia].
      specialize (X eq_refl). apply K in X. discriminate.
  - rewrite D_block by lia. eexists; (split; [reflexivity|]); intros data len abs. apply cs_case; [cslia|reflexivity|reflexivity].
  - rewrite D_block by lia. eexists; (split; [reflexivity|]); intros data len abs. apply cs_case; [cslia|reflexivity|reflexivity].
  - rewrite D_block by lia. eexists; (split; [reflexivity|]); intros data len abs. apply cs_case; [cslia|reflexivity|reflexivity].
  - rewrite (block_cells F f (rng D 11 266) 144 256) by (cells || lia).
    destruct (decode_abs_ok (block (rds F f (rng D 11 266))) [0; 8; 16; 24]) as (r & -> & R).
    { rewrite block_length by (unfold rds; rewrite map_length; vm_compute; lia). repeat (apply Forall_cons; [lia|]); apply Forall_nil. }
    unfold doc_block. revert R. generalize (block (rds F f (rng D 11 266))). intros bl R.
    destruct r as [al|]; eexists; (split; [reflexivity|]); intros data len abs; split.
    + intros [(X & _)|[(_ & -> & -> & X)|(X & _)]]; [cslia| |cslia]. apply R in X. congruence.
    + intros X. injection X as <- <- <-. right. left. repeat (split; [reflexivity|]). now apply R.
    + intros [(X & _)|[(_ & -> & -> & X)|(X & _)]]; [cslia| |cslia]. apply R in X. discriminate.
    + discriminate.
  - assert (NE : forall k, (k < 5)%Z -> (cs =? k)%Z = false) by (intros k Hk; apply Z.eqb_neq; unfold CS_HDR1 in H; lia).
    unfold CS_CS1, CS_CS2, CS_CS3, CS_CS4, CS_AB in *. rewrite !NE by lia.
    unfold doc_block. rewrite D_block by lia. rewrite cps_block_ok by (assumption || reflexivity).
    destruct (mcs_from_cps (cps_ul cs (rds F f (rng D 1 40))) cs) as [mcs|] eqn:Em.
    + apply mcs_from_cps_ok in Em; [|apply cps_ul_nonneg]. pose proof (mcs_of_range _ _ _ Em) as [Rm _].
      assert (U : forall m, mcs_of cs (cps_ul cs (rds F f (rng D 1 40))) m -> m = mcs) by (intros m X; eapply mcs_of_unique; [apply cps_ul_nonneg|exact X|exact Em]).
      assert (mcs <= 8 \/ mcs = 9)%Z as [R8|R9] by lia.
      * rewrite mcs_bits_ul_ok by lia. rewrite D_block by (apply ul_bound; lia). eexists; (split; [reflexivity|]); intros data len abs. split.
        -- intros [(X & _)|[(X & _)|(_ & -> & X)]]; [cslia|cslia|].
           destruct X as [(m & X & _ & Y)|(X & _)]; [|destruct (X _ Em)]. rewrite (U _ X) in Y. destruct Y as [-> ->]. reflexivity.
        -- intros X. injection X as <- <- <-. right. right. split; [exact H|]. split; [reflexivity|]. left. exists mcs. auto.
      * rewrite R9. eexists; (split; [reflexivity|]); intros data len abs. split; [|discriminate].
        intros [(X & _)|[(X & _)|(_ & -> & X)]]; [cslia|cslia|].
        destruct X as [(m & X & Y & _)|(X & _)]; [rewrite (U _ X) in Y; lia|destruct (X _ Em)].
    + assert (U : forall m, ~ mcs_of cs (cps_ul cs (rds F f (rng D 1 40))) m) by (intros m X; apply mcs_from_cps_ok in X; [congruence|apply cps_ul_nonneg]).
      eexists; (split; [reflexivity|]); intros data len abs. split.
      * intros [(X & _)|[(X & _)|(_ & -> & X)]]; [cslia|cslia|].
        destruct X as [(m & X & _)|(_ & -> & ->)]; [destruct (U _ X)|reflexivity].
      * intros X. injection X as <- <- <-. right. right. split; [exact H|]. split; [reflexivity|]. right. auto.
Qed.
End DATA64.
