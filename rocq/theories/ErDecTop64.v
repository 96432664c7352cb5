(** C45, 64 kbit/s: the whole decoder. *)
From Coq Require Import List Arith Lia Bool ZArith.
From Verif Require Import Base ErModel ErSpec ErProofs ErProofs64 ErProps64 ErDecProofs ErDecProps ErDecProps64.
Import ListNotations.
Open Scope nat_scope.

Ltac dig := repeat (match goal with
  | |- context [if ?b then _ else _] => match b with context [if _ then _ else _] => fail 1 | context [match _ with Some _ => _ | None => _ end] => fail 1 | _ => destruct b end
  | |- context [match ?e with Some _ => _ | None => _ end] =>
      match e with context [match _ with Some _ => _ | None => _ end] => fail 1 | context [if _ then _ else _] => fail 1 | _ => destruct e as [?|] end
  | |- context [match ?e with (_, _) => _ end] => destruct e
  end); reflexivity.
Lemma tail_eq f cs (mk : bits -> Z -> list ab -> ccu_data) :
  (if (cs =? CS_CS1)%Z then
      do data <- block_from f 134 184; do ok <- check_crc f 134 184;
      if negb ok then Rej else Some (0%Z, CData (mk data 23%Z []))
    else if (cs =? CS_CS2)%Z then do data <- block_from f 134 271; Some (0%Z, CData (mk data 34%Z []))
    else if (cs =? CS_CS3)%Z then do data <- block_from f 134 315; Some (0%Z, CData (mk data 40%Z []))
    else if (cs =? CS_CS4)%Z then do data <- block_from f 134 431; Some (0%Z, CData (mk data 54%Z []))
    else if (cs =? CS_AB)%Z then do data <- block_from f 144 256; do a <- decode_abs data [0; 8; 16; 24];
         match a with None => Rej | Some l => Some (0%Z, CData (mk data 32%Z l)) end
    else
      do data <- block_from f 134 40;
      do c <- cps_from_mcs_block data cs true;
      match c with None => Some (0%Z, CData (mk data 0%Z [])) | Some cps =>
        match mcs_from_cps cps cs with
        | None => Some (0%Z, CData (mk data 0%Z []))
        | Some mcs => match mcs_bits_ul mcs with
                      | Some (n, len) => do data <- block_from f 134 n; Some (0%Z, CData (mk data len []))
                      | None => Rej
                      end
        end
      end) =
  match dec_block f cs with None => None | Some None => Rej | Some (Some (data, len, abs)) => Some (0%Z, CData (mk data len abs)) end.
Proof. unfold dec_block. dig. Qed.

Lemma dec_data_64 f : length f = 1280 -> beq (firstn 65 f) (repeat false 64 ++ [true]) = true -> lsb1st (rds fig_ccu_data_64 f (rng C 1 5)) = 0x1a%Z ->
  (exists d, dec_ccu_data_ind_64 f = Some (0%Z, CData (deliver d)) /\ forall d', ccu_data_64 f d' <-> d' = d) \/
  (dec_ccu_data_ind_64 f = Some ((-22)%Z, CNone) /\ forall d', ~ ccu_data_64 f d').
Proof.
  intros L Hs Ht. unfold dec_ccu_data_ind_64, ccu_data_64. set (F := fig_ccu_data_64) in *. apply (synced_data_64 f L) in Hs. fold F in Hs.
  unfold calc_parity. rewrite (slice_cells F f (rng C 1 7) 65 7), (get_cell F f PC) by (cells || lia).
  destruct (Bool.eqb (fold_left xorb (rds F f (rng C 1 7)) true) (rd F f PC)) eqn:E1.
  2: { right. split; [reflexivity|]. intros s' H. decompose [and] H. eapply bool_iff in E1; [|apply parity_eqb]. apply E1.
       change [rd F f PC] with (rds F f [PC]). unfold rds in *. rewrite <- map_app. assumption. }
  apply parity_eqb in E1. cbn [negb].
  assert (E1' : odd_ones (rds F f (rng C 1 7 ++ [PC]))) by (unfold rds in *; rewrite map_app; exact E1). clear E1.
  rewrite (slice_cells F f [C 6; C 7] 70 2), (slice_cells F f (rng E 1 57) 73 57), (get_cell F f PE), (get_cell F f (E 1)), (slice_cells F f (rng E 2 4) 74 3) by (cells || lia).
  destruct (Bool.eqb (fold_left xorb (rds F f (rng E 1 57)) true) (rd F f PE)) eqn:E2.
  2: { right. split; [reflexivity|]. intros s' H. decompose [and] H. eapply bool_iff in E2; [|apply parity_eqb]. apply E2.
       change [rd F f PE] with (rds F f [PE]). unfold rds in *. rewrite <- map_app. assumption. }
  apply parity_eqb in E2. cbn [negb].
  assert (E2' : odd_ones (rds F f (rng E 1 57 ++ [PE]))) by (unfold rds in *; rewrite map_app; exact E2). clear E2.
  rewrite (slice_cells F f (rng E 5 10) 77 6), (slice_cells F f (rng E 11 13) 83 3) by (cells || lia).
  rewrite !val_msb_spec, val_lsb_spec.
  destruct (eadd_of (msb1st (rds F f (rng E 11 13)))) as [ea|] eqn:Ee.
  2: { right. split; [reflexivity|]. intros s' H. destruct H as (_ & _ & _ & _ & _ & _ & _ & _ & H & _). apply eadd_ok in H. congruence. }
  assert (UE : forall x, eadd_code (msb1st (rds F f (rng E 11 13))) x <-> x = ea) by (intros x; rewrite <- eadd_ok, Ee; intuition congruence).
  pose proof (msb3_range F f E) as CR. set (cs := msb1st (rds F f (rng E 2 4))) in *.
  assert (exists u, (if ((CS_CS1 <=? cs) && (cs <=? CS_CS4))%Z then do sfq <- slice f 86 3; do par <- get f 89; Some (Gprs (val_msb sfq) par) else egprs_qual f 86 93 96) = Some (forget_bep u) /\
     forall u', ((CS_CS1 <= cs <= CS_CS4)%Z /\ u' = Gprs (msb1st (rds F f (rng E 14 16))) (rd F f (E 17)) \/
                 ~ (CS_CS1 <= cs <= CS_CS4)%Z /\ egprs_says (rds F f (rng E 14 20)) (rds F f (rng E 21 23)) (rds F f (rng E 24 26)) u') <-> u' = u) as (u & -> & UU).
  { destruct (Z.leb_spec CS_CS1 cs) as [A|A]; [destruct (Z.leb_spec cs CS_CS4) as [B|B]|].
    - cbn [andb]. rewrite (slice_cells F f (rng E 14 16) 86 3), (get_cell F f (E 17)) by (cells || lia). rewrite val_msb_spec.
      exists (Gprs (msb1st (rds F f (rng E 14 16))) (rd F f (E 17))). split; [reflexivity|]. intros u'. split; [intros [[_ X]|[X _]]; [exact X|lia]|intros ->; left; split; [lia|reflexivity]].
    - cbn [andb]. destruct (egprs_cells F f 86 93 96 14 20 21 23 24) as [X Y]; [cells|cells|cells|lia..|]. rewrite X. eexists. split; [reflexivity|].
      intros u'. rewrite <- (Y u'). change (24 + 2) with 26. split; [intros [[? _]|[_ Z0]]; [lia|exact Z0]|intros Z0; right; split; [lia|exact Z0]].
    - cbn [andb]. destruct (egprs_cells F f 86 93 96 14 20 21 23 24) as [X Y]; [cells|cells|cells|lia..|]. rewrite X. eexists. split; [reflexivity|].
      intros u'. rewrite <- (Y u'). change (24 + 2) with 26. split; [intros [[? _]|[_ Z0]]; [lia|exact Z0]|intros Z0; right; split; [lia|exact Z0]]. }
  rewrite (tail_eq f cs (fun data len abs => mkCD (lsb1st (rds F f [C 6; C 7])) (negb (rd F f (E 1))) cs (msb1st (rds F f (rng E 5 10))) ea (forget_bep u) data len abs)).
  destruct (dec_block_ok f L cs CR) as (r & -> & R).
  assert (KEY : forall d', (synced F f /\ lsb1st (rds F f (rng C 1 5)) = 26%Z /\ odd_ones (rds F f (rng C 1 7 ++ [PC])) /\ odd_ones (rds F f (rng E 1 57 ++ [PE])) /\
      cd_tav d' = lsb1st (rds F f [C 6; C 7]) /\ cd_dbe d' = negb (rd F f (E 1)) /\ cd_cs d' = cs /\
      cd_rx_lev d' = msb1st (rds F f (rng E 5 10)) /\ eadd_code (msb1st (rds F f (rng E 11 13))) (cd_eadd d') /\
      ((CS_CS1 <= cd_cs d' <= CS_CS4)%Z /\ cd_u d' = Gprs (msb1st (rds F f (rng E 14 16))) (rd F f (E 17)) \/
       ~ (CS_CS1 <= cd_cs d' <= CS_CS4)%Z /\ egprs_says (rds F f (rng E 14 20)) (rds F f (rng E 21 23)) (rds F f (rng E 24 26)) (cd_u d')) /\
      doc_block f (cd_cs d') (cd_data d') (cd_len d') (cd_ab d')) <->
      match r with Some (data, len, abs) => d' = mkCD (lsb1st (rds F f [C 6; C 7])) (negb (rd F f (E 1))) cs (msb1st (rds F f (rng E 5 10))) ea u data len abs | None => False end).
  { intros [t1 t2 t3 t4 t5 t6 t7 t8 t9]. cbn [cd_tav cd_dbe cd_cs cd_rx_lev cd_eadd cd_u cd_data cd_len cd_ab]. rewrite UE. split.
    - intros (_ & _ & _ & _ & -> & -> & -> & -> & -> & X & Y). apply UU in X. apply R in Y. subst r t6. reflexivity.
    - destruct r as [[[data len] abs]|]; [|contradiction]. intros X. injection X as -> -> -> -> -> -> -> -> ->.
      repeat (split; [assumption || reflexivity|]). split; [now apply UU|now apply R]. }
  destruct r as [[[data len] abs]|].
  - left. exists (mkCD (lsb1st (rds F f [C 6; C 7])) (negb (rd F f (E 1))) cs (msb1st (rds F f (rng E 5 10))) ea u data len abs). split; [reflexivity|]. exact KEY.
  - right. split; [reflexivity|]. intros d' H. apply (KEY d'). exact H.
Qed.

(** what an MCS9 frame delivers as block: D34-D48 are lost, the data parts start one
    bit early, 16 bits come from memory never written *)
Definition mcs9_delivered (f un : bits) : bits :=
  let F := fig_ccu_data9_64 in
  rds F f (rng D 1 32) ++ repeat false 6 ++ [rd F f (D 33)] ++ repeat false 6 ++ rds F f (rng D 49 1221) ++ skipn 1218 un ++ repeat false 6.
Lemma mcs9_data f un : length f = 1280 -> length un = 1234 ->
  (do bl <- memcpy un 0 f 17 32;
   do bl <- memset bl 32 false 6;
   do pi <- get f 49; do bl <- put bl 38 pi;
   do bl <- memset bl 39 false 7;
   do bl <- memcpy bl 45 f 50 15;
   do bl <- memcpy bl 45 f 99 1173;
   memcpy (repeat false 1240) 0 bl 0 1234) = Some (mcs9_delivered f un).
Proof.
  intros L Lu. unfold mcs9_delivered. cbv zeta.
  rewrite (rds_slice _ f (rng D 1 32) 17) by (cells || (rewrite L; vm_compute; lia)).
  assert (L9 : length (rng D 49 1221) = 1173) by (unfold rng; rewrite map_length, seq_length; reflexivity).
  rewrite (rds_slice _ f (rng D 49 1221) 99); [|rewrite L9; d_run|rewrite L9; lia].
  rewrite (rd_nth _ _ _ 49) by cells. rewrite L9. change (length (rng D 1 32)) with 32.
  rewrite memcpy_some by lia. change (firstn 0 un) with (@nil bool). cbn [app].
  set (a := firstn 32 (skipn 17 f)). assert (La : length a = 32) by (unfold a; rewrite firstn_length, skipn_length; lia).
  change (0 + 32) with 32. set (u := skipn 32 un). assert (Lu1 : length u = 1202) by (unfold u; rewrite skipn_length; lia).
  unfold memset. rewrite blit_some by (rewrite app_length, repeat_length; lia). rewrite repeat_length.
  rewrite (firstn_app_exact a u 32 La), (skipn_app (32 + 6) a u), (skipn_all2 (n := 32 + 6) a) by lia. cbn [app]. rewrite La. change (32 + 6 - 32) with 6.
  rewrite get_nth by lia. set (pi := nth 49 f false).
  assert (Lz : forall n, length (repeat false n) = n) by (intros; apply repeat_length).
  rewrite put_splice by (rewrite !app_length, skipn_length, Lz; lia). unfold splice. cbn [length].
  rewrite (app_assoc a (repeat false 6) (skipn 6 u)). assert (L2 : length (a ++ repeat false 6) = 38) by (rewrite app_length, Lz; lia).
  rewrite (firstn_app_exact _ (skipn 6 u) 38 L2), (skipn_app (38 + 1)), (skipn_all2 (n := 38 + 1) (a ++ _)) by lia. rewrite L2. change (38 + 1 - 38) with 1. cbn [app].
  rewrite skipn_skipn'. change (6 + 1) with 7.
  rewrite blit_some by (rewrite !app_length; cbn [length]; rewrite skipn_length, Lz; lia). rewrite Lz.
  set (p := (a ++ repeat false 6) ++ [pi]).
  change ((a ++ repeat false 6) ++ pi :: skipn 7 u) with ((a ++ repeat false 6) ++ [pi] ++ skipn 7 u). rewrite (app_assoc (a ++ repeat false 6) [pi]). fold p.
  assert (Lp : length p = 39) by (unfold p; rewrite app_length, L2; reflexivity).
  rewrite (firstn_app_exact p _ 39 Lp), (skipn_app (39 + 7)), (skipn_all2 (n := 39 + 7) p) by lia. rewrite Lp. change (39 + 7 - 39) with 7. cbn [app].
  rewrite skipn_skipn'. change (7 + 7) with 14.
  rewrite memcpy_some by (rewrite ?app_length, ?skipn_length, ?Lz; lia).
  set (b := firstn 15 (skipn 50 f)). assert (Lb : length b = 15) by (unfold b; rewrite firstn_length, skipn_length; lia).
  change (repeat false 7) with (repeat false 6 ++ [false]).
  set (q := p ++ repeat false 6). assert (Lq : length q = 45) by (unfold q; rewrite app_length, Lz; lia).
  replace (p ++ (repeat false 6 ++ [false]) ++ skipn 14 u) with (q ++ [false] ++ skipn 14 u) by (unfold q; rewrite <- !app_assoc; reflexivity).
  rewrite (firstn_app_exact q _ 45 Lq), (skipn_app (45 + 15)), (skipn_all2 (n := 45 + 15) q) by lia. rewrite Lq. change (45 + 15 - 45) with 15.
  change (skipn 15 ([false] ++ skipn 14 u)) with (skipn 14 (skipn 14 u)). cbn [app]. rewrite skipn_skipn'. change (14 + 14) with 28.
  rewrite memcpy_some by (rewrite ?app_length, ?skipn_length; lia).
  set (c := firstn 1173 (skipn 99 f)). assert (Lc : length c = 1173) by (unfold c; rewrite firstn_length, skipn_length; lia).
  rewrite (firstn_app_exact q _ 45 Lq), (skipn_app (45 + 1173)), (skipn_all2 (n := 45 + 1173) q) by lia. rewrite Lq. change (45 + 1173 - 45) with 1173. cbn [app].
  rewrite (skipn_app 1173), (skipn_all2 (n := 1173) b) by lia. rewrite Lb. change (1173 - 15) with 1158. cbn [app]. rewrite skipn_skipn'. change (28 + 1158) with 1186.
  rewrite memcpy_some by (rewrite ?app_length, ?skipn_length, ?Lz; lia). change (firstn 0 (repeat false 1240)) with (@nil bool). change (0 + 1234) with 1234.
  change (skipn 1234 (repeat false 1240)) with (repeat false 6). rewrite skipn_O. cbn [app].
  rewrite firstn_all2 by (rewrite ?app_length, ?skipn_length; lia).
  unfold q, p, u. rewrite skipn_skipn'. change (32 + 1186) with 1218. rewrite <- !app_assoc. reflexivity.
Qed.
Definition with_block (d : ccu_data) (data : bits) (len : Z) : ccu_data :=
  mkCD (cd_tav d) (cd_dbe d) (cd_cs d) (cd_rx_lev d) (cd_eadd d) (cd_u d) data len (cd_ab d).
Lemma dec_data9_64 f un : length f = 1280 -> length un = 1234 -> beq (firstn 17 f) (repeat false 16 ++ [true]) = true -> lsb1st (rds fig_ccu_data9_64 f (rng C 1 5)) = 0x04%Z ->
  (exists d, dec_ccu_data_ind_64_mcs9 f un = Some (0%Z, CData (deliver d)) /\ cd_data d = mcs9_delivered f un /\ cd_len d = 0%Z /\
     forall d', ccu_data9_64 f d' <-> d' = with_block d (cd_data d') (cd_len d')) \/
  (dec_ccu_data_ind_64_mcs9 f un = Some ((-22)%Z, CNone) /\ forall d', ~ ccu_data9_64 f d').
Proof.
  intros L Lu Hs Ht. unfold dec_ccu_data_ind_64_mcs9, ccu_data9_64. set (F := fig_ccu_data9_64) in *. apply (synced_data9_64 f L) in Hs. fold F in Hs.
  unfold calc_parity. rewrite (slice_cells F f (rng C 1 7) 65 7), (get_cell F f PC) by (cells || lia).
  destruct (Bool.eqb (fold_left xorb (rds F f (rng C 1 7)) true) (rd F f PC)) eqn:E1.
  2: { right. split; [reflexivity|]. intros s' H. decompose [and] H. eapply bool_iff in E1; [|apply parity_eqb]. apply E1.
       change [rd F f PC] with (rds F f [PC]). unfold rds in *. rewrite <- map_app. assumption. }
  apply parity_eqb in E1. cbn [negb].
  assert (E1' : odd_ones (rds F f (rng C 1 7 ++ [PC]))) by (unfold rds in *; rewrite map_app; exact E1). clear E1.
  rewrite (slice_cells F f [C 6; C 7] 70 2), (slice_cells F f (rng E 1 23) 73 23), (get_cell F f PE), (get_cell F f (E 1)) by (cells || lia).
  destruct (Bool.eqb (fold_left xorb (rds F f (rng E 1 23)) true) (rd F f PE)) eqn:E2.
  2: { right. split; [reflexivity|]. intros s' H. decompose [and] H. eapply bool_iff in E2; [|apply parity_eqb]. apply E2.
       change [rd F f PE] with (rds F f [PE]). unfold rds in *. rewrite <- map_app. assumption. }
  apply parity_eqb in E2. cbn [negb].
  assert (E2' : odd_ones (rds F f (rng E 1 23 ++ [PE]))) by (unfold rds in *; rewrite map_app; exact E2). clear E2.
  rewrite (slice_cells F f (rng E 2 7) 74 6), (slice_cells F f (rng E 8 10) 80 3) by (cells || lia).
  rewrite !val_msb_spec, val_lsb_spec.
  destruct (eadd_of (msb1st (rds F f (rng E 8 10)))) as [ea|] eqn:Ee.
  2: { right. split; [reflexivity|]. intros s' H. destruct H as (_ & _ & _ & _ & _ & _ & _ & _ & _ & H & _). apply eadd_ok in H. congruence. }
  assert (UE : forall x, eadd_code (msb1st (rds F f (rng E 8 10))) x <-> x = ea) by (intros x; rewrite <- eadd_ok, Ee; intuition congruence).
  destruct (egprs_cells F f 83 90 93 11 17 18 20 21) as [X Y]; [cells|cells|cells|lia..|]. rewrite X. change (21 + 2) with 23 in Y.
  pose proof (mcs9_data f un L Lu) as M.
  left. exists (mkCD (lsb1st (rds F f [C 6; C 7])) (negb (rd F f (E 1))) CS_HDR1 (msb1st (rds F f (rng E 2 7))) ea (doc_qual F f 11 17 18 20 21) (mcs9_delivered f un) 0 []).
  split.
  { destruct (memcpy un 0 f 17 32) as [b1|]; [|discriminate]. destruct (memset b1 32 false 6) as [b2|]; [|discriminate].
    destruct (get f 49) as [pi|]; [|discriminate]. destruct (put b2 38 pi) as [b3|]; [|discriminate]. destruct (memset b3 39 false 7) as [b4|]; [|discriminate].
    destruct (memcpy b4 45 f 50 15) as [b5|]; [|discriminate]. destruct (memcpy b5 45 f 99 1173) as [b6|]; [|discriminate]. rewrite M. reflexivity. }
  split; [reflexivity|]. split; [reflexivity|].
  intros [t1 t2 t3 t4 t5 t6 t7 t8 t9]. unfold with_block. cbn [cd_tav cd_dbe cd_cs cd_rx_lev cd_eadd cd_u cd_data cd_len cd_ab]. rewrite UE, Y. split.
  - intros (_ & _ & _ & _ & -> & -> & -> & -> & -> & -> & ->). reflexivity.
  - intros Q. injection Q as -> -> -> -> -> -> ->. repeat (split; [assumption || reflexivity|]). reflexivity.
Qed.

(** A received 1280-bit block is reported as CCU-SYNC-IND or CCU-DATA-IND exactly when it
    is one.  [deliver]: see C45_bep_refuted; MCS9: see C45_mcs9_refuted. *)
Theorem C45_64 : forall f un, length f = 1280 -> length un = 1234 ->
  let no_sync := forall s, ~ ccu_sync_64 f s in let no_data := forall d, ~ ccu_data_64 f d in let no_data9 := forall d, ~ ccu_data9_64 f d in
  (exists s, er_gprs_trau_frame_decode_64k f un = Some (0%Z, CSync s) /\ (forall s', ccu_sync_64 f s' <-> s' = s) /\ no_data /\ no_data9) \/
  (exists d, er_gprs_trau_frame_decode_64k f un = Some (0%Z, CData (deliver d)) /\ (forall d', ccu_data_64 f d' <-> d' = d) /\ no_sync /\ no_data9) \/
  (exists d, er_gprs_trau_frame_decode_64k f un = Some (0%Z, CData (deliver d)) /\ cd_data d = mcs9_delivered f un /\ cd_len d = 0%Z /\
     (forall d', ccu_data9_64 f d' <-> d' = with_block d (cd_data d') (cd_len d')) /\ no_sync /\ no_data) \/
  (er_gprs_trau_frame_decode_64k f un = Some ((-22)%Z, CNone) /\ no_sync /\ no_data /\ no_data9).
Proof.
  intros f un L Lu ns nd nd9. unfold er_gprs_trau_frame_decode_64k.
  destruct (type_64 f L) as (T1_ & T2_ & T3_). rewrite T1_, val_lsb_spec.
  assert (TE2 : rds fig_ccu_sync_64 f (rng C 1 5) = rds fig_ccu_data_64 f (rng C 1 5)) by congruence.
  assert (TE3 : rds fig_ccu_sync_64 f (rng C 1 5) = rds fig_ccu_data9_64 f (rng C 1 5)) by congruence.
  unfold FT_CCU_SYNC_IND, FT_DATA_IND, FT_DATA9_IND.
  assert (NS : lsb1st (rds fig_ccu_sync_64 f (rng C 1 5)) <> 0x15%Z -> ns) by (intros X s (_ & H & _); congruence).
  assert (ND : lsb1st (rds fig_ccu_sync_64 f (rng C 1 5)) <> 0x1a%Z -> nd) by (intros X s (_ & H & _); rewrite <- TE2 in H; congruence).
  assert (N9 : lsb1st (rds fig_ccu_sync_64 f (rng C 1 5)) <> 0x04%Z -> nd9) by (intros X s (_ & H & _); rewrite <- TE3 in H; congruence).
  rewrite !slice_some, !skipn_O by lia.
  destruct (Z.eqb_spec (lsb1st (rds fig_ccu_sync_64 f (rng C 1 5))) 0x15) as [H1|H1]; [|destruct (Z.eqb_spec (lsb1st (rds fig_ccu_sync_64 f (rng C 1 5))) 0x1a) as [H2|H2]]; cbn [orb].
  - assert (nd /\ nd9) as [A B] by (split; [apply ND|apply N9]; rewrite H1; discriminate).
    destruct (beq (firstn 65 f) (repeat false 64 ++ [true])) eqn:Hb; cbn [negb].
    2: { right; right; right. repeat split; auto. intros s (H & _). apply (synced_sync_64 f L) in H as [H _]. congruence. }
    destruct (dec_sync_64 f L Hb H1) as [(s & E & U)|(E & U)]; [left; exists s; auto|right; right; right; auto].
  - assert (ns /\ nd9) as [A B] by (split; [apply NS|apply N9]; rewrite H2; discriminate).
    destruct (beq (firstn 65 f) (repeat false 64 ++ [true])) eqn:Hb; cbn [negb].
    2: { right; right; right. repeat split; auto. intros s (H & _). apply (synced_data_64 f L) in H. congruence. }
    rewrite TE2 in H2. destruct (dec_data_64 f L Hb H2) as [(d & E & U)|(E & U)]; [right; left; exists d; auto|right; right; right; auto].
  - assert (ns /\ nd) as [A B] by (split; [apply NS|apply ND]; assumption).
    destruct (Z.eqb_spec (lsb1st (rds fig_ccu_sync_64 f (rng C 1 5))) 4) as [H3|H3].
    + destruct (beq (firstn 17 f) (repeat false 16 ++ [true])) eqn:Hb; cbn [negb].
      2: { right; right; right. repeat split; auto. intros s (H & _). apply (synced_data9_64 f L) in H. congruence. }
      rewrite TE3 in H3. destruct (dec_data9_64 f un L Lu Hb H3) as [(d & E & U1 & U2 & U3)|(E & U)]; [right; right; left; exists d; auto 8|right; right; right; auto].
    + right; right; right. split; [reflexivity|]. split; [exact A|]. split; [exact B|]. apply N9. exact H3.
Qed.

(** the mean bit error probability of an EGPRS block is never reported *)
Theorem C45_bep_refuted : forall f un d m c h a b, length f = 1280 -> length un = 1234 -> ccu_data_64 f d -> cd_u d = Egprs m c h a b ->
  exists r, er_gprs_trau_frame_decode_64k f un = Some (0%Z, CData r) /\ cd_u r = Egprs c 0 h a b.
Proof.
  intros f un d m c h a b L Lu H Hu. destruct (C45_64 f un L Lu) as [(s & _ & _ & N & _)|[(x & E & U & _)|[(x & _ & _ & _ & _ & _ & N)|(_ & _ & N & _)]]].
  - destruct (N _ H).
  - exists (deliver x). split; [exact E|]. apply U in H. subst x. unfold deliver. cbn [cd_u]. now rewrite Hu.
  - destruct (N _ H).
  - destruct (N _ H).
Qed.
(** an MCS9 block is not the documented one ([mcs9_block]): its length is 0, D34-D48 are
    not in it, the data parts are one bit early and 16 bits come from unwritten memory *)
Theorem C45_mcs9_refuted : forall f un d, length f = 1280 -> length un = 1234 -> ccu_data9_64 f d ->
  exists r, er_gprs_trau_frame_decode_64k f un = Some (0%Z, CData r) /\ cd_len r = 0%Z /\
    let F := fig_ccu_data9_64 in
    cd_data r = rds F f (rng D 1 32) ++ repeat false 6 ++ [rd F f (D 33)] ++ repeat false 6 ++ rds F f (rng D 49 1221) ++ skipn 1218 un ++ repeat false 6.
Proof.
  intros f un d L Lu H. destruct (C45_64 f un L Lu) as [(s & _ & _ & _ & N)|[(x & _ & _ & _ & N)|[(x & E & D1 & D2 & _)|(_ & _ & _ & N)]]].
  - destruct (N _ H).
  - destruct (N _ H).
  - exists (deliver x). split; [exact E|]. split; [exact D2|exact D1].
  - destruct (N _ H).
Qed.

(** ** witnesses *)
Definition odd_bit (l : bits) : bool := fold_left xorb l true.
Definition fr64 (ft tav : Z) (head : bits) (e body : bits) : bits :=
  let c := lsb_bits 5 (Z.testbit ft) ++ lsb_bits 2 (Z.testbit tav) in
  head ++ c ++ [odd_bit c] ++ e ++ [odd_bit e] ++ body.
(** CCU-DATA-IND with CS-2; with MCS-9 *)
Definition wit_cs2 : bits := fr64 0x1a 1 (repeat false 64 ++ [true]) (true :: [false;true;false] ++ repeat true 6 ++ [true;true;false] ++ repeat false 44) (firstn 1149 (map (fun i => Nat.even (i / 3)) (seq 0 1149))).
Definition wit_mcs9 : bits := fr64 0x04 0 (repeat false 16 ++ [true] ++ repeat true 48) (true :: repeat true 6 ++ [true;true;false] ++ repeat true 7 ++ [false;true;false] ++ repeat false 3) (repeat true 1183).
Example C45_64_witness : length wit_cs2 = 1280 /\
  match er_gprs_trau_frame_decode_64k wit_cs2 (repeat true 1234) with
  | Some (rc, CData d) => rc = 0%Z /\ cd_cs d = CS_CS2 /\ cd_len d = 34%Z /\ cd_tav d = 1%Z /\ cd_rx_lev d = 63%Z /\ cd_eadd d = 0%Z | _ => False end.
Proof. vm_compute. repeat split; reflexivity. Qed.
Example C45_mcs9_witness : length wit_mcs9 = 1280 /\
  match er_gprs_trau_frame_decode_64k wit_mcs9 (repeat false 1234) with
  | Some (rc, CData d) => rc = 0%Z /\ cd_u d = Egprs 2 0 true true true /\ cd_len d = 0%Z /\ firstn 1234 (cd_data d) <> mcs9_block wit_mcs9 | _ => False end.
Proof. vm_compute. repeat split; try reflexivity. discriminate. Qed.
