(** Property C71: which transmission errors the CRCs let through.  Each theorem is about a frame
    the receiver takes, and the same frame with errors [e] (CrcSpec) in the protected bits and in
    the check bits. *)
From Coq Require Import List Arith Lia Bool ZArith.
From Verif Require Import ErModel ErSpec ErProofs ErDecProofs ErDecProps ErDecProps64 ErDecTop64.
From Verif Require Import Base RtpSpec TrauModel TrauFields TrauProofs RtpModel RtpProofs RtpProps RtpHrProps CrcSpec CrcProofs.
Import ListNotations.

Definition p3 : bits := [false; true; true].
Lemma run3 w : forall a b c, run p3 w [a; b; c] = (let '(x, y, z) := fold_left crc3_step w (a, b, c) in [x; y; z]).
Proof.
  induction w as [|i w IH]; intros a b c; [reflexivity|].
  cbn [fold_left]. change (run p3 (i :: w) [a; b; c]) with (run p3 w (step p3 [a; b; c] i)).
  assert (E : step p3 [a; b; c] i = [b; xorb c (xorb a i); xorb a i]) by (destruct a, b, c, i; reflexivity).
  rewrite E. apply IH.
Qed.
Lemma check3 w : check p3 w = crc3_bits w.
Proof.
  unfold check. change (zeros p3) with [false; false; false]. rewrite run3. unfold crc3_bits, crc3, crc3_state.
  destruct (fold_left crc3_step w (false, false, false)) as [[x y] z]. reflexivity.
Qed.
Lemma xor_bits_eq a : forall b, xor_bits a b = xor a b.
Proof. induction a as [|x a IH]; intros [|y b]; try reflexivity. cbn. unfold xor_bits in IH. now rewrite IH. Qed.
Lemma check16 w : check poly16 w = crc_of w.
Proof.
  rewrite <- crc16_spec. unfold check, crc16. f_equal. change (zeros poly16) with (repeat false 16). generalize (repeat false 16) as r.
  induction w as [|i w IH]; intros r; [reflexivity|]. cbn [fold_left]. unfold run in *. cbn [fold_left]. rewrite IH. f_equal.
  destruct r as [|t r]; [reflexivity|]. cbn [step crc16_step]. now rewrite xor_bits_eq.
Qed.

(** ** the codes *)
Lemma run_repeat_add p a b r : run p (repeat false (a + b)) r = run p (repeat false b) (run p (repeat false a) r).
Proof. rewrite repeat_app. apply run_app. Qed.
Lemma period7 q : forall r, length r = 3 -> run p3 (repeat false (7 * q)) r = r.
Proof.
  induction q as [|q IH]; intros r L; [reflexivity|]. replace (7 * S q) with (7 + 7 * q) by lia. rewrite run_repeat_add.
  assert (E : run p3 (repeat false 7) r = r) by (destruct r as [|x [|y [|z [|]]]]; try discriminate; destruct x, y, z; reflexivity).
  rewrite E. now apply IH.
Qed.
(** the 3-bit CRC notices every burst of up to three bits; two errors it notices unless their
    distance is a multiple of 7 *)
Theorem C71_crc3 : forall n e, length e = n ->
  (burst 3 e -> ~ sum_of_shifts gen3 n e) /\
  (forall k, two_wrong k e -> (sum_of_shifts gen3 n e <-> Nat.divide 7 k)).
Proof.
  intros n e L. split; [apply (burst_noticed p3 eq_refl)|].
  intros k T. pose proof T as (_ & _ & K & _). rewrite (two_noticed p3 eq_refl n e k T L).
  change (true :: repeat false (k - 1) ++ [true]) with ([true] ++ repeat false (k - 1) ++ [true]). rewrite !run_app.
  change (run p3 [true] (zeros p3)) with p3.
  pose proof (Nat.div_mod k 7 ltac:(lia)) as DM. pose proof (Nat.mod_upper_bound k 7 ltac:(lia)) as MB.
  rewrite <- Nat.mod_divide by lia.
  assert (X : forall m q, k - 1 = 7 * q + m -> run p3 [true] (run p3 (repeat false (k - 1)) p3) = run p3 [true] (run p3 (repeat false m) p3)).
  { intros m q ->. now rewrite run_repeat_add, period7. }
  destruct (k mod 7) as [|m] eqn:EM.
  - destruct (k / 7) as [|q]; [lia|]. rewrite (X 6 q) by lia. split; reflexivity.
  - rewrite (X m (k / 7)) by lia. split; [|discriminate]. intros E. exfalso. do 6 (destruct m as [|m]; [discriminate E|]). lia.
Qed.
(** the 16-bit CRC notices every burst of up to 16 bits, every odd number of errors and (in a
    block of 200 bits) every two errors, hence any one, two or three *)
Theorem C71_crc16 : forall n e, length e = n ->
  (burst 16 e -> ~ sum_of_shifts gen16 n e) /\ (odd_wrong e -> ~ sum_of_shifts gen16 n e) /\
  (forall k, two_wrong k e -> n <= 200 -> ~ sum_of_shifts gen16 n e).
Proof.
  intros n e L. split; [apply (burst_noticed poly16 eq_refl)|]. split; [apply (odd_noticed poly16 eq_refl eq_refl)|].
  intros k T N M. apply (two_noticed poly16 eq_refl n e k T L) in M. destruct T as (i & j & K & E).
  apply (f_equal (@length bool)) in E. rewrite !app_length, !repeat_length in E. cbn [length] in E.
  assert (H : forallb (fun k => existsb (fun b => b) (run poly16 (true :: repeat false (k - 1) ++ [true]) (zeros poly16))) (seq 1 200) = true) by (vm_compute; reflexivity).
  rewrite forallb_forall in H. specialize (H k ltac:(apply in_seq; lia)). rewrite M in H. discriminate.
Qed.

(** ** half rate *)
(** the conversion gives a payload / says the frame is bad *)
Definition hr_takes (cd : codec) (st : rtp_state) (fr : tframe) : Prop := forall out out_len, buffer out out_len 15 ->
  exists out', osmo_trau2rtp cd out out_len fr st = Some (15%Z, out').
Definition hr_bad (cd : codec) (st : rtp_state) (fr : tframe) : Prop := forall out out_len, buffer out out_len 15 ->
  if st_twts002 st then exists t, osmo_trau2rtp cd out out_len fr st = Some (1%Z, t :: skipn 1 out) /\ (t / 16 = 7)%Z
  else osmo_trau2rtp cd out out_len fr st = Some (0%Z, out).
Theorem C71_hr : forall cd fr st d c e, codec_ok cd -> tf_wf fr -> length d = 288 -> length c = 3 ->
  tf_type fr = T16_HR \/ tf_type fr = T8_SPEECH -> hr_takes cd st fr ->
  length e = 47 -> firstn 44 d ++ c = xor (firstn 44 (tf_d fr) ++ tf_crc fr) e ->
  let fr' := set_crc (set_d fr d) c in
  (sum_of_shifts gen3 47 e -> hr_takes cd st fr') /\ (~ sum_of_shifts gen3 47 e -> hr_bad cd st fr').
Proof.
  intros cd fr st d c e CD W Ld Lc T G Le E fr'. pose proof W as (Hc & Hd & Ht & Hs & Hm & Hcr & Hx).
  assert (W' : tf_wf fr') by (unfold tf_wf, fr'; cbn; tauto).
  assert (OK : hr_crc_ok fr = true).
  { assert (B : buffer (repeat 0%Z 15) 15 15).
    { split; [apply Forall_forall; intros x Hx'; apply repeat_spec in Hx'; subst; unfold is_octet; lia|]. split; [reflexivity|reflexivity]. }
    destruct (G _ _ B) as (o & EG). destruct (hr_crc_ok fr) eqn:K; [reflexivity|]. exfalso. destruct T as [T|T].
    - rewrite hr16_api in EG by assumption. unfold hr16_result in EG. rewrite K in EG. cbn [negb orb] in EG.
      destruct (st_twts002 st); discriminate.
    - rewrite hr8_api in EG by assumption. unfold hr8_result in EG. rewrite K in EG. cbn [negb] in EG. rewrite orb_true_r in EG.
      destruct (st_twts002 st); discriminate. }
  unfold hr_crc_ok in OK. apply crc3_check_eq in OK; [|exact Hcr]. rewrite <- check3 in OK.
  assert (L44 : length (firstn 44 (tf_d fr)) = 44) by (rewrite firstn_length; lia).
  pose proof (check_errors p3 eq_refl (firstn 44 (tf_d fr)) (tf_crc fr) (firstn 44 d) c e Hcr Lc) as CE.
  rewrite L44, Hcr in CE. rewrite firstn_length in CE. specialize (CE ltac:(lia) Le E OK). rewrite Le in CE.
  change (true :: p3) with gen3 in CE. rewrite check3, <- crc3_check_eq in CE by exact Lc.
  change (crc3_check (firstn 44 d) c) with (hr_crc_ok fr') in CE.
  split; intros M.
  - apply CE in M. intros out out_len B. destruct (G out out_len B) as (o & EG). destruct T as [T|T].
    + rewrite hr16_api in EG |- * by assumption. unfold hr16_result in *. rewrite M.
      destruct (hr_crc_ok fr); [|cbn [negb orb] in EG; destruct (st_twts002 st); discriminate]. cbn [negb orb] in *.
      change (c_ fr') with (c_ fr). 
      destruct (c_ fr 11), (c_ fr 12), (c_ fr 13), (st_twts002 st); cbn [andb orb hr_api_of] in *; try discriminate EG; eexists; reflexivity.
    + rewrite hr8_api in EG |- * by assumption. unfold hr8_result in *. rewrite M.
      change (hr8_par_ok fr') with (hr8_par_ok fr). change (x_ fr') with (x_ fr).
      destruct (hr8_par_ok fr), (hr_crc_ok fr); cbn [negb orb] in *; try (destruct (st_twts002 st); discriminate EG).
      destruct (x_ fr 0), (x_ fr 1), (x_ fr 2), (x_ fr 3), (st_twts002 st); cbn [fst snd hr_api_of] in *; try discriminate EG; eexists; reflexivity.
  - assert (K : hr_crc_ok fr' = false) by (destruct (hr_crc_ok fr'); [|reflexivity]; exfalso; apply M, CE; reflexivity).
    intros out out_len B. destruct T as [T|T].
    + rewrite hr16_api; [|exact W'|exact CD|exact T|exact B]. unfold hr16_result. rewrite K. cbn [negb orb].
      destruct (st_twts002 st); [|reflexivity]. eexists. split; [reflexivity|].
      unfold hr16_hdr. destruct (nth 16 (tf_c fr') false), (tf_ufi fr'), (nth 14 (tf_c fr') false); reflexivity.
    + rewrite hr8_api; [|exact W'|exact CD|exact T|exact B]. unfold hr8_result. rewrite K. cbn [negb]. rewrite orb_true_r.
      destruct (st_twts002 st); [|reflexivity]. eexists. split; [reflexivity|].
      unfold hr8_hdr. cbn [snd]. destruct (nth 8 (tf_c fr') false), (nth 4 (tf_xc fr') false); reflexivity.
Qed.

(** ** enhanced full rate: five groups of protected bits (RtpSpec.efr_protected), each followed by its
    check bits; [e]: errors in all D bits *)
Definition in_group (g : list nat * nat) (e : bits) : bits := at_ e (fst g) ++ firstn 3 (skipn (snd g) e).
Lemma nth_xor a : forall b i, length a = length b -> nth i (xor a b) false = xorb (nth i a false) (nth i b false).
Proof.
  induction a as [|x a IH]; intros [|y b] i L; try discriminate; [destruct i; reflexivity|].
  destruct i as [|i]; [reflexivity|]. cbn [xor nth]. apply IH. cbn in L. lia.
Qed.
Lemma at_xor a b l : length a = length b -> at_ (xor a b) l = xor (at_ a l) (at_ b l).
Proof. intros L. induction l as [|i l IH]; [reflexivity|]. cbn [at_ map xor]. unfold at_ in IH. now rewrite IH, nth_xor. Qed.
Lemma firstn_xor n : forall a b, firstn n (xor a b) = xor (firstn n a) (firstn n b).
Proof. induction n as [|n IH]; intros [|x a] [|y b]; try reflexivity. cbn [firstn xor]. now rewrite IH. Qed.
Lemma skipn_xor n : forall a b, length a = length b -> skipn n (xor a b) = xor (skipn n a) (skipn n b).
Proof. induction n as [|n IH]; intros [|x a] [|y b] L; try discriminate; try reflexivity. cbn [skipn xor]. apply IH. cbn in L. lia. Qed.
Lemma efr_group_errors d d' e g : length d = 288 -> length e = 288 -> d' = xor d e -> snd g + 3 <= 288 ->
  crc3_check (at_ d (fst g)) (firstn 3 (skipn (snd g) d)) = true ->
  (crc3_check (at_ d' (fst g)) (firstn 3 (skipn (snd g) d')) = true <-> sum_of_shifts gen3 (length (fst g) + 3) (in_group g e)).
Proof.
  intros Ld Le -> Hg G.
  assert (Lx : length (xor d e) = 288) by (rewrite xor_length; congruence).
  assert (L3 : forall x : bits, length x = 288 -> length (firstn 3 (skipn (snd g) x)) = 3) by (intros x Hx; rewrite firstn_length, skipn_length; lia).
  assert (LA : forall x : bits, length (at_ x (fst g)) = length (fst g)) by (intros x; apply map_length).
  rewrite crc3_check_eq, <- check3 in G |- * by now apply L3.
  assert (LG : length (in_group g e) = length (fst g) + 3) by (unfold in_group; rewrite app_length, LA, L3 by exact Le; reflexivity).
  rewrite <- LG. apply (check_errors p3 eq_refl (at_ d (fst g)) (firstn 3 (skipn (snd g) d))); try (apply L3; assumption); rewrite ?LA, ?L3, ?LG by assumption; try reflexivity; [|exact G].
  unfold in_group. rewrite xor_app by now rewrite !LA. rewrite at_xor, skipn_xor, firstn_xor by congruence. reflexivity.
Qed.
Theorem C71_efr : forall fr d e, tf_wf fr -> length d = 288 -> length e = 288 -> tf_type fr = T16_EFR -> nth 11 (tf_c fr) false = false ->
  efr_accepts fr -> d = xor (tf_d fr) e ->
  let harmless := Forall (fun g => sum_of_shifts gen3 (length (fst g) + 3) (in_group g e)) efr_protected in
  (harmless -> efr_accepts (set_d fr d)) /\ (~ harmless -> efr_rejects (set_d fr d)).
Proof.
  intros fr d e W Ld Le T C A E harmless. pose proof W as (_ & Hd & _).
  apply ok_accepts in A; try assumption.
  assert (W' : tf_wf (set_d fr d)) by (apply set_d_wf; [exact W|exact Ld]).
  assert (IFF : efr_ok d = true <-> harmless).
  { unfold efr_ok in *. rewrite forallb_forall in A |- *. unfold harmless. rewrite Forall_forall.
    assert (B : forall g, In g efr_protected -> snd g + 3 <= 288).
    { intros g H. cbn [efr_protected In] in H. decompose [or] H; try contradiction; subst g; cbn [snd]; lia. }
    split; intros H g Hg; apply (efr_group_errors (tf_d fr) d e g Hd Le E (B g Hg) (A g Hg)), H, Hg. }
  split; intros H.
  - apply ok_accepts; [exact W'|exact T|exact C|]. apply IFF. exact H.
  - apply nok_rejects; [exact W'|exact T|]. cbn [set_d tf_d]. destruct (efr_ok d); [|reflexivity]. exfalso. apply H, IFF. reflexivity.
Qed.

(** ** Ericsson CS-1 blocks: D1-D200 are consecutive on the line *)
Lemma rds_outside F off n f e l : length e = n -> off + n <= length f ->
  forallb (fun p => (p <? off) || (off + n <=? p)) (map (cell_pos F) l) = true ->
  rds F (firstn off f ++ xor (firstn n (skipn off f)) e ++ skipn (off + n) f) l = rds F f l.
Proof.
  intros Le Lf H. unfold rds. apply map_ext_in. intros c Hc. rewrite forallb_forall in H.
  specialize (H (cell_pos F c) (in_map _ _ _ Hc)). unfold rd. set (p := cell_pos F c) in *.
  assert (L1 : length (firstn off f) = off) by (rewrite firstn_length; lia).
  assert (L2 : length (xor (firstn n (skipn off f)) e) = n) by (rewrite xor_length; rewrite firstn_length, skipn_length; lia).
  apply orb_true_iff in H. destruct H as [H|H]; [apply Nat.ltb_lt in H|apply Nat.leb_le in H].
  - rewrite app_nth1 by lia. symmetry. rewrite <- (firstn_skipn off f) at 1. rewrite app_nth1 by lia. reflexivity.
  - rewrite app_nth2 by lia. rewrite app_nth2 by lia. rewrite L1, L2.
    rewrite <- (firstn_skipn (off + n) f) at 2. rewrite app_nth2; rewrite firstn_length; [f_equal; lia|lia].
Qed.
(** the frame [f] with errors [e] in the bits from [off] on *)
Definition hit (off : nat) (e f : bits) : bits := firstn off f ++ xor (firstn (length e) (skipn off f)) e ++ skipn (off + length e) f.
Lemma hit_length off e f : off + length e <= length f -> length (hit off e f) = length f.
Proof.
  intros H. unfold hit. rewrite !app_length, xor_length, !firstn_length, !skipn_length; [lia|]. rewrite firstn_length, skipn_length. lia.
Qed.
Lemma hit_nth off e f i : off + length e <= length f -> i < off -> nth_error (hit off e f) i = nth_error f i.
Proof.
  intros H Hi. unfold hit. rewrite nth_error_app1 by (rewrite firstn_length; lia).
  symmetry. rewrite <- (firstn_skipn off f) at 1. apply nth_error_app1. rewrite firstn_length. lia.
Qed.
Lemma hit_synced F off e f : off + length e <= length f -> (forall i, nth_error F i = Some T0 \/ nth_error F i = Some T1 -> i < off) ->
  synced F f -> synced F (hit off e f).
Proof. intros H B S i. destruct (S i) as [S0 S1]. split; intros Q; rewrite hit_nth; auto. Qed.
Lemma hit_cells F off e f l : off + length e <= length f -> map (cell_pos F) l = seq off (length e) -> rds F (hit off e f) l = xor (rds F f l) e.
Proof.
  intros H M.
  pose proof (slice_cells F f l off (length e) M H) as E1. rewrite slice_some in E1 by exact H. injection E1 as E1.
  pose proof (slice_cells F (hit off e f) l off (length e) M) as E2. rewrite hit_length in E2 by exact H. specialize (E2 H).
  rewrite slice_some in E2 by (rewrite hit_length; exact H). injection E2 as E2. rewrite <- E1, <- E2. unfold hit.
  assert (L1 : length (firstn off f) = off) by (rewrite firstn_length; lia).
  assert (L2 : length (xor (firstn (length e) (skipn off f)) e) = length e) by (rewrite xor_length; rewrite firstn_length, skipn_length; lia).
  rewrite skipn_app, L1, Nat.sub_diag, (skipn_all2 (firstn off f)) by lia. cbn [skipn app].
  rewrite firstn_app, L2, Nat.sub_diag. cbn [firstn]. rewrite app_nil_r. apply firstn_all2. lia.
Qed.
Lemma rds_app F f a b : rds F f (a ++ b) = rds F f a ++ rds F f b.
Proof. apply map_app. Qed.
Lemma cs1_errors F off e f : off + 200 <= length f -> length e = 200 -> map (cell_pos F) (rng D 1 200) = seq off 200 ->
  rds F f (rng D 185 200) = crc_of (rds F f (rng D 1 184)) ->
  (rds F (hit off e f) (rng D 185 200) = crc_of (rds F (hit off e f) (rng D 1 184)) <-> sum_of_shifts gen16 200 e).
Proof.
  intros H Le M G. rewrite <- check16 in G |- *.
  assert (LR : forall x a b, length (rds F x (rng D a b)) = b + 1 - a) by (intros; unfold rds, rng; rewrite !map_length, seq_length; reflexivity).
  pose proof (check_errors poly16 eq_refl (rds F f (rng D 1 184)) (rds F f (rng D 185 200)) (rds F (hit off e f) (rng D 1 184)) (rds F (hit off e f) (rng D 185 200)) e) as CE.
  rewrite !LR, Le in CE. apply CE; try reflexivity; [|exact G].
  rewrite <- !rds_app. change (rng D 1 184 ++ rng D 185 200) with (rng D 1 200). apply hit_cells; rewrite Le; assumption.
Qed.
(** cells of a figure that a list names lie outside the errors *)
Lemma hit_rds F off e f l : off + length e <= length f -> forallb (fun p => (p <? off) || (off + length e <=? p)) (map (cell_pos F) l) = true ->
  rds F (hit off e f) l = rds F f l.
Proof. intros H K. unfold hit. now apply rds_outside. Qed.
Lemma hit_rd F off e f c : off + length e <= length f -> (cell_pos F c <? off) || (off + length e <=? cell_pos F c) = true ->
  rd F (hit off e f) c = rd F f c.
Proof. intros H K. pose proof (hit_rds F off e f [c] H) as X. cbn [map forallb rds] in X. rewrite K in X. specialize (X eq_refl). now injection X. Qed.

Theorem C71_cs1_16 : forall f d e, length f = 320 -> length e = 200 ->
  er_gprs_trau_frame_decode_16k f = Some (0%Z, CData d) -> cd_cs d = CS_CS1 ->
  let f' := hit 45 e f in
  (sum_of_shifts gen16 200 e -> exists d', er_gprs_trau_frame_decode_16k f' = Some (0%Z, CData d') /\ cd_cs d' = CS_CS1) /\
  (~ sum_of_shifts gen16 200 e -> er_gprs_trau_frame_decode_16k f' = Some ((-22)%Z, CNone)).
Proof.
  intros f d e L Le ED CS f'.
  assert (HL : 45 + length e <= length f) by lia.
  assert (L' : length f' = 320) by (unfold f'; rewrite hit_length; assumption).
  assert (DF : ccu_data_16 f d).
  { destruct (C45_16 f L) as [(s & E & _)|[(x & E & U & _)|(E & _)]]; try (rewrite E in ED; discriminate ED). apply U. rewrite E in ED. injection ED as ED. symmetry. exact ED. }
  unfold ccu_data_16 in DF. cbv zeta in DF. destruct DF as (S & TY & PCK & PEK & A1 & A2 & A3 & A4 & A5 & A6 & A7).
  destruct A7 as [(_ & A8 & A9 & A10 & A11)|[(A7 & _)|(A7 & _)]]; try (rewrite CS in A7; discriminate A7).
  pose proof (cs1_errors fig_ccu_data_16 45 e f ltac:(lia) Le ltac:(vm_compute; reflexivity) A11) as IFF. fold f' in IFF.
  assert (NS : forall s, ~ ccu_sync_16 f' s).
  { intros s (_ & TY' & _). unfold f' in TY'. rewrite hit_rds in TY' by (try exact HL; rewrite Le; vm_compute; reflexivity).
    destruct (type_16 f L) as [T1_ T2_].
    assert (X : rds fig_ccu_sync_16 f (rng C 1 5) = rds fig_ccu_data_16 f (rng C 1 5)) by congruence. rewrite X, TY in TY'. discriminate TY'. }
  assert (R : forall l, forallb (fun p => (p <? 45) || (45 + 200 <=? p)) (map (cell_pos fig_ccu_data_16) l) = true -> rds fig_ccu_data_16 f' l = rds fig_ccu_data_16 f l).
  { intros l H. apply hit_rds; [exact HL|]. rewrite Le. exact H. }
  assert (RE : forall i, i = 1 \/ i = 8 -> rd fig_ccu_data_16 f' (E i) = rd fig_ccu_data_16 f (E i)).
  { intros i [-> | ->]; (apply hit_rd; [exact HL|]; rewrite Le; vm_compute; reflexivity). }
  assert (CSX : forall c cs1 cs2, cs_16 c cs1 -> cs_16 c cs2 -> cs1 = cs2).
  { intros c cs1 cs2 H1 H2. unfold cs_16 in *. cbn [In] in H1, H2. clear - H1 H2. intuition congruence. }
  destruct (C45_16 f' L') as [(s & _ & U & _)|[(x & EX & U & _)|(EX & _ & N)]].
  - exfalso. apply (NS s). now apply U.
  - pose proof (proj2 (U x) eq_refl) as DX. unfold ccu_data_16 in DX. cbv zeta in DX.
    destruct DX as (_ & _ & _ & _ & _ & _ & B3 & _ & _ & _ & B7).
    rewrite R in B3 by (vm_compute; reflexivity). pose proof (CSX _ _ _ A3 B3) as CX. rewrite CS in CX.
    destruct B7 as [(_ & _ & _ & _ & B11)|[(B7 & _)|(B7 & _)]]; try (rewrite B7 in CX; discriminate CX).
    apply IFF in B11. split; [|contradiction]. intros _. exists x. auto.
  - split; [|intros _; exact EX]. intros M. exfalso. apply IFF in M.
    apply (N (mkCD (cd_tav d) (cd_dbe d) (cd_cs d) (cd_rx_lev d) (cd_eadd d) (cd_u d) (block (rds fig_ccu_data_16 f' (rng D 1 184))) 23 [])).
    unfold ccu_data_16. cbv zeta. cbn [cd_tav cd_dbe cd_cs cd_rx_lev cd_eadd cd_u cd_data cd_len cd_ab].
    rewrite !RE by auto. rewrite (R (rng C 1 5)), (R (rng C 1 7 ++ [PC])), (R (rng E 1 19 ++ [PE])), (R [C 6; C 7]), (R (rng E 2 4)), (R (rng E 5 7)), (R (rng E 9 14)), (R (rng E 15 17)) by (vm_compute; reflexivity).
    split.
    { apply hit_synced; [exact HL| |exact S]. intros i H.
      assert (X : forallb (fun i => match nth_error fig_ccu_data_16 i with Some T0 | Some T1 => i <? 45 | _ => true end) (seq 0 320) = true) by (vm_compute; reflexivity).
      assert (Li : i < 320) by (change 320 with (length fig_ccu_data_16); apply nth_error_Some; destruct H as [-> | ->]; discriminate).
      rewrite forallb_forall in X. specialize (X i ltac:(apply in_seq; lia)). destruct H as [H|H]; rewrite H in X; now apply Nat.ltb_lt. }
    repeat (split; [assumption|]). left. split; [exact CS|]. split; [reflexivity|]. split; [reflexivity|]. split; [reflexivity|]. exact M.
Qed.

Theorem C71_cs1_64 : forall f un d e, length f = 1280 -> length un = 1234 -> length e = 200 ->
  er_gprs_trau_frame_decode_64k f un = Some (0%Z, CData d) -> cd_cs d = CS_CS1 ->
  let f' := hit 134 e f in
  (sum_of_shifts gen16 200 e -> exists d', er_gprs_trau_frame_decode_64k f' un = Some (0%Z, CData d') /\ cd_cs d' = CS_CS1) /\
  (~ sum_of_shifts gen16 200 e -> er_gprs_trau_frame_decode_64k f' un = Some ((-22)%Z, CNone)).
Proof.
  intros f un d e L Lu Le ED CS f'.
  assert (HL : 134 + length e <= length f) by lia.
  assert (L' : length f' = 1280) by (unfold f'; rewrite hit_length; assumption).
  assert (CD : forall x, cd_cs (deliver x) = cd_cs x) by (intros []; reflexivity).
  assert (DF : exists x, ccu_data_64 f x /\ cd_cs x = CS_CS1).
  { pose proof (C45_64 f un L Lu) as X. cbv zeta in X. destruct X as [(s & E1 & _)|[(x & E1 & U & _)|[(x & E1 & _ & _ & U & _ & N)|(E1 & _)]]].
    - rewrite E1 in ED. discriminate ED.
    - exists x. split; [now apply U|]. rewrite E1 in ED. injection ED as ED. rewrite <- CD, ED. exact CS.
    - exfalso. assert (X : ccu_data9_64 f x) by (apply U; destruct x; reflexivity).
      unfold ccu_data9_64 in X. cbv zeta in X. destruct X as (_ & _ & _ & _ & _ & _ & X & _).
      rewrite E1 in ED. injection ED as ED. rewrite <- ED, CD, X in CS. discriminate CS.
    - rewrite E1 in ED. discriminate ED. }
  destruct DF as (d0 & DF & CS0). clear d ED CS.
  unfold ccu_data_64 in DF. cbv zeta in DF. destruct DF as (S & TY & PCK & PEK & A1 & A2 & A3 & A4 & A5 & A6 & A7).
  assert (RG : (CS_CS1 <= CS_CS1 <= CS_CS4)%Z) by (unfold CS_CS1, CS_CS4; lia).
  destruct A7 as [(_ & A8 & A9 & A10 & A11)|[(A7 & _)|(A7 & _)]];
    [|rewrite CS0 in A7; discriminate A7|exfalso; rewrite CS0 in A7; revert A7; unfold CS_CS1, CS_HDR1, CS_HDR3; lia].
  specialize (A11 CS0).
  destruct A6 as [(_ & A6)|(A6 & _)]; [|exfalso; apply A6; rewrite CS0; exact RG].
  pose proof (cs1_errors fig_ccu_data_64 134 e f ltac:(lia) Le ltac:(vm_compute; reflexivity) A11) as IFF. fold f' in IFF.
  destruct (type_64 f' L') as (T1_ & T2_ & T3_).
  assert (R : forall l, forallb (fun p => (p <? 134) || (134 + 200 <=? p)) (map (cell_pos fig_ccu_data_64) l) = true -> rds fig_ccu_data_64 f' l = rds fig_ccu_data_64 f l).
  { intros l H. apply hit_rds; [exact HL|]. rewrite Le. exact H. }
  assert (TY2 : lsb1st (rds fig_ccu_data_64 f' (rng C 1 5)) = 26%Z) by (rewrite R by (vm_compute; reflexivity); exact TY).
  assert (NS : forall s, ~ ccu_sync_64 f' s).
  { intros s H. unfold ccu_sync_64 in H. cbv zeta in H. destruct H as (_ & TY' & _).
    assert (X : rds fig_ccu_sync_64 f' (rng C 1 5) = rds fig_ccu_data_64 f' (rng C 1 5)) by congruence. rewrite X, TY2 in TY'. discriminate TY'. }
  assert (N9 : forall s, ~ ccu_data9_64 f' s).
  { intros s H. unfold ccu_data9_64 in H. cbv zeta in H. destruct H as (_ & TY' & _).
    assert (X : rds fig_ccu_data9_64 f' (rng C 1 5) = rds fig_ccu_data_64 f' (rng C 1 5)) by congruence. rewrite X, TY2 in TY'. discriminate TY'. }
  assert (RE : forall i, i = 1 \/ i = 17 -> rd fig_ccu_data_64 f' (E i) = rd fig_ccu_data_64 f (E i)).
  { intros i [-> | ->]; (apply hit_rd; [exact HL|]; rewrite Le; vm_compute; reflexivity). }
  pose proof (C45_64 f' un L' Lu) as X. cbv zeta in X. destruct X as [(s & _ & U & _)|[(x & EX & U & _)|[(x & _ & _ & _ & U & _)|(EX & _ & N & _)]]].
  - exfalso. apply (NS s). now apply U.
  - pose proof (proj2 (U x) eq_refl) as DX. unfold ccu_data_64 in DX. cbv zeta in DX.
    destruct DX as (_ & _ & _ & _ & _ & _ & B3 & _ & _ & _ & B7).
    rewrite R in B3 by (vm_compute; reflexivity). rewrite <- A3, CS0 in B3.
    destruct B7 as [(_ & _ & _ & _ & B11)|[(B7 & _)|(B7 & _)]];
      [|rewrite B3 in B7; discriminate B7|exfalso; rewrite B3 in B7; revert B7; unfold CS_CS1, CS_HDR1, CS_HDR3; lia].
    specialize (B11 B3). apply IFF in B11. split; [|contradiction]. intros _. exists (deliver x). rewrite CD. auto.
  - exfalso. apply (N9 x). apply U. destruct x; reflexivity.
  - split; [|intros _; exact EX]. intros M. exfalso. apply IFF in M.
    apply (N (mkCD (cd_tav d0) (cd_dbe d0) (cd_cs d0) (cd_rx_lev d0) (cd_eadd d0) (cd_u d0) (block (rds fig_ccu_data_64 f' (rng D 1 (cs_size (cd_cs d0))))) (octets (cs_size (cd_cs d0))) [])).
    unfold ccu_data_64. cbv zeta. cbn [cd_tav cd_dbe cd_cs cd_rx_lev cd_eadd cd_u cd_data cd_len cd_ab].
    rewrite !RE by auto. rewrite (R (rng C 1 5)), (R (rng C 1 7 ++ [PC])), (R (rng E 1 57 ++ [PE])), (R [C 6; C 7]), (R (rng E 2 4)), (R (rng E 5 10)), (R (rng E 11 13)), (R (rng E 14 16)) by (vm_compute; reflexivity).
    split.
    { apply hit_synced; [exact HL| |exact S]. intros i H.
      assert (X : forallb (fun i => match nth_error fig_ccu_data_64 i with Some T0 | Some T1 => i <? 134 | _ => true end) (seq 0 1280) = true) by (vm_compute; reflexivity).
      assert (Li : i < 1280) by (change 1280 with (length fig_ccu_data_64); apply nth_error_Some; destruct H as [-> | ->]; discriminate).
      rewrite forallb_forall in X. specialize (X i ltac:(apply in_seq; lia)). destruct H as [H|H]; rewrite H in X; now apply Nat.ltb_lt. }
    split; [exact TY|]. split; [exact PCK|]. split; [exact PEK|]. split; [exact A1|]. split; [exact A2|]. split; [exact A3|]. split; [exact A4|]. split; [exact A5|].
    split; [left; split; [rewrite CS0; exact RG|exact A6]|].
    left. split; [rewrite CS0; exact RG|]. split; [reflexivity|]. split; [reflexivity|]. split; [reflexivity|]. intros _. exact M.
Qed.

(** ** in plain terms *)
(** a CS-1 block with one burst of up to 16 wrong bits, or an odd number of wrong bits, or two, is refused *)
Theorem C71_cs1_refused : forall e, length e = 200 -> burst 16 e \/ odd_wrong e \/ (exists k, two_wrong k e) ->
  (forall f d, length f = 320 -> er_gprs_trau_frame_decode_16k f = Some (0%Z, CData d) -> cd_cs d = CS_CS1 ->
     er_gprs_trau_frame_decode_16k (hit 45 e f) = Some ((-22)%Z, CNone)) /\
  (forall f un d, length f = 1280 -> length un = 1234 -> er_gprs_trau_frame_decode_64k f un = Some (0%Z, CData d) -> cd_cs d = CS_CS1 ->
     er_gprs_trau_frame_decode_64k (hit 134 e f) un = Some ((-22)%Z, CNone)).
Proof.
  intros e Le H. destruct (C71_crc16 200 e Le) as (B & O & T).
  assert (N : ~ sum_of_shifts gen16 200 e) by (destruct H as [H|[H|(k & H)]]; [now apply B|now apply O|apply (T k); [exact H|lia]]).
  split; intros.
  - apply (C71_cs1_16 f d e); assumption.
  - apply (C71_cs1_64 f un d e); assumption.
Qed.
(** a half rate frame with a burst of up to three wrong bits among the protected ones is reported bad *)
Theorem C71_hr_burst : forall cd fr st d c e, codec_ok cd -> tf_wf fr -> length d = 288 -> length c = 3 ->
  tf_type fr = T16_HR \/ tf_type fr = T8_SPEECH -> hr_takes cd st fr ->
  length e = 47 -> firstn 44 d ++ c = xor (firstn 44 (tf_d fr) ++ tf_crc fr) e -> burst 3 e -> hr_bad cd st (set_crc (set_d fr d) c).
Proof.
  intros cd fr st d c e CD W Ld Lc T G Le E B. apply (C71_hr cd fr st d c e CD W Ld Lc T G Le E).
  apply (proj1 (C71_crc3 47 e Le)), B.
Qed.
(** REFUTED: two wrong bits are noticed.  Whatever the half rate frame, with D1 and D8 wrong it is
    still taken *)
Theorem C71_hr_two_errors_refuted : forall cd fr st, codec_ok cd -> tf_wf fr ->
  tf_type fr = T16_HR \/ tf_type fr = T8_SPEECH -> hr_takes cd st fr ->
  hr_takes cd st (set_d fr (xor (tf_d fr) ([true] ++ repeat false 6 ++ [true] ++ repeat false 280))).
Proof.
  intros cd fr st CD W T G. pose proof W as (_ & Hd & _ & _ & _ & Hcr & _).
  set (e := [true] ++ repeat false 6 ++ [true] ++ repeat false 39).
  set (d := xor (tf_d fr) ([true] ++ repeat false 6 ++ [true] ++ repeat false 280)).
  assert (Ld : length d = 288) by (unfold d; rewrite xor_length; rewrite Hd; reflexivity).
  assert (TW : two_wrong 7 e) by (exists 0, 39; split; [lia|reflexivity]).
  pose proof (proj2 (proj2 (C71_crc3 47 e eq_refl) 7 TW) (Nat.divide_refl 7)) as M.
  assert (X : firstn 44 d ++ tf_crc fr = xor (firstn 44 (tf_d fr) ++ tf_crc fr) e).
  { change e with (firstn 44 ([true] ++ repeat false 6 ++ [true] ++ repeat false 280) ++ repeat false 3).
    rewrite xor_app, (xor_zero (tf_crc fr) 3 Hcr).
    - unfold d. now rewrite firstn_xor.
    - rewrite firstn_length, Hd. reflexivity. }
  pose proof (proj1 (C71_hr cd fr st d (tf_crc fr) e CD W Ld Hcr T G eq_refl X) M) as R.
  destruct fr. exact R.
Qed.
(** REFUTED: CS-2 blocks are protected.  Whatever errors there are in D1-D271, the block is taken,
    with them *)
Theorem C71_cs2_unprotected_refuted : forall f d e, length f = 320 -> length e = 271 ->
  er_gprs_trau_frame_decode_16k f = Some (0%Z, CData d) -> cd_cs d = CS_CS2 ->
  exists d', er_gprs_trau_frame_decode_16k (hit 45 e f) = Some (0%Z, CData d') /\ cd_cs d' = CS_CS2 /\
    firstn 271 (cd_data d') = xor (firstn 271 (cd_data d)) e.
Proof.
  intros f d e L Le ED CS. set (f' := hit 45 e f).
  assert (HL : 45 + length e <= length f) by lia.
  assert (L' : length f' = 320) by (unfold f'; rewrite hit_length; assumption).
  assert (DF : ccu_data_16 f d).
  { destruct (C45_16 f L) as [(s & E & _)|[(x & E & U & _)|(E & _)]]; try (rewrite E in ED; discriminate ED). apply U. rewrite E in ED. injection ED as ED. symmetry. exact ED. }
  unfold ccu_data_16 in DF. cbv zeta in DF. destruct DF as (S & TY & PCK & PEK & A1 & A2 & A3 & A4 & A5 & A6 & A7).
  destruct A7 as [(A7 & _)|[(_ & A8 & A9 & A10)|(A7 & _)]]; try (rewrite CS in A7; discriminate A7).
  assert (R : forall l, forallb (fun p => (p <? 45) || (45 + 271 <=? p)) (map (cell_pos fig_ccu_data_16) l) = true -> rds fig_ccu_data_16 f' l = rds fig_ccu_data_16 f l).
  { intros l H. apply hit_rds; [exact HL|]. rewrite Le. exact H. }
  assert (RE : forall i, i = 1 \/ i = 8 -> rd fig_ccu_data_16 f' (E i) = rd fig_ccu_data_16 f (E i)).
  { intros i [-> | ->]; (apply hit_rd; [exact HL|]; rewrite Le; vm_compute; reflexivity). }
  set (d' := mkCD (cd_tav d) (cd_dbe d) (cd_cs d) (cd_rx_lev d) (cd_eadd d) (cd_u d) (block (rds fig_ccu_data_16 f' (rng D 1 271))) 34 []).
  assert (D' : ccu_data_16 f' d').
  { unfold ccu_data_16, d'. cbv zeta. cbn [cd_tav cd_dbe cd_cs cd_rx_lev cd_eadd cd_u cd_data cd_len cd_ab].
    rewrite !RE by auto. rewrite (R (rng C 1 5)), (R (rng C 1 7 ++ [PC])), (R (rng E 1 19 ++ [PE])), (R [C 6; C 7]), (R (rng E 2 4)), (R (rng E 5 7)), (R (rng E 9 14)), (R (rng E 15 17)) by (vm_compute; reflexivity).
    split.
    { apply hit_synced; [exact HL| |exact S]. intros i H.
      assert (X : forallb (fun i => match nth_error fig_ccu_data_16 i with Some T0 | Some T1 => i <? 45 | _ => true end) (seq 0 320) = true) by (vm_compute; reflexivity).
      assert (Li : i < 320) by (change 320 with (length fig_ccu_data_16); apply nth_error_Some; destruct H as [-> | ->]; discriminate).
      rewrite forallb_forall in X. specialize (X i ltac:(apply in_seq; lia)). destruct H as [H|H]; rewrite H in X; now apply Nat.ltb_lt. }
    repeat (split; [assumption|]). right. left. split; [exact CS|]. split; [reflexivity|]. split; reflexivity. }
  exists d'. split; [|split; [exact CS|]].
  - destruct (C45_16 f' L') as [(s & _ & _ & N)|[(x & EX & U & _)|(_ & _ & N)]]; [destruct (N _ D')| |destruct (N _ D')].
    rewrite EX. apply U in D'. rewrite D'. reflexivity.
  - unfold d'. cbn [cd_data]. rewrite A10. unfold block.
    assert (LR : forall x, length (rds fig_ccu_data_16 x (rng D 1 271)) = 271) by (intros; unfold rds, rng; rewrite !map_length, seq_length; reflexivity).
    rewrite !firstn_app_exact by apply LR.
    apply hit_cells; [exact HL|]. rewrite Le. vm_compute. reflexivity.
Qed.

(** hypotheses are met: concrete frames that are taken, and error patterns of each kind *)
Example C71_example :
  (exists d, er_gprs_trau_frame_decode_16k wit_cs1_16 = Some (0%Z, CData d) /\ cd_cs d = CS_CS1) /\
  burst 16 (repeat false 60 ++ [true; false; true; true] ++ repeat false 136) /\
  (exists k, two_wrong k ([true] ++ repeat false 198 ++ [true])) /\
  sum_of_shifts gen16 200 (xor (repeat false 200) (repeat false 7 ++ gen16 ++ repeat false (200 - 7 - 17))) /\
  (let d := repeat true 288 in let fr := mkTf T16_HR UL 0 (repeat false 25) d (repeat true 4) (repeat false 6) (repeat true 2) false (crc3_bits (firstn 44 d)) (repeat false 6) in
   tf_wf fr /\ hr_takes ex_codec (mkRtpState T16_HR false false false) fr).
Proof.
  split; [|split; [|split; [|split]]].
  - destruct C45_16_witness as (_ & W & _). destruct (er_gprs_trau_frame_decode_16k wit_cs1_16) as [[rc [s|d|]]|]; try contradiction.
    destruct W as (-> & W & _). exists d. auto.
  - exists 60, [true; false; true; true], 136. split; [reflexivity|]. split; [cbn; lia|now left].
  - exists 199, 0, 0. split; [lia|reflexivity].
  - apply one_more; [apply no_shift|]. cbn. lia.
  - assert (W : tf_wf (mkTf T16_HR UL 0 (repeat false 25) (repeat true 288) (repeat true 4) (repeat false 6) (repeat true 2) false (crc3_bits (firstn 44 (repeat true 288))) (repeat false 6)))
      by (unfold tf_wf; cbn [tf_c tf_d tf_t tf_s tf_m tf_crc tf_xc]; rewrite !repeat_length; tauto).
    split; [exact W|]. intros out out_len B. rewrite hr16_api; [|exact W|apply C25_example|reflexivity|exact B].
    assert (R : exists a b, hr16_result ex_codec false (mkTf T16_HR UL 0 (repeat false 25) (repeat true 288) (repeat true 4) (repeat false 6) (repeat true 2) false (crc3_bits (firstn 44 (repeat true 288))) (repeat false 6)) = HR_full a b) by (vm_compute; eauto).
    destruct R as (a & b & R). cbn [st_twts002]. rewrite R. cbn [hr_api_of]. eauto.
Qed.
Print Assumptions C71_crc3.
Print Assumptions C71_crc16.
Print Assumptions C71_hr.
Print Assumptions C71_efr.
Print Assumptions C71_cs1_refused.
Print Assumptions C71_hr_two_errors_refuted.
Print Assumptions C71_cs2_unprotected_refuted.
