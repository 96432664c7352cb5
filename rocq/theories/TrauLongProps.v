(** C20, C21 continued: the two decoders that read past a frame of the
    documented length (AMR 6.7 on 8k, O&M on 16k), given memory that is large
    enough. Here every bit they return is pinned to a position of the buffer,
    which is what a caller who passes a larger buffer sees. *)
From Coq Require Import List Arith Lia Bool ZArith.
From Verif Require Import Base Spec TrauSpec TrauModel TrauFields TrauProofs TrauProps.
Import ListNotations.

(** the bits found at the given (offset, count) places, in order *)
Definition gather (b : bits) (l : list (nat * nat)) : bits := concat (map (fun p => sub b (fst p) (snd p)) l).

(** AMR 6.7: D1..D7, D8..D11, D12..D39 and then seven runs of 15 *)
Definition d67 : list (nat * nat) :=
  [(9,7); (20,4); (26,7); (34,7); (42,7); (50,7); (57,15); (73,15); (89,15); (105,15); (121,15); (137,15); (153,15)].
(** O&M on 16k: eighteen runs of 15 and one of 9 *)
Definition doam : list (nat * nat) := map (fun k => (34 + 16 * k, 15)) (seq 0 18) ++ [(305, 9)].

Lemma memcpy_src (d b x : bits) o p n : p + n <= length b -> memcpy d o (b ++ x) p n = memcpy d o b p n.
Proof.
  intros H. unfold memcpy. rewrite !slice_some by (rewrite ?app_length; lia).
  rewrite skipn_app. replace (p - length b) with 0 by lia. cbn [skipn]. rewrite firstn_app.
  replace (n - length (skipn p b)) with 0 by (rewrite skipn_length; lia). cbn [firstn]. now rewrite app_nil_r.
Qed.
Lemma sub_src (b x : bits) p n : p + n <= length b -> sub (b ++ x) p n = sub b p n.
Proof.
  intros H. unfold sub. rewrite skipn_app. replace (p - length b) with 0 by lia. cbn [skipn]. rewrite firstn_app.
  replace (n - length (skipn p b)) with 0 by (rewrite skipn_length; lia). cbn [firstn]. now rewrite app_nil_r.
Qed.
Lemma gather_src (b x : bits) l : forallb (fun p => fst p + snd p <=? length b) l = true -> gather (b ++ x) l = gather b l.
Proof.
  unfold gather. induction l as [|[p n] l IH]; [reflexivity|]. cbn [forallb map concat fst snd]. intros H.
  apply andb_true_iff in H. destruct H as [H1 H2]. apply Nat.leb_le in H1. rewrite sub_src by exact H1. now rewrite IH.
Qed.

Lemma zpat_spec' b l : 160 <= length b -> forallb (fun p => fst p <? 160) l = true ->
  exists r, (do z <- zero8 b; if z then check_bits b l else Some false) = Some r /\
    (r = true <-> has_pattern b (every 0 1 8 false ++ l)).
Proof.
  intros L Hl. destruct (zero8_spec b) as (z & -> & Hz); [lia|].
  destruct z.
  - destruct (check_bits_spec b l) as (r & Hr & Hs); [intros o v HI; pose proof (pos_bound l 160 Hl o v HI); lia|].
    exists r. split; [exact Hr|]. rewrite has_pattern_app. tauto.
  - exists false. split; [reflexivity|]. rewrite has_pattern_app. split; [discriminate|]. intros [H _]. now apply Hz in H.
Qed.

Lemma sym_67 b fr0 : length b = 168 -> tf_wf fr0 ->
  decode8_amr_67 fr0 b = Some (mkTf (tf_type fr0) (tf_dir fr0) (tf_ta fr0) (sub b 17 3 ++ skipn 3 (tf_c fr0))
     (gather b d67 ++ skipn 144 (tf_d fr0)) (tf_t fr0) (tf_s fr0) (tf_m fr0) (tf_ufi fr0) (tf_crc fr0) (tf_xc fr0)).
Proof. intros Hb W0. sym_buf b Hb. revert fr0 W0. sym_tf. vm_compute. reflexivity. Qed.

Lemma sym_oam b fr0 : length b = 321 -> tf_wf fr0 ->
  decode16_oam fr0 b = Some (mkTf (tf_type fr0) (tf_dir fr0) (tf_ta fr0) (sub b 17 15 ++ skipn 15 (tf_c fr0))
     (gather b doam ++ skipn 279 (tf_d fr0)) (tf_t fr0) (sub b 314 6) (tf_m fr0) (tf_ufi fr0) (tf_crc fr0) (tf_xc fr0)).
Proof. intros Hb W0. sym_buf b Hb. revert fr0 W0. sym_tf. vm_compute. reflexivity. Qed.

Lemma forM_ext {A} n k (f g : nat -> A -> option A) : (forall i a, k <= i < k + n -> f i a = g i a) -> forall a, forM n k f a = forM n k g a.
Proof.
  revert k. induction n as [|n IH]; intros k H a; [reflexivity|]. cbn [forM]. rewrite H by lia.
  destruct (g k a); [|reflexivity]. apply IH. intros. apply H. lia.
Qed.
Lemma src_67 b x fr0 : length b = 168 -> decode8_amr_67 fr0 (b ++ x) = decode8_amr_67 fr0 b.
Proof.
  intros L. unfold decode8_amr_67. rewrite !memcpy_src by lia.
  destruct (memcpy (tf_d fr0) 0 b (1 * 8 + 1) 7) as [d|]; [|reflexivity].
  destruct (memcpy (tf_c fr0) 0 b (2 * 8 + 1) 3) as [c|]; [|reflexivity].
  rewrite memcpy_src by lia. destruct (memcpy d 7 b (2 * 8 + 4) 4) as [d'|]; [|reflexivity].
  rewrite (forM_ext 4 0 _ (fun k d => memcpy d (11 + 7 * k) b ((3 + k) * 8 + 2) 7)) by (intros; apply memcpy_src; lia).
  destruct (forM 4 0 _ d') as [d2|]; [|reflexivity].
  now rewrite (forM_ext 7 0 _ (fun k d => memcpy d (39 + 15 * k) b ((7 + 2 * k) * 8 + 1) 15)) by (intros; apply memcpy_src; lia).
Qed.
Lemma src_oam b x fr0 : length b = 321 -> decode16_oam fr0 (b ++ x) = decode16_oam fr0 b.
Proof.
  intros L. unfold decode16_oam. rewrite !memcpy_src by lia.
  destruct (memcpy (tf_c fr0) 0 b 17 15) as [c|]; [|reflexivity].
  rewrite (forM_ext 18 0 _ (fun k d => memcpy d (15 * k) b (33 + 16 * k + 1) 15)) by (intros; apply memcpy_src; lia).
  match goal with |- context [forM 18 0 ?f ?a] => destruct (forM 18 0 f a) as [d2|] end; [|reflexivity].
  rewrite memcpy_src by lia. destruct (memcpy d2 270 b 305 9); reflexivity.
Qed.

(** An AMR 6.7 frame in a buffer with at least 8 bits behind it is received
    as such, with C1..C3 and 144 D bits (the standard's 137 and 7 more, the
    last of them from behind the frame) from the places listed; nothing else
    of the struct changes. *)
Theorem C20_amr67_long : forall b fr0 dir, 168 <= length b -> tf_wf fr0 -> has_pattern b pat_67 ->
  exists fr', osmo_trau_frame_decode_8k fr0 b dir = Some (0%Z, fr') /\ tf_wf fr' /\
    tf_type fr' = T8_AMR_6k7 /\ tf_dir fr' = dir /\ tf_ta fr' = 0%Z /\
    tf_c fr' = sub b 17 3 ++ skipn 3 (tf_c fr0) /\
    tf_d fr' = gather b d67 ++ skipn 144 (tf_d fr0) /\
    tf_t fr' = tf_t fr0 /\ tf_s fr' = tf_s fr0 /\ tf_m fr' = tf_m fr0 /\
    tf_ufi fr' = tf_ufi fr0 /\ tf_crc fr' = tf_crc fr0 /\ tf_xc fr' = tf_xc fr0.
Proof.
  intros b fr0 dir L W0 H. unfold osmo_trau_frame_decode_8k.
  assert (Z1 : exists r, is_hr b = Some r /\ (r = true <-> has_pattern b pat8)) by (apply zpat_spec'; [lia|reflexivity]).
  assert (Z2 : exists r, is_amr_low b = Some r /\ (r = true <-> has_pattern b pat_low)) by (apply zpat_spec'; [lia|reflexivity]).
  assert (Z3 : exists r, is_amr_67 b = Some r /\ (r = true <-> has_pattern b pat_67)) by (apply zpat_spec'; [lia|reflexivity]).
  destruct Z1 as (r1 & -> & H1). destruct r1.
  { exfalso. apply (has_conflict b pat8 pat_67 16 false); [cbn; tauto|cbn; tauto|now apply H1|exact H]. }
  destruct Z2 as (r2 & -> & H2). destruct r2.
  { exfalso. apply (has_conflict b pat_low pat_67 24 false); [cbn; tauto|cbn; tauto|now apply H2|exact H]. }
  destruct Z3 as (r3 & -> & H3). destruct r3; [|now apply H3 in H]. clear H1 H2 H3 H.
  assert (L1 : length (firstn 168 b) = 168) by (rewrite firstn_length; lia).
  assert (W1 : tf_wf (set_head fr0 T8_AMR_6k7 dir)) by exact W0.
  pose proof (src_67 (firstn 168 b) (skipn 168 b) (set_head fr0 T8_AMR_6k7 dir) L1) as S1.
  rewrite firstn_skipn in S1. rewrite S1, (sym_67 _ _ L1 W1). unfold ok.
  assert (G : gather b d67 = gather (firstn 168 b) d67).
  { rewrite <- (firstn_skipn 168 b) at 1. apply gather_src. rewrite L1. reflexivity. }
  assert (C : sub b 17 3 = sub (firstn 168 b) 17 3).
  { rewrite <- (firstn_skipn 168 b) at 1. apply sub_src. lia. }
  rewrite <- G, <- C. eexists. split; [reflexivity|].
  assert (LG : length (gather b d67) = 144).
  { rewrite G. generalize (firstn 168 b) L1. intros y Ly. unfold gather, d67. cbn [map concat fst snd].
    rewrite !app_length. rewrite !sub_len by lia. reflexivity. }
  assert (LC : length (sub b 17 3) = 3) by (apply sub_len; lia).
  split.
  - destruct W0 as (Wc & Wd & Wt & Ws & Wm & Wr & Wx). unfold tf_wf, set_head. cbn [tf_c tf_d tf_t tf_s tf_m tf_crc tf_xc].
    rewrite !app_length, !skipn_length, LG, LC. repeat split; lia.
  - unfold set_head. cbn [tf_type tf_dir tf_ta tf_c tf_d tf_t tf_s tf_m tf_ufi tf_crc tf_xc].
    do 10 (split; [reflexivity|]). reflexivity.
Qed.

(** An O&M frame in a buffer with at least one bit behind it: C1..C15 as
    usual, then 279 D bits and S1..S6 starting one bit late (from 34 on
    instead of 33), the last S bit from behind the frame. *)
Theorem C21_oam_long : forall b fr0 dir, 321 <= length b -> tf_wf fr0 -> type16 (sub b 17 5) = T16_OAM ->
  exists fr', osmo_trau_frame_decode_16k fr0 b dir = Some (0%Z, fr') /\ tf_wf fr' /\
    tf_type fr' = T16_OAM /\ tf_dir fr' = dir /\ tf_ta fr' = 0%Z /\
    tf_c fr' = sub b 17 15 ++ skipn 15 (tf_c fr0) /\
    tf_d fr' = gather b doam ++ skipn 279 (tf_d fr0) /\
    tf_s fr' = sub b 314 6 /\
    tf_t fr' = tf_t fr0 /\ tf_m fr' = tf_m fr0 /\
    tf_ufi fr' = tf_ufi fr0 /\ tf_crc fr' = tf_crc fr0 /\ tf_xc fr' = tf_xc fr0.
Proof.
  intros b fr0 dir L W0 H.
  assert (L1 : length (firstn 321 b) = 321) by (rewrite firstn_length; lia).
  assert (W1 : tf_wf (set_head fr0 T16_OAM dir)) by exact W0.
  assert (D : osmo_trau_frame_decode_16k fr0 b dir = ok (decode16_oam (set_head fr0 T16_OAM dir) b)).
  { unfold osmo_trau_frame_decode_16k. rewrite get_bits_sub by lia.
    assert (L5 : length (sub b 17 5) = 5) by (apply sub_len; lia).
    destruct (sub b 17 5) as [|q0[|q1[|q2[|q3[|q4[|]]]]]]; try discriminate L5.
    destruct q0, q1, q2, q3, q4; try discriminate H; reflexivity. }
  rewrite D. clear D.
  pose proof (src_oam (firstn 321 b) (skipn 321 b) (set_head fr0 T16_OAM dir) L1) as S1.
  rewrite firstn_skipn in S1. rewrite S1, (sym_oam _ _ L1 W1). unfold ok.
  assert (G : gather b doam = gather (firstn 321 b) doam).
  { rewrite <- (firstn_skipn 321 b) at 1. apply gather_src. rewrite L1. reflexivity. }
  assert (C : sub b 17 15 = sub (firstn 321 b) 17 15).
  { rewrite <- (firstn_skipn 321 b) at 1. apply sub_src. lia. }
  assert (C2 : sub b 314 6 = sub (firstn 321 b) 314 6).
  { rewrite <- (firstn_skipn 321 b) at 1. apply sub_src. lia. }
  rewrite <- G, <- C, <- C2. eexists. split; [reflexivity|].
  assert (LG : length (gather b doam) = 279).
  { rewrite G. generalize (firstn 321 b) L1. intros y Ly. unfold gather, doam. cbn [map concat fst snd seq app Nat.add Nat.mul].
    rewrite !app_length. rewrite !sub_len by lia. reflexivity. }
  assert (LC : length (sub b 17 15) = 15) by (apply sub_len; lia).
  assert (LS : length (sub b 314 6) = 6) by (apply sub_len; lia).
  split.
  - destruct W0 as (Wc & Wd & Wt & Ws & Wm & Wr & Wx). unfold tf_wf, set_head. cbn [tf_c tf_d tf_t tf_s tf_m tf_crc tf_xc].
    rewrite !app_length, !skipn_length, LG, LC. repeat split; lia.
  - unfold set_head. cbn [tf_type tf_dir tf_ta tf_c tf_d tf_t tf_s tf_m tf_ufi tf_crc tf_xc].
    do 10 (split; [reflexivity|]). reflexivity.
Qed.

Example long_example :
  (let b := repeat false 8 ++ repeat true 32 ++ [false] ++ repeat true 127 in 168 <= length b /\ has_pattern b pat_67) /\
  (let b := repeat false 17 ++ code16 T16_OAM UL ++ repeat true 299 in 321 <= length b /\ type16 (sub b 17 5) = T16_OAM).
Proof.
  split; cbv zeta.
  - split; [apply Nat.leb_le; reflexivity|]. apply pat_has. reflexivity.
  - split; [apply Nat.leb_le; reflexivity|reflexivity].
Qed.
Print Assumptions C20_amr67_long.
Print Assumptions C21_oam_long.
