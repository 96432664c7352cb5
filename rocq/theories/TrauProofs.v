From Coq Require Import List Arith Lia Bool ZArith.
From Verif Require Import Base Spec TrauSpec TrauModel TrauFields.
Import ListNotations.

(** * Locality: a store that succeeds in a buffer does the same in a longer one *)
Definition local (f : bits -> option bits) :=
  forall a r b, f a = Some b -> f (a ++ r) = Some (b ++ r) /\ length b = length a.
Definition local2 (f : bits -> option (Z * bits)) :=
  forall a r n b, f a = Some (n, b) -> f (a ++ r) = Some (n, b ++ r) /\ length b = length a.

Lemma local_put o v : local (fun b => put b o v).
Proof.
  intros a r b H. pose proof (put_length _ _ _ _ H) as L. split; [|exact L]. unfold put in *.
  destruct (Nat.ltb_spec o (length a)); [|discriminate].
  assert (b = firstn o a ++ v :: skipn (S o) a) as -> by congruence.
  destruct (Nat.ltb_spec o (length (a ++ r))); [|rewrite app_length in *; lia].
  rewrite firstn_app, skipn_app. replace (o - length a) with 0 by lia.
  replace (S o - length a) with 0 by lia. cbn [firstn]. change (skipn 0 r) with r.
  rewrite app_nil_r, <- app_assoc. reflexivity.
Qed.
Lemma local_blit o s : local (fun b => blit b o s).
Proof.
  intros a r b H. pose proof (blit_length _ _ _ _ H) as L. split; [|exact L]. unfold blit in *.
  destruct (Nat.leb_spec (o + length s) (length a)); [|discriminate]. injection H as <-.
  destruct (Nat.leb_spec (o + length s) (length (a ++ r))); [|rewrite app_length in *; lia].
  rewrite firstn_app, skipn_app. replace (o - length a) with 0 by lia.
  replace (o + length s - length a) with 0 by lia. cbn [firstn skipn].
  now rewrite app_nil_r, <- !app_assoc.
Qed.
Lemma local_memcpy o s p n : local (fun b => memcpy b o s p n).
Proof. unfold memcpy. destruct (slice s p n); [apply local_blit|discriminate]. Qed.
Lemma local_memset o v n : local (fun b => memset b o v n).
Proof. apply local_blit. Qed.
Lemma local_bind f g : local f -> local g -> local (fun b => do x <- f b; g x).
Proof.
  intros Hf Hg a r b H. destruct (f a) as [x|] eqn:E; [|discriminate].
  destruct (Hf _ r _ E) as [-> L1]. destruct (Hg _ r _ H) as [-> L2]. split; [reflexivity|lia].
Qed.
Lemma local_bind2 f g : local f -> local2 g -> local2 (fun b => do x <- f b; g x).
Proof.
  intros Hf Hg a r n b H. destruct (f a) as [x|] eqn:E; [|discriminate].
  destruct (Hf _ r _ E) as [-> L1]. destruct (Hg _ r _ _ H) as [-> L2]. split; [reflexivity|lia].
Qed.
Lemma local_forM n from body : (forall i, local (body i)) -> local (forM n from body).
Proof.
  intros Hb. revert from. induction n; intros from a r b H; cbn in *.
  - assert (a = b) as -> by congruence. split; reflexivity.
  - destruct (body from a) as [x|] eqn:E; [|discriminate].
    destruct (Hb _ _ r _ E) as [-> L1]. destruct (IHn _ _ r _ H) as [-> L2]. split; [reflexivity|lia].
Qed.
Lemma local_id : local (fun b => Some b).
Proof. intros a r b H. assert (a = b) as -> by congruence. now split. Qed.

(** [slice] of the buffer itself *)
Lemma slice_ext (a r w : bits) o n : slice a o n = Some w -> slice (a ++ r) o n = Some w.
Proof.
  intros H. rewrite slice_app_l; [exact H|].
  unfold slice in H. destruct (Nat.leb_spec (o + n) (length a)); [assumption|discriminate].
Qed.

Ltac loc := repeat first [ apply local_forM; intros ? | apply local_bind
  | apply local_put | apply local_memcpy | apply local_memset | apply local_blit ].

Lemma local_sync16 : local encode_sync16. Proof. unfold encode_sync16; loc. Qed.
Lemma local_sync8 : local encode_sync8. Proof. unfold encode_sync8; loc. Qed.
Lemma local_data9 f d fr : local (data9 f d fr). Proof. unfold data9; loc. Qed.
Lemma local_fr c fr : local (fill16_fr c fr).
Proof. unfold fill16_fr; loc; apply local_sync16. Qed.
Lemma local_amr fr : local (fill16_amr fr).
Proof. unfold fill16_amr; loc; apply local_sync16. Qed.
Lemma local_oam fr : local (fill16_oam fr).
Proof. unfold fill16_oam; loc; apply local_sync16. Qed.
Lemma local_hr fr : local (fill16_hr fr).
Proof. unfold fill16_hr; loc; apply local_sync16. Qed.
Lemma local_data fr : local (fill16_data fr).
Proof. unfold fill16_data; loc; try apply local_sync16; apply local_data9. Qed.
Lemma local_d145 fr : local (fill16_d145_sync fr).
Proof. unfold fill16_d145_sync; loc; apply local_sync16. Qed.
Lemma local_edata fr : local (fill16_edata fr).
Proof. unfold fill16_edata; loc. Qed.
Lemma local_data_hr fr : local (fill16_data_hr fr).
Proof. unfold fill16_data_hr; loc; try apply local_sync16; apply local_data9. Qed.
Lemma local_parity : local (fun b => do p <- compute_odd_parity b 9 4; put b 13 p).
Proof.
  intros a r b H. unfold compute_odd_parity in *. destruct (slice a 9 4) as [w|] eqn:E; [|discriminate].
  rewrite (slice_ext _ r _ _ _ E). apply (local_put _ _ _ r _ H).
Qed.
Lemma local_hr8 fr : local (fill8_hr fr).
Proof.
  unfold fill8_hr. destruct (tf_dir fr); unfold puts; loc; try apply local_sync8.
  apply local_parity.
Qed.
Lemma local_low fr : local (fill8_amr_low fr). Proof. unfold fill8_amr_low; loc. Qed.
Lemma local_67 fr : local (fill8_amr_67 fr). Proof. unfold fill8_amr_67; loc. Qed.
Lemma local_74 fr : local (fill8_amr_74 fr). Proof. unfold fill8_amr_74, puts; loc. Qed.
Lemma local_data8 fr : local (fill8_data fr).
Proof. unfold fill8_data; loc; apply local_sync8. Qed.
Lemma local_oam8 fr : local (fill8_oam fr).
Proof. unfold fill8_oam; loc; apply local_sync8. Qed.

Lemma local2_ret n : local2 (ret n).
Proof. intros a r m b H. unfold ret in *. assert (a = b /\ m = n) as [-> ->] by (split; congruence). now split. Qed.
Lemma local2_ta16 fr : local2 (fun b => encode16_handle_ta b fr).
Proof.
  unfold encode16_handle_ta. destruct (tf_dir fr); [apply (local2_ret 320)|].
  destruct (int_chk (tf_ta fr * 4)); [|discriminate].
  destruct (_ <? _)%Z.
  - apply (local_bind2 _ (ret _)); [loc|apply local2_ret].
  - destruct (_ <? _)%Z; apply (local2_ret _).
Qed.
Lemma local2_ta8 fr : local2 (fun b => encode8_handle_ta b fr).
Proof.
  unfold encode8_handle_ta. destruct (tf_dir fr); [apply (local2_ret 160)|].
  destruct (int_chk (tf_ta fr * 2)); [|discriminate].
  destruct (_ <? _)%Z.
  - apply (local_bind2 _ (ret _)); [loc|apply local2_ret].
  - destruct (_ <? _)%Z; apply (local2_ret _).
Qed.

(** * Symbolic evaluation *)
Lemma tf_symbolic (P : tframe -> Prop) :
  (forall ty dir ta c0 c1 c2 c3 c4 fc fd ft fs fm u fcr fx,
     P (mkTf ty dir ta (c0 :: c1 :: c2 :: c3 :: c4 :: vec 20 fc) (vec 288 fd) (vec 4 ft) (vec 6 fs) (vec 2 fm) u (vec 3 fcr) (vec 6 fx))) ->
  forall fr, tf_wf fr -> P fr.
Proof.
  intros H [ty dir ta c d t s m u cr x] (Hc & Hd & Ht & Hs & Hm & Hcr & Hx).
  cbn [tf_c tf_d tf_t tf_s tf_m tf_crc tf_xc] in *.
  do 5 (destruct c as [|? c]; [discriminate|]). assert (Hc' : length c = 20) by (cbn in Hc; lia).
  rewrite (vec_of_list _ _ Hc'), (vec_of_list _ _ Hd), (vec_of_list _ _ Ht), (vec_of_list _ _ Hs),
    (vec_of_list _ _ Hm), (vec_of_list _ _ Hcr), (vec_of_list _ _ Hx).
  apply H.
Qed.

Ltac conjs := repeat match goal with |- _ /\ _ => apply conj end; reflexivity.
Ltac sym_tf := match goal with |- forall fr, tf_wf fr -> @?P fr => apply (tf_symbolic P) end; intros.
Ltac sym_buf buf H := rewrite (vec_of_list buf _ H); generalize (fun i => nth i buf false); clear H; clear buf; intros ?.

(** "bit o is v" for a list of positions, in computable form *)
Definition pat (b : bits) (l : list (nat * bool)) : Prop :=
  map (fun p => nth_error b (fst p)) l = map (fun p => Some (snd p)) l.

Lemma sym_fr b fr fr0 dir0 x0 x1 x2 x3 : length b = 320 -> tf_wf fr -> tf_wf fr0 ->
  match fr_cbits5 fr with
  | None => True
  | Some code =>
    match fill16_fr code fr b with
    | Some b' => length b' = 320 /\ pat b' pat16 /\ sub b' 316 4 = tf_t fr /\
       osmo_trau_frame_decode_16k fr0 (firstn 316 b' ++ [x0;x1;x2;x3]) dir0 =
       Some (0%Z, mkTf (tf_type fr) dir0 0 (code ++ sub (tf_c fr) 5 16 ++ skipn 21 (tf_c fr0))
          (firstn 260 (tf_d fr) ++ skipn 260 (tf_d fr0)) [x0;x1;x2;x3] (tf_s fr0) (tf_m fr0) (tf_ufi fr0) (tf_crc fr0) (tf_xc fr0))
    | None => False
    end
  end.
Proof.
  intros Hb W W0. sym_buf b Hb. revert fr W. sym_tf. revert fr0 W0. sym_tf.
  destruct ty; lazymatch goal with
  | |- context [T16_FR] => idtac | |- context [T16_EFR] => idtac | |- context [T16_IDLE] => idtac
  | _ => exact I end; destruct dir; vm_compute; conjs.
Qed.

Ltac sym_go b Hb fr W fr0 W0 :=
  sym_buf b Hb; revert fr W; sym_tf; revert fr0 W0; sym_tf.

Lemma sym_amr b fr fr0 dir0 x0 x1 x2 x3 : length b = 320 -> tf_wf fr -> tf_wf fr0 ->
    match fill16_amr fr b with
    | Some b' => length b' = 320 /\ pat b' pat16 /\ sub b' 316 4 = tf_t fr /\
       osmo_trau_frame_decode_16k fr0 (firstn 316 b' ++ [x0;x1;x2;x3]) dir0 =
       Some (0%Z, mkTf T16_AMR dir0 0 (ft_amr_bits ++ sub (tf_c fr) 5 20)
          (firstn 256 (tf_d fr) ++ skipn 256 (tf_d fr0)) [x0;x1;x2;x3] (tf_s fr0) (tf_m fr0) (tf_ufi fr0) (tf_crc fr0) (tf_xc fr0))
    | None => False
    end.
Proof. intros Hb W W0. sym_go b Hb fr W fr0 W0. vm_compute; conjs. Qed.

Definition hr_code (d : fdir) := match d with UL => ft_hr_up_bits | DL => ft_hr_down_bits end.
Lemma sym_hr b fr fr0 dir0 x0 x1 x2 x3 : length b = 320 -> tf_wf fr -> tf_wf fr0 ->
    match fill16_hr fr b with
    | Some b' => length b' = 320 /\ pat b' pat16 /\ sub b' 316 4 = tf_t fr /\
       osmo_trau_frame_decode_16k fr0 (firstn 316 b' ++ [x0;x1;x2;x3]) dir0 =
       Some (0%Z, mkTf T16_HR dir0 0 (hr_code (tf_dir fr) ++ sub (tf_c fr) 5 16 ++ skipn 21 (tf_c fr0))
          (firstn 112 (tf_d fr) ++ skipn 112 (tf_d fr0)) [x0;x1;x2;x3] (tf_s fr0) (tf_m fr0) (tf_ufi fr) (tf_crc fr) (tf_xc fr0))
    | None => False
    end.
Proof. intros Hb W W0. sym_go b Hb fr W fr0 W0. destruct dir; vm_compute; conjs. Qed.

Definition oam_code (d : fdir) := match d with UL => ft_oam_up_bits | DL => ft_oam_down_bits end.
Lemma sym_oam b fr fr0 dir0 : length b = 320 -> tf_wf fr -> tf_wf fr0 ->
    match fill16_oam fr b with
    | Some b' => length b' = 320 /\ pat b' pat16 /\ sub b' 17 5 = oam_code (tf_dir fr) /\
       osmo_trau_frame_decode_16k fr0 b' dir0 = None
    | None => False
    end.
Proof. intros Hb W W0. sym_go b Hb fr W fr0 W0. destruct dir; vm_compute; conjs. Qed.

Definition data_code (d : fdir) := match d with UL => ft_data_up_bits | DL => ft_data_down_bits end.
Lemma sym_data b fr fr0 dir0 : length b = 320 -> tf_wf fr -> tf_wf fr0 ->
    match fill16_data fr b with
    | Some b' => length b' = 320 /\ pat b' pat16 /\
       osmo_trau_frame_decode_16k fr0 b' dir0 =
       Some (0%Z, mkTf T16_DATA dir0 0 (data_code (tf_dir fr) ++ sub (tf_c fr) 5 10 ++ skipn 15 (tf_c fr0))
          (firstn 252 (tf_d fr) ++ skipn 252 (tf_d fr0)) (tf_t fr0) (tf_s fr0) (tf_m fr0) (tf_ufi fr0) (tf_crc fr0) (tf_xc fr0))
    | None => False
    end.
Proof. intros Hb W W0. sym_go b Hb fr W fr0 W0. destruct dir; vm_compute; conjs. Qed.

Lemma sym_d145 b fr fr0 dir0 : length b = 320 -> tf_wf fr -> tf_wf fr0 ->
    match fill16_d145_sync fr b with
    | Some b' => length b' = 320 /\ pat b' pat16 /\
       osmo_trau_frame_decode_16k fr0 b' dir0 =
       Some (0%Z, mkTf T16_D145_SYNC dir0 0 (ft_d145s_bits ++ sub (tf_c fr) 5 10 ++ skipn 15 (tf_c fr0))
          (repeat true 252 ++ skipn 252 (tf_d fr0)) (tf_t fr0) (tf_s fr0) (tf_m fr0) (tf_ufi fr0) (tf_crc fr0) (tf_xc fr0))
    | None => False
    end.
Proof. intros Hb W W0. sym_go b Hb fr W fr0 W0. vm_compute; conjs. Qed.

Lemma sym_edata b fr fr0 dir0 : length b = 320 -> tf_type fr = T16_EDATA -> tf_wf fr -> tf_wf fr0 ->
    match fill16_edata fr b with
    | Some b' => length b' = 320 /\ pat b' pat_edata /\
       osmo_trau_frame_decode_16k fr0 b' dir0 =
       Some (0%Z, mkTf T16_EDATA dir0 0 (ft_edata_bits ++ sub (tf_c fr) 5 8 ++ skipn 13 (tf_c fr0))
          (tf_d fr) (tf_t fr0) (tf_s fr0) (tf_m fr) (tf_ufi fr0) (tf_crc fr0) (tf_xc fr0))
    | None => False
    end.
Proof.
  intros Hb HT W W0. revert HT. sym_go b Hb fr W fr0 W0. cbn [tf_type] in HT. subst ty.
  vm_compute; conjs.
Qed.

Definition data_hr_code (d : fdir) := match d with UL => ft_data_hr_up_bits | DL => ft_data_hr_down_bits end.
Lemma sym_data_hr b fr fr0 dir0 : length b = 320 -> tf_wf fr -> tf_wf fr0 ->
    match fill16_data_hr fr b with
    | Some b' => length b' = 320 /\ pat b' pat16 /\
       osmo_trau_frame_decode_16k fr0 b' dir0 =
       Some (0%Z, mkTf T16_DATA_HR dir0 0 (data_hr_code (tf_dir fr) ++ sub (tf_c fr) 5 10 ++ skipn 15 (tf_c fr0))
          (firstn 126 (tf_d fr) ++ skipn 126 (tf_d fr0)) (tf_t fr0) (tf_s fr0) (tf_m fr0) (tf_ufi fr0) (tf_crc fr0) (tf_xc fr0))
    | None => False
    end.
Proof. intros Hb W W0. sym_go b Hb fr W fr0 W0. destruct dir; vm_compute; conjs. Qed.

(** 8k: speech *)
Definition speech8_code (fr : tframe) : bits :=
  match tf_dir fr with
  | UL => [false;false;false;true;false]
  | DL => let u := nth 3 (tf_c fr) false in [false;false;false;u;negb u]
  end.
Lemma sym_speech8 b fr fr0 x0 x1 : length b = 160 -> tf_wf fr -> tf_wf fr0 ->
    match fill8_hr fr b with
    | Some b' => length b' = 160 /\ pat b' pat8 /\ sub b' 158 2 = firstn 2 (tf_t fr) /\
       osmo_trau_frame_decode_8k fr0 (firstn 158 b' ++ [x0;x1]) (tf_dir fr) =
       Some (0%Z, mkTf T8_SPEECH (tf_dir fr) 0 (speech8_code fr ++ sub (tf_c fr) 5 4 ++ skipn 9 (tf_c fr0))
          (firstn 112 (tf_d fr) ++ skipn 112 (tf_d fr0)) (x0 :: x1 :: skipn 2 (tf_t fr0)) (tf_s fr0) (tf_m fr0) (tf_ufi fr0)
          (tf_crc fr) (tf_xc fr))
    | None => False
    end.
Proof. intros Hb W W0. sym_go b Hb fr W fr0 W0. destruct dir, c3; vm_compute; conjs. Qed.

Lemma sym_low b fr fr0 dir0 : length b = 160 -> tf_wf fr -> tf_wf fr0 ->
    match fill8_amr_low fr b with
    | Some b' => length b' = 160 /\ pat b' pat_low /\
       osmo_trau_frame_decode_8k fr0 b' dir0 =
       Some (0%Z, mkTf T8_AMR_LOW dir0 0 (firstn 5 (tf_c fr) ++ skipn 5 (tf_c fr0))
          (firstn 126 (tf_d fr) ++ skipn 126 (tf_d fr0)) (firstn 1 (tf_t fr) ++ skipn 1 (tf_t fr0)) (tf_s fr0) (tf_m fr0) (tf_ufi fr0)
          (tf_crc fr0) (tf_xc fr0))
    | None => False
    end.
Proof. intros Hb W W0. sym_go b Hb fr W fr0 W0. destruct dir0; vm_compute; conjs. Qed.

Lemma sym_74 b fr fr0 dir0 : length b = 160 -> tf_wf fr -> tf_wf fr0 ->
    match fill8_amr_74 fr b with
    | Some b' => length b' = 160 /\ pat b' pat_74 /\
       osmo_trau_frame_decode_8k fr0 b' dir0 =
       Some (0%Z, mkTf T8_AMR_7k4 dir0 0 (firstn 3 (tf_c fr) ++ skipn 3 (tf_c fr0))
          (firstn 151 (tf_d fr) ++ skipn 151 (tf_d fr0)) (tf_t fr0) (tf_s fr0) (tf_m fr0) (tf_ufi fr0)
          (tf_crc fr0) (tf_xc fr0))
    | None => False
    end.
Proof. intros Hb W W0. sym_go b Hb fr W fr0 W0. destruct dir0; vm_compute; conjs. Qed.

(** 6.7: needs 168 bits of buffer *)
Lemma sym_67 b fr : length b = 168 -> tf_wf fr ->
    match fill8_amr_67 fr b with Some b' => length b' = 168 | None => False end.
Proof. intros Hb W. sym_buf b Hb. revert fr W. sym_tf. vm_compute; conjs. Qed.

Definition data8_code (d : fdir) (c : bits) : Prop :=
  match d with UL => firstn 5 c = [false;false;true;true;true] | DL => firstn 3 c = [false;false;true] end.
Definition oam8_code (d : fdir) (c : bits) : Prop :=
  match d with UL => firstn 5 c = [false;true;false;true;true] | DL => firstn 3 c = [false;true;false] end.

Lemma sym_data8_p b fr : length b = 160 -> tf_wf fr ->
    match fill8_data fr b with
    | Some b' => length b' = 160 /\ pat b' pat8
    | None => False
    end.
Proof. intros Hb W. sym_buf b Hb. revert fr W. sym_tf. vm_compute; conjs. Qed.
Lemma sym_oam8_p b fr : length b = 160 -> tf_wf fr ->
    match fill8_oam fr b with
    | Some b' => length b' = 160 /\ pat b' pat8
    | None => False
    end.
Proof. intros Hb W. sym_buf b Hb. revert fr W. sym_tf. vm_compute; conjs. Qed.

Lemma sym_data8 b fr fr0 : length b = 160 -> tf_wf fr -> tf_wf fr0 -> data8_code (tf_dir fr) (tf_c fr) ->
    match fill8_data fr b with
    | Some b' => length b' = 160 /\ pat b' pat8 /\
       osmo_trau_frame_decode_8k fr0 b' (tf_dir fr) =
       Some (0%Z, mkTf T8_DATA (tf_dir fr) 0 (firstn 5 (tf_c fr) ++ skipn 5 (tf_c fr0))
          (firstn 126 (tf_d fr) ++ skipn 126 (tf_d fr0)) (tf_t fr0) (tf_s fr0) (tf_m fr0) (tf_ufi fr0)
          (tf_crc fr0) (tf_xc fr0))
    | None => False
    end.
Proof.
  intros Hb W W0 HC. revert HC. sym_go b Hb fr W fr0 W0. destruct dir; cbn in HC.
  - injection HC as -> -> -> -> ->. vm_compute; conjs.
  - injection HC as -> -> ->. destruct c3, c4; vm_compute; conjs.
Qed.
Lemma sym_oam8 b fr fr0 : length b = 160 -> tf_wf fr -> tf_wf fr0 -> oam8_code (tf_dir fr) (tf_c fr) ->
    match fill8_oam fr b with
    | Some b' => length b' = 160 /\ pat b' pat8 /\
       osmo_trau_frame_decode_8k fr0 b' (tf_dir fr) =
       Some (0%Z, mkTf T8_OAM (tf_dir fr) 0 (firstn 5 (tf_c fr) ++ skipn 5 (tf_c fr0))
          (firstn 120 (tf_d fr) ++ skipn 120 (tf_d fr0)) (tf_t fr0) (tf_s fr0) (tf_m fr0) (tf_ufi fr0)
          (tf_crc fr0) (tf_xc fr))
    | None => False
    end.
Proof.
  intros Hb W W0 HC. revert HC. sym_go b Hb fr W fr0 W0. destruct dir; cbn in HC.
  - injection HC as -> -> -> -> ->. vm_compute; conjs.
  - injection HC as -> -> ->. destruct c3, c4; vm_compute; conjs.
Qed.

(** * Decoders on arbitrary input *)
Lemma split17 n b : length b = 22 + n ->
  exists p b0 b1 b2 b3 b4 q, b = vec 17 p ++ b0 :: b1 :: b2 :: b3 :: b4 :: vec n q.
Proof.
  intros Hb. rewrite <- (firstn_skipn 17 b).
  assert (L1 : length (firstn 17 b) = 17) by (rewrite firstn_length; lia).
  assert (L2 : length (skipn 17 b) = 5 + n) by (rewrite skipn_length; lia).
  rewrite (vec_of_list _ _ L1). destruct (skipn 17 b) as [|b0[|b1[|b2[|b3[|b4 r]]]]]; try discriminate.
  cbn [length] in L2. assert (L3 : length r = n) by lia. rewrite (vec_of_list _ _ L3).
  repeat eexists.
Qed.

Definition lens (f : tframe) := (length (tf_c f), length (tf_d f), length (tf_t f), length (tf_s f), length (tf_m f), length (tf_crc f), length (tf_xc f)).
Lemma lens_wf f : lens f = (25, 288, 4, 6, 2, 3, 6) -> tf_wf f.
Proof. unfold lens, tf_wf. intros H; injection H as -> -> -> -> -> -> ->. repeat split. Qed.

Lemma decode16_total_m b fr0 dir : length b = 320 -> tf_wf fr0 ->
  match osmo_trau_frame_decode_16k fr0 b dir with
  | Some (rc, fr') => lens fr' = (25, 288, 4, 6, 2, 3, 6) /\ tf_dir fr' = dir /\ tf_ta fr' = 0%Z /\
      tf_type fr' = type16 (sub b 17 5) /\
      (rc = match type16 (sub b 17 5) with FT_NONE => EINVAL | _ => 0%Z end)
  | None => type16 (sub b 17 5) = T16_OAM
  end.
Proof.
  intros Hb W0. destruct (split17 298 b Hb) as (p & b0 & b1 & b2 & b3 & b4 & q & ->). clear Hb.
  revert fr0 W0. sym_tf.
  destruct b0, b1, b2, b3, b4; vm_compute; conjs.
Qed.

Lemma decode16_oam_none b fr0 dir : length b = 320 -> tf_wf fr0 ->
  match type16 (sub b 17 5) with T16_OAM => osmo_trau_frame_decode_16k fr0 b dir = None | _ => True end.
Proof.
  intros Hb W0. destruct (split17 298 b Hb) as (p & b0 & b1 & b2 & b3 & b4 & q & ->). clear Hb.
  revert fr0 W0. sym_tf.
  destruct b0, b1, b2, b3, b4; vm_compute; first [exact I | reflexivity].
Qed.

Lemma decode16_oam_321 b fr0 dir : length b = 321 -> tf_wf fr0 ->
  match osmo_trau_frame_decode_16k fr0 b dir with
  | Some (rc, fr') => lens fr' = (25, 288, 4, 6, 2, 3, 6)
  | None => False
  end.
Proof.
  intros Hb W0. destruct (split17 299 b Hb) as (p & b0 & b1 & b2 & b3 & b4 & q & ->). clear Hb.
  revert fr0 W0. sym_tf.
  destruct b0, b1, b2, b3, b4; vm_compute; conjs.
Qed.

(** patterns *)
Lemma pat_has b l : pat b l -> has_pattern b l.
Proof.
  unfold pat, has_pattern. induction l as [|[o v] l IH]; intros H o' v' HI; [contradiction|].
  cbn in H. injection H as H1 H2. destruct HI as [E|HI]; [|now apply IH].
  injection E as <- <-. exact H1.
Qed.
Lemma has_pattern_cons b o v l : has_pattern b ((o, v) :: l) <-> nth_error b o = Some v /\ has_pattern b l.
Proof.
  unfold has_pattern. split.
  - intros H. split; [apply H; now left|]. intros. apply H. now right.
  - intros [H1 H2] o' v' [E|HI]; [injection E as <- <-; exact H1|now apply H2].
Qed.
Lemma has_pattern_app b l l' : has_pattern b (l ++ l') <-> has_pattern b l /\ has_pattern b l'.
Proof.
  unfold has_pattern. split.
  - intros H. split; intros; apply H; apply in_or_app; tauto.
  - intros [H1 H2] o v HI. apply in_app_or in HI. destruct HI; auto.
Qed.
Lemma has_pattern_prefix b r l n : length b = n -> (forall o v, In (o, v) l -> o < n) ->
  has_pattern b l -> has_pattern (b ++ r) l.
Proof. intros L Hn H o v HI. rewrite nth_error_app1; [now apply H|]. rewrite L. eapply Hn, HI. Qed.

Lemma check_bits_spec b l : (forall o v, In (o, v) l -> o < length b) ->
  exists r, check_bits b l = Some r /\ (r = true <-> has_pattern b l).
Proof.
  induction l as [|[o v] l IH]; intros H.
  - exists true. split; [reflexivity|]. split; [intros _ ? ? []|reflexivity].
  - cbn [check_bits]. unfold get. pose proof (H o v (or_introl eq_refl)) as Ho.
    destruct (nth_error b o) as [x|] eqn:E; [|apply nth_error_None in E; lia].
    destruct (Bool.eqb_spec x v) as [->|N].
    + destruct IH as (r & Hr & Hs); [intros; eapply H; right; eassumption|].
      exists r. split; [exact Hr|]. rewrite has_pattern_cons. tauto.
    + exists false. split; [reflexivity|]. rewrite has_pattern_cons. split; [discriminate|].
      intros [E' _]. congruence.
Qed.

Lemma zero8_spec b : 8 <= length b -> exists r, zero8 b = Some r /\ (r = true <-> has_pattern b (every 0 1 8 false)).
Proof.
  intros H. do 8 (destruct b as [|? b]; [cbn in H; lia|]).
  unfold zero8. rewrite slice_some by (cbn; lia). eexists. split; [reflexivity|].
  unfold every. cbn [seq map Nat.add Nat.mul]. cbn [skipn firstn forallb].
  destruct b0, b1, b2, b3, b4, b5, b6, b7; cbn; split; try discriminate; try reflexivity;
  try (intros P; exfalso; match type of P with has_pattern (?a0 :: ?a1 :: ?a2 :: ?a3 :: ?a4 :: ?a5 :: ?a6 :: ?a7 :: _) _ =>
    pose proof (P 0 false ltac:(cbn; tauto)); pose proof (P 1 false ltac:(cbn; tauto));
    pose proof (P 2 false ltac:(cbn; tauto)); pose proof (P 3 false ltac:(cbn; tauto));
    pose proof (P 4 false ltac:(cbn; tauto)); pose proof (P 5 false ltac:(cbn; tauto));
    pose proof (P 6 false ltac:(cbn; tauto)); pose proof (P 7 false ltac:(cbn; tauto)); cbn in *; congruence end).
  intros _ o v HI. cbn in HI. decompose [or] HI; try contradiction;
    match goal with E : (_, _) = (_, _) |- _ => injection E as <- <- end; reflexivity.
Qed.

Lemma pos_bound (l : list (nat * bool)) n : forallb (fun p => fst p <? n) l = true -> forall o v, In (o, v) l -> o < n.
Proof. intros H o v HI. rewrite forallb_forall in H. apply H in HI. now apply Nat.ltb_lt in HI. Qed.

Lemma zpat_spec b l : length b = 160 -> forallb (fun p => fst p <? 160) l = true ->
  exists r, (do z <- zero8 b; if z then check_bits b l else Some false) = Some r /\
    (r = true <-> has_pattern b (every 0 1 8 false ++ l)).
Proof.
  intros L Hl. destruct (zero8_spec b) as (z & -> & Hz); [lia|].
  destruct z.
  - destruct (check_bits_spec b l) as (r & Hr & Hs); [rewrite L; now apply pos_bound|].
    exists r. split; [exact Hr|]. rewrite has_pattern_app. tauto.
  - exists false. split; [reflexivity|]. rewrite has_pattern_app. split; [discriminate|]. intros [H _]. now apply Hz in H.
Qed.
Lemma is_hr_spec b : length b = 160 -> exists r, is_hr b = Some r /\ (r = true <-> has_pattern b pat8).
Proof. intros L. apply zpat_spec; [assumption|reflexivity]. Qed.
Lemma is_low_spec b : length b = 160 -> exists r, is_amr_low b = Some r /\ (r = true <-> has_pattern b pat_low).
Proof. intros L. apply zpat_spec; [assumption|reflexivity]. Qed.
Lemma is_67_spec b : length b = 160 -> exists r, is_amr_67 b = Some r /\ (r = true <-> has_pattern b pat_67).
Proof. intros L. apply zpat_spec; [assumption|reflexivity]. Qed.
Lemma is_74_spec b : length b = 160 -> exists r, is_amr_74 b = Some r /\ (r = true <-> has_pattern b pat_74).
Proof. intros L. apply check_bits_spec. rewrite L. now apply pos_bound. Qed.

Definition good (fr0 : tframe) (r : option tframe) : Prop :=
  match r with Some fr' => lens fr' = (25, 288, 4, 6, 2, 3, 6) /\ tf_dir fr' = tf_dir fr0 /\ tf_ta fr' = tf_ta fr0 /\ tf_type fr' = tf_type fr0
  | None => False end.
Lemma good_all b fr0 : length b = 160 -> tf_wf fr0 ->
  good fr0 (decode8_hr fr0 b) /\ good fr0 (decode8_data fr0 b) /\ good fr0 (decode8_oam fr0 b) /\
  good fr0 (decode8_amr_low fr0 b) /\ good fr0 (decode8_amr_74 fr0 b) /\ decode8_amr_67 fr0 b = None.
Proof. intros Hb W0. sym_buf b Hb. revert fr0 W0. sym_tf. vm_compute; conjs. Qed.

(** * Encoders on buffers of any length *)
Lemma lift (f : bits -> option bits) n (P : bits -> Prop) :
  local f ->
  (forall b, length b = n -> match f b with Some b' => length b' = n /\ P b' | None => False end) ->
  forall b, n <= length b ->
  exists b', f b = Some b' /\ length b' = length b /\ skipn n b' = skipn n b /\ P (firstn n b').
Proof.
  intros Hl H b Hn. pose proof (H (firstn n b)) as H1.
  assert (L : length (firstn n b) = n) by (rewrite firstn_length; lia). specialize (H1 L).
  destruct (f (firstn n b)) as [x|] eqn:E; [|contradiction]. destruct H1 as [Lx Px].
  destruct (Hl _ (skipn n b) _ E) as [E' _]. rewrite firstn_skipn in E'.
  exists (x ++ skipn n b). split; [exact E'|]. split; [rewrite app_length, skipn_length; lia|].
  rewrite firstn_app_exact, skipn_app_exact by assumption. now split.
Qed.

Lemma int_chk_some z : (-2147483648 <= z <= 2147483647)%Z -> int_chk z = Some z.
Proof.
  intros H. unfold int_chk.
  destruct (Z.leb_spec (-2147483648) z), (Z.leb_spec z 2147483647); cbn; lia || reflexivity.
Qed.

(** bits added by the downlink timing alignment *)
Definition ta16 (fr : tframe) : Z :=
  match tf_dir fr with UL => 0%Z | DL =>
    let q := Z.quot (tf_ta fr * 4) 250 in
    if (312 <? q)%Z then 39%Z else if (q <? -4)%Z then (-4)%Z else q end.
Definition ta8 (fr : tframe) : Z :=
  match tf_dir fr with UL => 0%Z | DL =>
    let q := Z.quot (tf_ta fr * 2) 250 in
    if (158 <? q)%Z then 158%Z else if (q <? -2)%Z then (-2)%Z else q end.
Lemma ta16_range fr : (-4 <= ta16 fr <= 312)%Z.
Proof.
  unfold ta16. destruct (tf_dir fr); [lia|]. cbv zeta.
  destruct (Z.ltb_spec 312 (Z.quot (tf_ta fr * 4) 250)); [lia|].
  destruct (Z.ltb_spec (Z.quot (tf_ta fr * 4) 250) (-4)); lia.
Qed.
Lemma ta8_range fr : (-2 <= ta8 fr <= 158)%Z.
Proof.
  unfold ta8. destruct (tf_dir fr); [lia|]. cbv zeta.
  destruct (Z.ltb_spec 158 (Z.quot (tf_ta fr * 2) 250)); [lia|].
  destruct (Z.ltb_spec (Z.quot (tf_ta fr * 2) 250) (-2)); lia.
Qed.

Definition padded (b : bits) (o : nat) (k : Z) : bits := splice b o (repeat true (Z.to_nat k)).
Lemma padded_neg b o k : (k <= 0)%Z -> padded b o k = b.
Proof. intros. unfold padded. replace (Z.to_nat k) with 0 by lia. apply splice_nil. Qed.

Lemma handle16 b fr : ta_ok fr -> 632 <= length b ->
  encode16_handle_ta b fr = Some ((320 + ta16 fr)%Z, padded b 320 (ta16 fr)).
Proof.
  intros HT HL. unfold encode16_handle_ta, ta16, ta_ok in *. destruct (tf_dir fr).
  { now rewrite padded_neg by lia. }
  rewrite int_chk_some by lia. cbv zeta. set (q := Z.quot (tf_ta fr * 4) 250).
  destruct (Z.ltb_spec 312 q).
  - destruct (Z.ltb_spec 0 q); [|lia]. unfold memset.
    rewrite blit_splice by (rewrite repeat_length; lia). reflexivity.
  - destruct (Z.ltb_spec 0 q).
    + destruct (Z.ltb_spec q (-4)); [lia|]. unfold memset.
      rewrite blit_splice by (rewrite repeat_length; lia). reflexivity.
    + destruct (Z.ltb_spec q 0).
      * destruct (Z.ltb_spec q (-4)); now rewrite padded_neg by lia.
      * destruct (Z.ltb_spec q (-4)); [lia|]. replace q with 0%Z by lia. now rewrite padded_neg by lia.
Qed.
Lemma handle8 b fr : ta_ok fr -> 318 <= length b ->
  encode8_handle_ta b fr = Some ((160 + ta8 fr)%Z, padded b 160 (ta8 fr)).
Proof.
  intros HT HL. unfold encode8_handle_ta, ta8, ta_ok in *. destruct (tf_dir fr).
  { now rewrite padded_neg by lia. }
  rewrite int_chk_some by lia. cbv zeta. set (q := Z.quot (tf_ta fr * 2) 250).
  destruct (Z.ltb_spec 158 q).
  - destruct (Z.ltb_spec 0 q); [|lia]. unfold memset.
    rewrite blit_splice by (rewrite repeat_length; lia). reflexivity.
  - destruct (Z.ltb_spec 0 q).
    + destruct (Z.ltb_spec q (-2)); [lia|]. unfold memset.
      rewrite blit_splice by (rewrite repeat_length; lia). reflexivity.
    + destruct (Z.ltb_spec q 0).
      * destruct (Z.ltb_spec q (-2)); now rewrite padded_neg by lia.
      * destruct (Z.ltb_spec q (-2)); [lia|]. replace q with 0%Z by lia. now rewrite padded_neg by lia.
Qed.

Lemma firstn_padded b o k n : n <= o -> o <= length b -> firstn n (padded b o k) = firstn n b.
Proof.
  intros. unfold padded, splice. rewrite firstn_app, firstn_firstn, firstn_length.
  replace (Nat.min n o) with n by lia. replace (n - Nat.min o (length b)) with 0 by lia. now rewrite app_nil_r.
Qed.
Lemma sub_padded b o k : o <= length b -> (0 <= k)%Z ->
  sub (padded b o k) o (Z.to_nat k) = repeat true (Z.to_nat k).
Proof.
  intros. unfold padded, splice, sub.
  rewrite skipn_app_exact by (rewrite firstn_length; lia).
  now rewrite firstn_app_exact by apply repeat_length.
Qed.
Lemma skipn_padded b o k n : o + Z.to_nat k <= length b -> o + Z.to_nat k <= n ->
  skipn n (padded b o k) = skipn n b.
Proof.
  intros. unfold padded, splice. rewrite app_assoc, repeat_length.
  rewrite skipn_app, app_length, firstn_length, repeat_length.
  rewrite skipn_all2 by (rewrite app_length, firstn_length, repeat_length; lia).
  cbn [app]. rewrite skipn_skipn'. f_equal. lia.
Qed.
Lemma padded_length b o k : o + Z.to_nat k <= length b -> length (padded b o k) = length b.
Proof. intros. unfold padded. apply splice_length. rewrite repeat_length. lia. Qed.

(** encoding = filling the frame area, then timing alignment *)
Definition good_fill (f : bits -> option bits) (n : nat) (P : bits -> Prop) : Prop :=
  local f /\ forall b, length b = n -> match f b with Some b' => length b' = n /\ P b' | None => False end.

Lemma enc_ta16 f P b n_bits fr : good_fill f 320 P -> ta_ok fr -> 639 <= n_bits <= length b ->
  exists b', (do x <- f b; encode16_handle_ta x fr) = Some ((320 + ta16 fr)%Z, b') /\
    length b' = length b /\ skipn n_bits b' = skipn n_bits b /\ P (firstn 320 b') /\
    sub b' 320 (Z.to_nat (ta16 fr)) = repeat true (Z.to_nat (ta16 fr)).
Proof.
  intros [Hl Hf] HT HL. destruct (lift f 320 P Hl Hf b) as (x & -> & Lx & Sx & Px); [lia|].
  pose proof (ta16_range fr) as R. rewrite handle16 by (assumption || lia).
  eexists. split; [reflexivity|]. rewrite padded_length by lia. split; [exact Lx|].
  split; [|split].
  - rewrite skipn_padded by lia. replace n_bits with (320 + (n_bits - 320)) by lia.
    rewrite <- !skipn_skipn'. now rewrite Sx.
  - rewrite firstn_padded by lia. exact Px.
  - destruct (Z.leb_spec 0 (ta16 fr)); [apply sub_padded; lia|]. replace (Z.to_nat (ta16 fr)) with 0 by lia. reflexivity.
Qed.
Lemma enc_ta8 f P b n_bits fr : good_fill f 160 P -> ta_ok fr -> 319 <= n_bits <= length b ->
  exists b', (do x <- f b; encode8_handle_ta x fr) = Some ((160 + ta8 fr)%Z, b') /\
    length b' = length b /\ skipn n_bits b' = skipn n_bits b /\ P (firstn 160 b') /\
    sub b' 160 (Z.to_nat (ta8 fr)) = repeat true (Z.to_nat (ta8 fr)).
Proof.
  intros [Hl Hf] HT HL. destruct (lift f 160 P Hl Hf b) as (x & -> & Lx & Sx & Px); [lia|].
  pose proof (ta8_range fr) as R. rewrite handle8 by (assumption || lia).
  eexists. split; [reflexivity|]. rewrite padded_length by lia. split; [exact Lx|].
  split; [|split].
  - rewrite skipn_padded by lia. replace n_bits with (160 + (n_bits - 160)) by lia.
    rewrite <- !skipn_skipn'. now rewrite Sx.
  - rewrite firstn_padded by lia. exact Px.
  - destruct (Z.leb_spec 0 (ta8 fr)); [apply sub_padded; lia|]. replace (Z.to_nat (ta8 fr)) with 0 by lia. reflexivity.
Qed.
Lemma enc_ret f P n b n_bits : good_fill f n P -> n <= n_bits <= length b ->
  exists b', (do x <- f b; ret (Z.of_nat n) x) = Some (Z.of_nat n, b') /\
    length b' = length b /\ skipn n_bits b' = skipn n_bits b /\ P (firstn n b').
Proof.
  intros [Hl Hf] HL. destruct (lift f n P Hl Hf b) as (x & -> & Lx & Sx & Px); [lia|].
  exists x. split; [reflexivity|]. split; [exact Lx|]. split; [|exact Px].
  replace n_bits with (n + (n_bits - n)) by lia. rewrite <- !skipn_skipn'. now rewrite Sx.
Qed.
Lemma enc_67 b n_bits fr : tf_wf fr -> ta_ok fr -> 319 <= n_bits <= length b ->
  exists b', encode8_amr_67 b fr = Some ((160 + ta8 fr)%Z, b') /\
    length b' = length b /\ skipn n_bits b' = skipn n_bits b /\
    sub b' 160 (Z.to_nat (ta8 fr)) = repeat true (Z.to_nat (ta8 fr)).
Proof.
  intros W HT HL. destruct (lift (fill8_amr_67 fr) 168 (fun _ => True) (local_67 fr)) with (b := b) as (x & E & Lx & Sx & _); [|lia|].
  { intros y Ly. pose proof (sym_67 y fr Ly W). destruct (fill8_amr_67 fr y); tauto. }
  unfold encode8_amr_67. rewrite E.
  pose proof (ta8_range fr) as R. rewrite handle8 by (assumption || lia).
  eexists. split; [reflexivity|]. rewrite padded_length by lia. split; [exact Lx|].
  split.
  - rewrite skipn_padded by lia. replace n_bits with (168 + (n_bits - 168)) by lia.
    rewrite <- !skipn_skipn'. now rewrite Sx.
  - destruct (Z.leb_spec 0 (ta8 fr)); [apply sub_padded; lia|]. replace (Z.to_nat (ta8 fr)) with 0 by lia. reflexivity.
Qed.

(** the idle generator's static state *)
Definition idle_done : idle_state := match trau_idle_frame idle_initial with Some (s, _) => s | None => idle_initial end.
Lemma idle_first : trau_idle_frame idle_initial = Some (idle_done, encoded_idle_frame idle_done).
Proof. vm_compute. reflexivity. Qed.
Lemma idle_again : trau_idle_frame idle_done = Some (idle_done, encoded_idle_frame idle_done).
Proof. vm_compute. reflexivity. Qed.
Definition idle_line := encoded_idle_frame idle_done.
Lemma idle_line_length : length idle_line = 320. Proof. vm_compute. reflexivity. Qed.
Lemma idle_line_pat : pat idle_line pat16. Proof. vm_compute. reflexivity. Qed.

Lemma sym_idle fr0 dir0 : tf_wf fr0 ->
  osmo_trau_frame_decode_16k fr0 idle_line dir0 =
       Some (0%Z, mkTf T16_IDLE dir0 0 (ft_idle_down_bits ++ repeat false 6 ++ repeat true 10 ++ skipn 21 (tf_c fr0))
          (repeat true 260 ++ skipn 260 (tf_d fr0)) (repeat true 4) (tf_s fr0) (tf_m fr0) (tf_ufi fr0) (tf_crc fr0) (tf_xc fr0)).
Proof. intros W0. revert fr0 W0. sym_tf. vm_compute. reflexivity. Qed.

Lemma enc_idle st b n_bits : st = idle_initial \/ st = idle_done -> 320 <= n_bits <= length b ->
  exists b', encode16_idle st b = Some (idle_done, (320%Z, b')) /\ length b' = length b /\
    skipn n_bits b' = skipn n_bits b /\ firstn 320 b' = idle_line.
Proof.
  intros Hst HL. unfold encode16_idle.
  assert (E : trau_idle_frame st = Some (idle_done, idle_line)) by (destruct Hst as [->| ->]; [exact idle_first|exact idle_again]).
  rewrite E. cbn [fst snd]. pose proof idle_line_length as L.
  rewrite memcpy_splice by (rewrite ?L; lia).
  assert (E2 : firstn 320 (skipn 0 idle_line) = idle_line) by (change (skipn 0 idle_line) with idle_line; apply firstn_all2; rewrite L; lia).
  rewrite E2. eexists. split; [reflexivity|]. split; [apply splice_length; rewrite L; lia|].
  unfold splice. rewrite L. change (firstn 0 b) with (@nil bool). cbn [app]. change (0 + 320) with 320.
  rewrite firstn_app_exact by exact L. split; [|reflexivity].
  rewrite skipn_app, L, skipn_all2 by (rewrite L; lia). cbn [app]. rewrite skipn_skipn'. f_equal. lia.
Qed.

(** * Per-type description of an encoded frame area *)
Definition dec16 := osmo_trau_frame_decode_16k.
Definition dec8 := osmo_trau_frame_decode_8k.

Definition upd (fr0 : tframe) ty dir c d t m u crc xc : tframe :=
  mkTf ty dir 0 c d t (tf_s fr0) m u crc xc.

Definition area_ok (fr : tframe) (b : bits) : Prop :=
  match tf_type fr with
  | T16_FR | T16_EFR => pat b pat16 /\ sub b 316 4 = tf_t fr /\
      exists code, fr_cbits5 fr = Some code /\ forall fr0 dir0 x0 x1 x2 x3, tf_wf fr0 ->
      dec16 fr0 (firstn 316 b ++ [x0;x1;x2;x3]) dir0 =
      Some (0%Z, upd fr0 (tf_type fr) dir0 (code ++ sub (tf_c fr) 5 16 ++ skipn 21 (tf_c fr0))
          (firstn 260 (tf_d fr) ++ skipn 260 (tf_d fr0)) [x0;x1;x2;x3] (tf_m fr0) (tf_ufi fr0) (tf_crc fr0) (tf_xc fr0))
  | T16_AMR => pat b pat16 /\ sub b 316 4 = tf_t fr /\ forall fr0 dir0 x0 x1 x2 x3, tf_wf fr0 ->
      dec16 fr0 (firstn 316 b ++ [x0;x1;x2;x3]) dir0 =
      Some (0%Z, upd fr0 T16_AMR dir0 (ft_amr_bits ++ sub (tf_c fr) 5 20)
          (firstn 256 (tf_d fr) ++ skipn 256 (tf_d fr0)) [x0;x1;x2;x3] (tf_m fr0) (tf_ufi fr0) (tf_crc fr0) (tf_xc fr0))
  | T16_HR => pat b pat16 /\ sub b 316 4 = tf_t fr /\ forall fr0 dir0 x0 x1 x2 x3, tf_wf fr0 ->
      dec16 fr0 (firstn 316 b ++ [x0;x1;x2;x3]) dir0 =
      Some (0%Z, upd fr0 T16_HR dir0 (hr_code (tf_dir fr) ++ sub (tf_c fr) 5 16 ++ skipn 21 (tf_c fr0))
          (firstn 112 (tf_d fr) ++ skipn 112 (tf_d fr0)) [x0;x1;x2;x3] (tf_m fr0) (tf_ufi fr) (tf_crc fr) (tf_xc fr0))
  | T16_OAM => pat b pat16 /\ sub b 17 5 = oam_code (tf_dir fr) /\ forall fr0 dir0, tf_wf fr0 -> dec16 fr0 b dir0 = None
  | T16_DATA => pat b pat16 /\ forall fr0 dir0, tf_wf fr0 -> dec16 fr0 b dir0 =
      Some (0%Z, upd fr0 T16_DATA dir0 (data_code (tf_dir fr) ++ sub (tf_c fr) 5 10 ++ skipn 15 (tf_c fr0))
          (firstn 252 (tf_d fr) ++ skipn 252 (tf_d fr0)) (tf_t fr0) (tf_m fr0) (tf_ufi fr0) (tf_crc fr0) (tf_xc fr0))
  | T16_EDATA => pat b pat_edata /\ forall fr0 dir0, tf_wf fr0 -> dec16 fr0 b dir0 =
      Some (0%Z, upd fr0 T16_EDATA dir0 (ft_edata_bits ++ sub (tf_c fr) 5 8 ++ skipn 13 (tf_c fr0))
          (tf_d fr) (tf_t fr0) (tf_m fr) (tf_ufi fr0) (tf_crc fr0) (tf_xc fr0))
  | T16_D145_SYNC => pat b pat16 /\ forall fr0 dir0, tf_wf fr0 -> dec16 fr0 b dir0 =
      Some (0%Z, upd fr0 T16_D145_SYNC dir0 (ft_d145s_bits ++ sub (tf_c fr) 5 10 ++ skipn 15 (tf_c fr0))
          (repeat true 252 ++ skipn 252 (tf_d fr0)) (tf_t fr0) (tf_m fr0) (tf_ufi fr0) (tf_crc fr0) (tf_xc fr0))
  | T16_DATA_HR => pat b pat16 /\ forall fr0 dir0, tf_wf fr0 -> dec16 fr0 b dir0 =
      Some (0%Z, upd fr0 T16_DATA_HR dir0 (data_hr_code (tf_dir fr) ++ sub (tf_c fr) 5 10 ++ skipn 15 (tf_c fr0))
          (firstn 126 (tf_d fr) ++ skipn 126 (tf_d fr0)) (tf_t fr0) (tf_m fr0) (tf_ufi fr0) (tf_crc fr0) (tf_xc fr0))
  | T16_IDLE => b = idle_line
  | T8_SPEECH => pat b pat8 /\ sub b 158 2 = firstn 2 (tf_t fr) /\ forall fr0 x0 x1, tf_wf fr0 ->
      dec8 fr0 (firstn 158 b ++ [x0;x1]) (tf_dir fr) =
      Some (0%Z, upd fr0 T8_SPEECH (tf_dir fr) (speech8_code fr ++ sub (tf_c fr) 5 4 ++ skipn 9 (tf_c fr0))
          (firstn 112 (tf_d fr) ++ skipn 112 (tf_d fr0)) (x0 :: x1 :: skipn 2 (tf_t fr0)) (tf_m fr0) (tf_ufi fr0)
          (tf_crc fr) (tf_xc fr))
  | T8_DATA => pat b pat8 /\ forall fr0, tf_wf fr0 -> data8_code (tf_dir fr) (tf_c fr) -> dec8 fr0 b (tf_dir fr) =
      Some (0%Z, upd fr0 T8_DATA (tf_dir fr) (firstn 5 (tf_c fr) ++ skipn 5 (tf_c fr0))
          (firstn 126 (tf_d fr) ++ skipn 126 (tf_d fr0)) (tf_t fr0) (tf_m fr0) (tf_ufi fr0) (tf_crc fr0) (tf_xc fr0))
  | T8_OAM => pat b pat8 /\ forall fr0, tf_wf fr0 -> oam8_code (tf_dir fr) (tf_c fr) -> dec8 fr0 b (tf_dir fr) =
      Some (0%Z, upd fr0 T8_OAM (tf_dir fr) (firstn 5 (tf_c fr) ++ skipn 5 (tf_c fr0))
          (firstn 120 (tf_d fr) ++ skipn 120 (tf_d fr0)) (tf_t fr0) (tf_m fr0) (tf_ufi fr0) (tf_crc fr0) (tf_xc fr))
  | T8_AMR_LOW => pat b pat_low /\ forall fr0 dir0, tf_wf fr0 -> dec8 fr0 b dir0 =
      Some (0%Z, upd fr0 T8_AMR_LOW dir0 (firstn 5 (tf_c fr) ++ skipn 5 (tf_c fr0))
          (firstn 126 (tf_d fr) ++ skipn 126 (tf_d fr0)) (firstn 1 (tf_t fr) ++ skipn 1 (tf_t fr0)) (tf_m fr0) (tf_ufi fr0) (tf_crc fr0) (tf_xc fr0))
  | T8_AMR_7k4 => pat b pat_74 /\ forall fr0 dir0, tf_wf fr0 -> dec8 fr0 b dir0 =
      Some (0%Z, upd fr0 T8_AMR_7k4 dir0 (firstn 3 (tf_c fr) ++ skipn 3 (tf_c fr0))
          (firstn 151 (tf_d fr) ++ skipn 151 (tf_d fr0)) (tf_t fr0) (tf_m fr0) (tf_ufi fr0) (tf_crc fr0) (tf_xc fr0))
  | _ => True
  end.

Lemma gf_fr fr code : tf_wf fr -> fr_cbits5 fr = Some code -> tf_type fr = T16_FR \/ tf_type fr = T16_EFR ->
  good_fill (fill16_fr code fr) 320 (area_ok fr).
Proof.
  intros W HC HT. split; [apply local_fr|]. intros b Hb.
  assert (S : forall fr0 dir0 x0 x1 x2 x3, tf_wf fr0 -> _) by (intros fr0 dir0 x0 x1 x2 x3 W0; exact (sym_fr b fr fr0 dir0 x0 x1 x2 x3 Hb W W0)).
  rewrite HC in S. unfold area_ok. destruct (fill16_fr code fr b) as [b'|].
  2: { apply (S fr UL true true true true W). }
  destruct (S fr UL true true true true W) as (L & P & T & _). split; [exact L|].
  destruct HT as [HT|HT]; rewrite HT in *; (split; [exact P|]; split; [exact T|]; exists code; split; [exact HC|]);
  intros fr0 dir0 x0 x1 x2 x3 W0; destruct (S fr0 dir0 x0 x1 x2 x3 W0) as (_ & _ & _ & D); exact D.
Qed.

Lemma gf_amr fr : tf_wf fr -> tf_type fr = T16_AMR -> good_fill (fill16_amr fr) 320 (area_ok fr).
Proof.
  intros W HT. split; [apply local_amr|]. intros b Hb. pose proof (fun fr0 d x0 x1 x2 x3 => sym_amr b fr fr0 d x0 x1 x2 x3 Hb W) as S.
  unfold area_ok; rewrite HT. destruct (fill16_amr fr b) as [b'|]; [|apply (S fr UL true true true true W)].
  destruct (S fr UL true true true true W) as (L & P & T & _). split; [exact L|]. split; [exact P|]. split; [exact T|].
  intros fr0 d x0 x1 x2 x3 W0. destruct (S fr0 d x0 x1 x2 x3 W0) as (_ & _ & _ & D). exact D.
Qed.
Lemma gf_hr fr : tf_wf fr -> tf_type fr = T16_HR -> good_fill (fill16_hr fr) 320 (area_ok fr).
Proof.
  intros W HT. split; [apply local_hr|]. intros b Hb. pose proof (fun fr0 d x0 x1 x2 x3 => sym_hr b fr fr0 d x0 x1 x2 x3 Hb W) as S.
  unfold area_ok; rewrite HT. destruct (fill16_hr fr b) as [b'|]; [|apply (S fr UL true true true true W)].
  destruct (S fr UL true true true true W) as (L & P & T & _). split; [exact L|]. split; [exact P|]. split; [exact T|].
  intros fr0 d x0 x1 x2 x3 W0. destruct (S fr0 d x0 x1 x2 x3 W0) as (_ & _ & _ & D). exact D.
Qed.
Lemma gf_oam fr : tf_wf fr -> tf_type fr = T16_OAM -> good_fill (fill16_oam fr) 320 (area_ok fr).
Proof.
  intros W HT. split; [apply local_oam|]. intros b Hb. pose proof (fun fr0 d => sym_oam b fr fr0 d Hb W) as S.
  unfold area_ok; rewrite HT. destruct (fill16_oam fr b) as [b'|]; [|apply (S fr UL W)].
  destruct (S fr UL W) as (L & P & T & _). split; [exact L|]. split; [exact P|]. split; [exact T|].
  intros fr0 d W0. destruct (S fr0 d W0) as (_ & _ & _ & D). exact D.
Qed.
Lemma gf_data fr : tf_wf fr -> tf_type fr = T16_DATA -> good_fill (fill16_data fr) 320 (area_ok fr).
Proof.
  intros W HT. split; [apply local_data|]. intros b Hb. pose proof (fun fr0 d => sym_data b fr fr0 d Hb W) as S.
  unfold area_ok; rewrite HT. destruct (fill16_data fr b) as [b'|]; [|apply (S fr UL W)].
  destruct (S fr UL W) as (L & P & _). split; [exact L|]. split; [exact P|].
  intros fr0 d W0. destruct (S fr0 d W0) as (_ & _ & D). exact D.
Qed.
Lemma gf_d145 fr : tf_wf fr -> tf_type fr = T16_D145_SYNC -> good_fill (fill16_d145_sync fr) 320 (area_ok fr).
Proof.
  intros W HT. split; [apply local_d145|]. intros b Hb. pose proof (fun fr0 d => sym_d145 b fr fr0 d Hb W) as S.
  unfold area_ok; rewrite HT. destruct (fill16_d145_sync fr b) as [b'|]; [|apply (S fr UL W)].
  destruct (S fr UL W) as (L & P & _). split; [exact L|]. split; [exact P|].
  intros fr0 d W0. destruct (S fr0 d W0) as (_ & _ & D). exact D.
Qed.
Lemma gf_edata fr : tf_wf fr -> tf_type fr = T16_EDATA -> good_fill (fill16_edata fr) 320 (area_ok fr).
Proof.
  intros W HT. split; [apply local_edata|]. intros b Hb. pose proof (fun fr0 d => sym_edata b fr fr0 d Hb HT W) as S.
  unfold area_ok; rewrite HT. destruct (fill16_edata fr b) as [b'|]; [|apply (S fr UL W)].
  destruct (S fr UL W) as (L & P & _). split; [exact L|]. split; [exact P|].
  intros fr0 d W0. destruct (S fr0 d W0) as (_ & _ & D). exact D.
Qed.
Lemma gf_data_hr fr : tf_wf fr -> tf_type fr = T16_DATA_HR -> good_fill (fill16_data_hr fr) 320 (area_ok fr).
Proof.
  intros W HT. split; [apply local_data_hr|]. intros b Hb. pose proof (fun fr0 d => sym_data_hr b fr fr0 d Hb W) as S.
  unfold area_ok; rewrite HT. destruct (fill16_data_hr fr b) as [b'|]; [|apply (S fr UL W)].
  destruct (S fr UL W) as (L & P & _). split; [exact L|]. split; [exact P|].
  intros fr0 d W0. destruct (S fr0 d W0) as (_ & _ & D). exact D.
Qed.
Lemma gf_speech8 fr : tf_wf fr -> tf_type fr = T8_SPEECH -> good_fill (fill8_hr fr) 160 (area_ok fr).
Proof.
  intros W HT. split; [apply local_hr8|]. intros b Hb. pose proof (fun fr0 x0 x1 => sym_speech8 b fr fr0 x0 x1 Hb W) as S.
  unfold area_ok; rewrite HT. destruct (fill8_hr fr b) as [b'|]; [|apply (S fr true true W)].
  destruct (S fr true true W) as (L & P & T & _). split; [exact L|]. split; [exact P|]. split; [exact T|].
  intros fr0 x0 x1 W0. destruct (S fr0 x0 x1 W0) as (_ & _ & _ & D). exact D.
Qed.
Lemma gf_low fr : tf_wf fr -> tf_type fr = T8_AMR_LOW -> good_fill (fill8_amr_low fr) 160 (area_ok fr).
Proof.
  intros W HT. split; [apply local_low|]. intros b Hb. pose proof (fun fr0 d => sym_low b fr fr0 d Hb W) as S.
  unfold area_ok; rewrite HT. destruct (fill8_amr_low fr b) as [b'|]; [|apply (S fr UL W)].
  destruct (S fr UL W) as (L & P & _). split; [exact L|]. split; [exact P|].
  intros fr0 d W0. destruct (S fr0 d W0) as (_ & _ & D). exact D.
Qed.
Lemma gf_74 fr : tf_wf fr -> tf_type fr = T8_AMR_7k4 -> good_fill (fill8_amr_74 fr) 160 (area_ok fr).
Proof.
  intros W HT. split; [apply local_74|]. intros b Hb. pose proof (fun fr0 d => sym_74 b fr fr0 d Hb W) as S.
  unfold area_ok; rewrite HT. destruct (fill8_amr_74 fr b) as [b'|]; [|apply (S fr UL W)].
  destruct (S fr UL W) as (L & P & _). split; [exact L|]. split; [exact P|].
  intros fr0 d W0. destruct (S fr0 d W0) as (_ & _ & D). exact D.
Qed.
Lemma gf_data8 fr : tf_wf fr -> tf_type fr = T8_DATA -> good_fill (fill8_data fr) 160 (area_ok fr).
Proof.
  intros W HT. split; [apply local_data8|]. intros b Hb. pose proof (fun fr0 => sym_data8 b fr fr0 Hb W) as S.
  pose proof (sym_data8_p b fr Hb W) as S0.
  unfold area_ok; rewrite HT. destruct (fill8_data fr b) as [b'|]; [|exact S0].
  destruct S0 as (L & P). split; [exact L|]. split; [exact P|].
  intros fr0 W0 HC. destruct (S fr0 W0 HC) as (_ & _ & D). exact D.
Qed.
Lemma gf_oam8 fr : tf_wf fr -> tf_type fr = T8_OAM -> good_fill (fill8_oam fr) 160 (area_ok fr).
Proof.
  intros W HT. split; [apply local_oam8|]. intros b Hb. pose proof (fun fr0 => sym_oam8 b fr fr0 Hb W) as S.
  pose proof (sym_oam8_p b fr Hb W) as S0.
  unfold area_ok; rewrite HT. destruct (fill8_oam fr b) as [b'|]; [|exact S0].
  destruct S0 as (L & P). split; [exact L|]. split; [exact P|].
  intros fr0 W0 HC. destruct (S fr0 W0 HC) as (_ & _ & D). exact D.
Qed.

(** * The encoder as a whole *)
Definition ta_bits (fr : tframe) : Z :=
  match tf_type fr with
  | T16_FR | T16_EFR | T16_HR | T16_AMR => ta16 fr
  | T8_SPEECH | T8_AMR_LOW | T8_AMR_6k7 | T8_AMR_7k4 => ta8 fr
  | _ => 0%Z
  end.

Lemma size_pass n fr r : required (tf_type fr) = Some r -> r <= n -> (encode_size_check n fr <? 0)%Z = false.
Proof.
  intros HR Hn. unfold encode_size_check. destruct (tf_type fr); cbn in HR; try discriminate HR; injection HR as <-;
  (match goal with |- context [n <? ?m] => destruct (Nat.ltb_spec n m) as [Q|Q] end; [cbn in Q; lia|reflexivity]).
Qed.

Lemma encode_all st b n_bits fr r : st = idle_initial \/ st = idle_done -> tf_wf fr -> ta_ok fr ->
  required (tf_type fr) = Some r -> r <= n_bits -> n_bits <= length b ->
  exists st' b', osmo_trau_frame_encode st b n_bits fr =
      Some (st', ((Z.of_nat (frame_len (tf_type fr)) + ta_bits fr)%Z, b')) /\
    (st' = idle_initial \/ st' = idle_done) /\
    length b' = length b /\ skipn n_bits b' = skipn n_bits b /\
    area_ok fr (firstn (frame_len (tf_type fr)) b') /\
    sub b' (frame_len (tf_type fr)) (Z.to_nat (ta_bits fr)) = repeat true (Z.to_nat (ta_bits fr)).
Proof.
  intros Hst W HT HR Hr Hn. unfold osmo_trau_frame_encode. rewrite (size_pass _ _ _ HR Hr).
  cbv zeta. unfold frame_len, ta_bits.
  destruct (tf_type fr) eqn:TY; cbn in HR; try discriminate HR; injection HR as <-.
  - assert (exists code, fr_cbits5 fr = Some code) as [code HC] by (unfold fr_cbits5; rewrite TY; eauto).
    destruct (enc_ta16 _ _ b n_bits fr (gf_fr fr code W HC (or_introl TY)) HT) as (b' & E & ?); [lia|].
    exists st, b'. unfold encode16_fr. rewrite HC, E. auto.
  - destruct (enc_ta16 _ _ b n_bits fr (gf_hr fr W TY) HT) as (b' & E & ?); [lia|].
    exists st, b'. unfold encode16_hr. rewrite E. auto.
  - assert (exists code, fr_cbits5 fr = Some code) as [code HC] by (unfold fr_cbits5; rewrite TY; eauto).
    destruct (enc_ta16 _ _ b n_bits fr (gf_fr fr code W HC (or_intror TY)) HT) as (b' & E & ?); [lia|].
    exists st, b'. unfold encode16_fr. rewrite HC, E. auto.
  - destruct (enc_ta16 _ _ b n_bits fr (gf_amr fr W TY) HT) as (b' & E & ?); [lia|].
    exists st, b'. unfold encode16_amr. rewrite E. auto.
  - destruct (enc_ret _ _ _ b n_bits (gf_oam fr W TY)) as (b' & E & L & S & A); [lia|].
    change (Z.of_nat 320) with 320%Z in *. exists st, b'. unfold encode16_oam. rewrite E. repeat (split; [first [reflexivity|assumption]|]). reflexivity.
  - destruct (enc_ret _ _ _ b n_bits (gf_data fr W TY)) as (b' & E & L & S & A); [lia|].
    change (Z.of_nat 320) with 320%Z in *. exists st, b'. unfold encode16_data. rewrite E. repeat (split; [first [reflexivity|assumption]|]). reflexivity.
  - destruct (enc_ret _ _ _ b n_bits (gf_edata fr W TY)) as (b' & E & L & S & A); [lia|].
    change (Z.of_nat 320) with 320%Z in *. exists st, b'. unfold encode16_edata. rewrite E. repeat (split; [first [reflexivity|assumption]|]). reflexivity.
  - destruct (enc_ret _ _ _ b n_bits (gf_d145 fr W TY)) as (b' & E & L & S & A); [lia|].
    change (Z.of_nat 320) with 320%Z in *. exists st, b'. unfold encode16_d145_sync. rewrite E. repeat (split; [first [reflexivity|assumption]|]). reflexivity.
  - destruct (enc_ret _ _ _ b n_bits (gf_data_hr fr W TY)) as (b' & E & L & S & A); [lia|].
    change (Z.of_nat 320) with 320%Z in *. exists st, b'. unfold encode16_data_hr. rewrite E. repeat (split; [first [reflexivity|assumption]|]). reflexivity.
  - destruct (enc_idle st b n_bits Hst) as (b' & E & L & S & A); [lia|].
    exists idle_done, b'. rewrite E. split; [reflexivity|]. split; [now right|].
    split; [exact L|]. split; [exact S|]. split; [unfold area_ok; rewrite TY; exact A|reflexivity].
  - destruct (enc_ta8 _ _ b n_bits fr (gf_speech8 fr W TY) HT) as (b' & E & ?); [lia|].
    exists st, b'. unfold encode8_hr. rewrite E. auto.
  - destruct (enc_ret _ _ _ b n_bits (gf_data8 fr W TY)) as (b' & E & L & S & A); [lia|].
    change (Z.of_nat 160) with 160%Z in *. exists st, b'. unfold encode8_data. rewrite E. repeat (split; [first [reflexivity|assumption]|]). reflexivity.
  - destruct (enc_ret _ _ _ b n_bits (gf_oam8 fr W TY)) as (b' & E & L & S & A); [lia|].
    change (Z.of_nat 160) with 160%Z in *. exists st, b'. unfold encode8_oam. rewrite E. repeat (split; [first [reflexivity|assumption]|]). reflexivity.
  - destruct (enc_ta8 _ _ b n_bits fr (gf_low fr W TY) HT) as (b' & E & ?); [lia|].
    exists st, b'. unfold encode8_amr_low. rewrite E. auto.
  - destruct (enc_67 b n_bits fr W HT) as (b' & E & L & S & A); [lia|].
    exists st, b'. rewrite E. split; [reflexivity|]. split; [exact Hst|]. split; [exact L|]. split; [exact S|].
    split; [unfold area_ok; rewrite TY; exact I|exact A].
  - destruct (enc_ta8 _ _ b n_bits fr (gf_74 fr W TY) HT) as (b' & E & ?); [lia|].
    exists st, b'. unfold encode8_amr_74. rewrite E. auto.
Qed.

#[global] Opaque idle_done idle_line.
