(** C59: TRAU frames have the published layout. *)
From Coq Require Import List Arith Lia Bool ZArith.
From Verif Require Import Base Spec TrauSpec TrauModel TrauFields TrauProofs TrauProps TrauFigures.
Import ListNotations.

Lemma figure_length ty : length (figure ty) = match ty with FT_NONE | FT_other _ => 0 | _ => frame_len ty end.
Proof. destruct ty; reflexivity. Qed.

(** ** encoder *)
Definition laid (fr : tframe) (b : bits) : Prop := map Some b = map (sent fr) (figure (tf_type fr)).
Ltac fig_go b Hb fr W := sym_buf b Hb; revert fr W; sym_tf.
Lemma fig_fr ty code dir b fr : ty = T16_FR \/ ty = T16_EFR -> length b = 320 -> tf_wf fr -> tf_type fr = ty -> tf_dir fr = dir -> fr_cbits5 fr = Some code ->
  match fill16_fr code fr b with Some b' => length b' = 320 /\ laid fr b' | None => False end.
Proof.
  intros HT Hb W TY DI HC. revert TY DI HC. fig_go b Hb fr W. cbn [tf_type tf_dir] in *. subst. destruct HT as [-> | ->]; destruct dir; injection HC as <-; vm_compute; conjs.
Qed.
Lemma fig_hr_ok b fr : length b = 320 -> tf_wf fr -> tf_type fr = T16_HR -> match fill16_hr fr b with Some b' => length b' = 320 /\ laid fr b' | None => False end.
Proof. intros Hb W TY. revert TY. fig_go b Hb fr W. cbn [tf_type] in *; subst; destruct dir; vm_compute; conjs. Qed.
Lemma fig_amr_ok b fr : length b = 320 -> tf_wf fr -> tf_type fr = T16_AMR -> match fill16_amr fr b with Some b' => length b' = 320 /\ laid fr b' | None => False end.
Proof. intros Hb W TY. revert TY. fig_go b Hb fr W. cbn [tf_type] in *; subst; destruct dir; vm_compute; conjs. Qed.
Lemma fig_data_ok b fr : length b = 320 -> tf_wf fr -> tf_type fr = T16_DATA -> match fill16_data fr b with Some b' => length b' = 320 /\ laid fr b' | None => False end.
Proof. intros Hb W TY. revert TY. fig_go b Hb fr W. cbn [tf_type] in *; subst; destruct dir; vm_compute; conjs. Qed.
Lemma fig_edata_ok b fr : length b = 320 -> tf_wf fr -> tf_type fr = T16_EDATA -> match fill16_edata fr b with Some b' => length b' = 320 /\ laid fr b' | None => False end.
Proof. intros Hb W TY. revert TY. fig_go b Hb fr W. cbn [tf_type] in *; subst; destruct dir; vm_compute; conjs. Qed.
Lemma fig_d145_ok b fr : length b = 320 -> tf_wf fr -> tf_type fr = T16_D145_SYNC -> match fill16_d145_sync fr b with Some b' => length b' = 320 /\ laid fr b' | None => False end.
Proof. intros Hb W TY. revert TY. fig_go b Hb fr W. cbn [tf_type] in *; subst; destruct dir; vm_compute; conjs. Qed.
Lemma fig_data_hr_ok b fr : length b = 320 -> tf_wf fr -> tf_type fr = T16_DATA_HR -> match fill16_data_hr fr b with Some b' => length b' = 320 /\ laid fr b' | None => False end.
Proof. intros Hb W TY. revert TY. fig_go b Hb fr W. cbn [tf_type] in *; subst; destruct dir; vm_compute; conjs. Qed.
Lemma fig8_data_ok b fr : length b = 160 -> tf_wf fr -> tf_type fr = T8_DATA -> match fill8_data fr b with Some b' => length b' = 160 /\ laid fr b' | None => False end.
Proof. intros Hb W TY. revert TY. fig_go b Hb fr W. cbn [tf_type] in *; subst; destruct dir; vm_compute; conjs. Qed.
Lemma fig8_low_ok b fr : length b = 160 -> tf_wf fr -> tf_type fr = T8_AMR_LOW -> match fill8_amr_low fr b with Some b' => length b' = 160 /\ laid fr b' | None => False end.
Proof. intros Hb W TY. revert TY. fig_go b Hb fr W. cbn [tf_type] in *; subst; destruct dir; vm_compute; conjs. Qed.
Lemma fig8_74_ok b fr : length b = 160 -> tf_wf fr -> tf_type fr = T8_AMR_7k4 -> match fill8_amr_74 fr b with Some b' => length b' = 160 /\ laid fr b' | None => False end.
Proof. intros Hb W TY. revert TY. fig_go b Hb fr W. cbn [tf_type] in *; subst; destruct dir; vm_compute; conjs. Qed.
Lemma fig8_speech_ok b fr : length b = 160 -> tf_wf fr -> tf_type fr = T8_SPEECH -> match fill8_hr fr b with Some b' => length b' = 160 /\ laid fr b' | None => False end.
Proof.
  intros Hb W TY. revert TY. fig_go b Hb fr W. cbn [tf_type] in *; subst. destruct dir, c3; vm_compute; conjs.
Qed.
(** O&M frames: all but the bits the encoder gets wrong *)
Lemma fig8_oam_ok b fr : length b = 160 -> tf_wf fr -> tf_type fr = T8_OAM -> match fill8_oam fr b with Some b' => length b' = 160 /\ map Some (firstn 159 b') = map (sent fr) (firstn 159 (figure T8_OAM)) | None => False end.
Proof. intros Hb W TY. revert TY. fig_go b Hb fr W. cbn [tf_type] in *; subst; destruct dir; vm_compute; conjs. Qed.
Lemma laid_nth fr b i c : laid fr b -> nth_error (figure (tf_type fr)) i = Some c -> nth_error b i = sent fr c.
Proof.
  intros L H. assert (X : nth_error (map Some b) i = nth_error (map (sent fr) (figure (tf_type fr))) i) by (now rewrite L).
  rewrite !nth_error_map, H in X. cbn [option_map] in X. destruct (nth_error b i); cbn [option_map] in X; congruence.
Qed.

(** every box of the figure of the frame's type holds what it must, whatever the buffer held
    before; O&M, AMR 6.7 and idle frames below *)
Theorem C59_encode : forall st b n_bits fr st' rc b' i c,
  reachable st -> tf_wf fr -> ta_ok fr -> n_bits <= length b ->
  In (tf_type fr) [T16_FR; T16_EFR; T16_HR; T16_AMR; T16_DATA; T16_DATA_HR; T16_EDATA; T16_D145_SYNC; T8_SPEECH; T8_DATA; T8_AMR_LOW; T8_AMR_7k4] ->
  osmo_trau_frame_encode st b n_bits fr = Some (st', (rc, b')) -> (0 <= rc)%Z ->
  nth_error (figure (tf_type fr)) i = Some c -> nth_error b' i = sent fr c.
Proof.
  intros st b n_bits fr st' rc b' i c Hst W HT Hn HI E Hrc F.
  destruct (encode_inv st b n_bits fr st' rc b' Hst W HT Hn E Hrc) as (_ & (r & HR & Hr) & _).
  assert (X : laid fr (firstn (frame_len (tf_type fr)) b')).
  { clear F. unfold osmo_trau_frame_encode in E. rewrite (size_pass _ _ _ HR Hr) in E. cbv zeta in E. change (0 <? 0)%Z with false in E. cbv iota in E. unfold frame_len.
    assert (TA16 : forall f x, good_fill f 320 (laid fr) -> 639 <= n_bits -> (do x <- f b; encode16_handle_ta x fr) = Some x -> laid fr (firstn 320 (snd x))).
    { intros f x G N Y. destruct (enc_ta16 _ _ b n_bits fr G HT) as (y & Z1 & _ & _ & Z2 & _); [lia|]. rewrite Z1 in Y. injection Y as <-. exact Z2. }
    assert (TA8 : forall f x, good_fill f 160 (laid fr) -> 319 <= n_bits -> (do x <- f b; encode8_handle_ta x fr) = Some x -> laid fr (firstn 160 (snd x))).
    { intros f x G N Y. destruct (enc_ta8 _ _ b n_bits fr G HT) as (y & Z1 & _ & _ & Z2 & _); [lia|]. rewrite Z1 in Y. injection Y as <-. exact Z2. }
    assert (RET : forall f n x, good_fill f n (laid fr) -> n <= n_bits -> (do x <- f b; ret (Z.of_nat n) x) = Some x -> laid fr (firstn n (snd x))).
    { intros f n x G N Y. destruct (enc_ret _ _ n b n_bits G) as (y & Z1 & _ & _ & Z2); [lia|]. rewrite Z1 in Y. injection Y as <-. exact Z2. }
    assert (KP : forall x : option (Z * bits), match x with Some x => Some (st, x) | None => None end = Some (st', (rc, b')) -> x = Some (rc, b')) by (intros [x|]; congruence).
    change b' with (snd (rc, b')).
    destruct (tf_type fr) eqn:TY; cbn in HI; try (exfalso; intuition discriminate); cbn in HR; injection HR as <-; apply KP in E.
    - unfold encode16_fr in E. destruct (fr_cbits5 fr) as [code|] eqn:HC; [|unfold fr_cbits5 in HC; rewrite TY in HC; discriminate].
      refine (TA16 _ _ _ Hr E). split; [apply local_fr|]. intros y Ly. apply (fig_fr T16_FR code (tf_dir fr)); auto.
    - refine (TA16 (fill16_hr fr) _ _ Hr E). split; [apply local_hr|]. intros y Ly. now apply fig_hr_ok.
    - unfold encode16_fr in E. destruct (fr_cbits5 fr) as [code|] eqn:HC; [|unfold fr_cbits5 in HC; rewrite TY in HC; discriminate].
      refine (TA16 _ _ _ Hr E). split; [apply local_fr|]. intros y Ly. apply (fig_fr T16_EFR code (tf_dir fr)); auto.
    - refine (TA16 (fill16_amr fr) _ _ Hr E). split; [apply local_amr|]. intros y Ly. now apply fig_amr_ok.
    - refine (RET (fill16_data fr) 320 _ _ Hr E). split; [apply local_data|]. intros y Ly. now apply fig_data_ok.
    - refine (RET (fill16_edata fr) 320 _ _ Hr E). split; [apply local_edata|]. intros y Ly. now apply fig_edata_ok.
    - refine (RET (fill16_d145_sync fr) 320 _ _ Hr E). split; [apply local_d145|]. intros y Ly. now apply fig_d145_ok.
    - refine (RET (fill16_data_hr fr) 320 _ _ Hr E). split; [apply local_data_hr|]. intros y Ly. now apply fig_data_hr_ok.
    - refine (TA8 (fill8_hr fr) _ _ Hr E). split; [apply local_hr8|]. intros y Ly. now apply fig8_speech_ok.
    - refine (RET (fill8_data fr) 160 _ _ Hr E). split; [apply local_data8|]. intros y Ly. now apply fig8_data_ok.
    - refine (TA8 (fill8_amr_low fr) _ _ Hr E). split; [apply local_low|]. intros y Ly. now apply fig8_low_ok.
    - refine (TA8 (fill8_amr_74 fr) _ _ Hr E). split; [apply local_74|]. intros y Ly. now apply fig8_74_ok. }
  pose proof (laid_nth _ _ _ _ X F) as Y. rewrite <- Y.
  assert (L : i < frame_len (tf_type fr)). { assert (i < length (figure (tf_type fr))) by (apply nth_error_Some; congruence). rewrite figure_length in H. unfold frame_len in *. destruct (tf_type fr); lia. }
  symmetry. apply nth_error_firstn. exact L.
Qed.

(** idle frames: the figure of a speech frame with the downlink idle code, C6..C11 zero and
    all else one *)
Definition idle_box (c : cell) : bool :=
  match c with O => false | I => true | C n => if (n <=? 5)%nat then nth (n - 1) (code16 T16_IDLE DL) false else (12 <=? n)%nat | _ => true end.
Transparent idle_done idle_line.
Lemma idle_fig : idle_line = map idle_box (figure T16_IDLE).
Proof. vm_compute. reflexivity. Qed.
Theorem C59_idle : forall st b n_bits fr st' rc b' i c,
  reachable st -> tf_wf fr -> ta_ok fr -> n_bits <= length b -> tf_type fr = T16_IDLE ->
  osmo_trau_frame_encode st b n_bits fr = Some (st', (rc, b')) -> (0 <= rc)%Z ->
  nth_error (figure T16_IDLE) i = Some c -> nth_error b' i = Some (idle_box c).
Proof.
  intros st b n_bits fr st' rc b' i c Hst W HT Hn TY E Hrc F.
  destruct (encode_inv st b n_bits fr st' rc b' Hst W HT Hn E Hrc) as (_ & _ & _ & A & _). unfold area_ok, frame_len in A. rewrite TY in A.
  assert (L : i < 320). { assert (i < length (figure T16_IDLE)) by (apply nth_error_Some; congruence). rewrite figure_length in H. exact H. }
  rewrite <- (nth_error_firstn b' 320 i L), A, idle_fig, nth_error_map, F. reflexivity.
Qed.
(** 8k O&M frames: all boxes but the last, which keeps what the caller's buffer held *)
Theorem C59_oam_8k : forall st b n_bits fr st' rc b' i c,
  tf_wf fr -> n_bits <= length b -> tf_type fr = T8_OAM ->
  osmo_trau_frame_encode st b n_bits fr = Some (st', (rc, b')) -> (0 <= rc)%Z ->
  nth_error (figure T8_OAM) i = Some c -> i < 159 -> nth_error b' i = sent fr c.
Proof.
  intros st b n_bits fr st' rc b' i c W Hn TY E Hrc F Hi. unfold osmo_trau_frame_encode, encode_size_check in E. rewrite TY in E.
  destruct (Nat.ltb_spec n_bits (1 * 20 * 8)) as [N|N]; [cbn in E; injection E as <- <- <-; cbv in Hrc; congruence|]. change (0 <? 0)%Z with false in E. cbv iota zeta in E.
  set (P := fun b' => map Some (firstn 159 b') = map (sent fr) (firstn 159 (figure T8_OAM))).
  assert (G : good_fill (fill8_oam fr) 160 P) by (split; [apply local_oam8|]; intros y Ly; now apply fig8_oam_ok).
  destruct (enc_ret _ _ 160 b n_bits G) as (y & Z1 & _ & _ & Z2); [lia|]. unfold encode8_oam in E. change (Z.of_nat 160) with 160%Z in Z1. rewrite Z1 in E. injection E as <- <- <-. unfold P in Z2. clear P G Z1.
  assert (X : nth_error (map Some (firstn 159 (firstn 160 y))) i = nth_error (map (sent fr) (firstn 159 (figure T8_OAM))) i) by (now rewrite Z2).
  rewrite !nth_error_map, !nth_error_firstn in X by lia. rewrite F in X. cbn [option_map] in X. destruct (nth_error y i); cbn [option_map] in X; congruence.
Qed.
Theorem C59_oam_8k_refuted : exists fr i, tf_wf fr /\ tf_type fr = T8_OAM /\ nth_error (figure T8_OAM) i = Some I /\
  forall v, exists st' b', osmo_trau_frame_encode idle_initial (repeat v 160) 160 fr = Some (st', (160%Z, b')) /\ nth_error b' i = Some v.
Proof. exists (ex_frame T8_OAM UL 0), 159. split; [repeat split|]. split; [reflexivity|]. split; [reflexivity|]. intros []; eexists; eexists; (split; [vm_compute; reflexivity|reflexivity]). Qed.
(** 16k O&M frames: C6..C15 are C1..C10 of the struct, D256 is skipped *)
Theorem C59_oam_16k_refuted : exists fr st' b', tf_wf fr /\ tf_type fr = T16_OAM /\ osmo_trau_frame_encode idle_initial (repeat false 320) 320 fr = Some (st', (320%Z, b')) /\
  (exists i, nth_error (figure T16_OAM) i = Some (C 6) /\ nth_error b' i <> sent fr (C 6)) /\
  (exists i, nth_error (figure T16_OAM) i = Some (D 256) /\ nth_error b' i <> sent fr (D 256)).
Proof.
  exists (mkTf T16_OAM UL 0 (repeat false 5 ++ repeat true 20) (repeat false 255 ++ [true] ++ repeat false 32) (repeat true 4) (repeat false 6) (repeat true 2) true (repeat true 3) (repeat false 6)).
  eexists. eexists. split; [repeat split|]. split; [reflexivity|]. split; [vm_compute; reflexivity|]. split; [exists 22|exists 305]; (split; [reflexivity|]); vm_compute; discriminate.
Qed.
(** AMR 6.7 on 8k: the boxes from octet 3 on are one bit late *)
Theorem C59_amr67_refuted : exists fr st' b', tf_wf fr /\ tf_type fr = T8_AMR_6k7 /\ osmo_trau_frame_encode idle_initial (repeat false 319) 319 fr = Some (st', (160%Z, b')) /\
  exists i, nth_error (figure T8_AMR_6k7) i = Some (D 12) /\ nth_error b' i <> sent fr (D 12).
Proof.
  exists (ex_frame T8_AMR_6k7 UL 0). eexists. eexists. split; [repeat split|]. split; [reflexivity|]. split; [vm_compute; reflexivity|]. exists 25. split; [reflexivity|]. vm_compute. discriminate.
Qed.

(** ** decoder *)
Definition boxes (ty : ftype) : list (nat * cell) := filter (fun p => variable (snd p)) (combine (seq 0 (length (figure ty))) (figure ty)).
Definition told (fr : tframe) (b : bits) : Prop := map (fun p => of_struct fr (snd p)) (boxes (tf_type fr)) = map (fun p => nth_error b (fst p)) (boxes (tf_type fr)).
Lemma in_combine_seq {A} (l : list A) : forall k i c, nth_error l i = Some c -> In (k + i, c) (combine (seq k (length l)) l).
Proof.
  induction l as [|x l IH]; intros k i c H; [destruct i; discriminate|]. cbn [length seq combine]. destruct i as [|i].
  - left. injection H as ->. f_equal. lia.
  - right. rewrite <- plus_n_Sm. apply (IH (Datatypes.S k) i c H).
Qed.
Lemma map_eq_in {A B} (f g : A -> B) l x : map f l = map g l -> In x l -> f x = g x.
Proof. induction l as [|y l IH]; intros H I; [easy|]. cbn [map] in H. injection H as H1 H2. destruct I as [->|I]; auto. Qed.
Lemma told_nth fr b i c : told fr b -> nth_error (figure (tf_type fr)) i = Some c -> variable c = true -> of_struct fr c = nth_error b i.
Proof.
  intros H F V. apply (map_eq_in _ _ _ (i, c) H). apply filter_In. split; [|exact V]. apply (in_combine_seq _ 0 i c F).
Qed.
Lemma decode16_told b fr0 dir : length b = 320 -> tf_wf fr0 ->
  match osmo_trau_frame_decode_16k fr0 b dir with Some (rc, fr') => told fr' b | None => True end.
Proof.
  intros Hb W0. destruct (split17 298 b Hb) as (p & b0 & b1 & b2 & b3 & b4 & q & ->). clear Hb.
  revert fr0 W0. sym_tf. destruct b0, b1, b2, b3, b4; vm_compute; first [exact Logic.I | reflexivity].
Qed.
Lemma decode8_told b fr0 : length b = 160 -> tf_wf fr0 ->
  (forall dir, match decode8_hr (set_head fr0 T8_SPEECH dir) b with Some fr' => told fr' b | None => True end) /\
  (forall dir, match decode8_data (set_head fr0 T8_DATA dir) b with Some fr' => told fr' b | None => True end) /\
  (forall dir, match decode8_oam (set_head fr0 T8_OAM dir) b with Some fr' => told fr' b | None => True end) /\
  (forall dir, match decode8_amr_low (set_head fr0 T8_AMR_LOW dir) b with Some fr' => told fr' b | None => True end) /\
  (forall dir, match decode8_amr_67 (set_head fr0 T8_AMR_6k7 dir) b with Some fr' => told fr' b | None => True end) /\
  (forall dir, match decode8_amr_74 (set_head fr0 T8_AMR_7k4 dir) b with Some fr' => told fr' b | None => True end) /\
  forall dir, told (set_head fr0 FT_NONE dir) b.
Proof.
  intros Hb W0. sym_buf b Hb. revert fr0 W0. sym_tf. repeat (split; [intros dir1; vm_compute; first [exact Logic.I | reflexivity]|]). intros; reflexivity.
Qed.
(** every field of the decoded struct the figure knows is what the line shows in its box *)
Theorem C59_decode_16k : forall b fr0 dir rc fr' i c, length b = 320 -> tf_wf fr0 -> osmo_trau_frame_decode_16k fr0 b dir = Some (rc, fr') ->
  nth_error (figure (tf_type fr')) i = Some c -> variable c = true -> of_struct fr' c = nth_error b i.
Proof. intros b fr0 dir rc fr' i c Hb W E. pose proof (decode16_told b fr0 dir Hb W) as X. rewrite E in X. now apply told_nth. Qed.
Theorem C59_decode_8k : forall b fr0 dir rc fr' i c, length b = 160 -> tf_wf fr0 -> osmo_trau_frame_decode_8k fr0 b dir = Some (rc, fr') ->
  nth_error (figure (tf_type fr')) i = Some c -> variable c = true -> of_struct fr' c = nth_error b i.
Proof.
  intros b fr0 dir rc fr' i c Hb W E. apply told_nth. destruct (decode8_told b fr0 Hb W) as (H1 & H2 & H3 & H4 & H5 & H6 & H7).
  specialize (H1 dir). specialize (H2 dir). specialize (H3 dir). specialize (H4 dir). specialize (H5 dir). specialize (H6 dir). specialize (H7 dir). unfold osmo_trau_frame_decode_8k in E.
  assert (K : forall o, match o with Some f => told f b | None => True end -> ok o = Some (rc, fr') -> told fr' b) by (intros [o|] A B; [injection B as _ <-; exact A|discriminate]).
  assert (N : Some (EINVAL, set_head fr0 FT_NONE dir) = Some (rc, fr') -> told fr' b) by (intros A; injection A as _ <-; exact H7).
  destruct (is_hr b) as [[]|]; [|clear H1 H2 H3|discriminate].
  - destruct (get_bits b 9 5) as [c5|]; [|discriminate]. destruct dir;
      repeat match type of E with (if ?x then _ else _) = _ => destruct x; [eapply K; [|exact E]; assumption|] end; now apply N.
  - destruct (is_amr_low b) as [[]|]; [eapply K; [|exact E]; assumption| |discriminate]. destruct (is_amr_67 b) as [[]|]; [eapply K; [|exact E]; assumption| |discriminate].
    destruct (is_amr_74 b) as [[]|]; [eapply K; [|exact E]; assumption|now apply N|discriminate].
Qed.
Example C59_example : In T16_HR [T16_FR; T16_EFR; T16_HR] /\ tf_wf (ex_frame T16_HR DL 250) /\ ta_ok (ex_frame T16_HR DL 250) /\ nth_error (figure T16_HR) 33 = Some UFI /\
  exists st' b', osmo_trau_frame_encode idle_initial (repeat false 639) 639 (ex_frame T16_HR DL 250) = Some (st', (324%Z, b')) /\ nth_error b' 33 = Some true.
Proof. split; [cbn; tauto|]. split; [repeat split|]. split; [cbv; split; discriminate|]. split; [reflexivity|]. eexists; eexists. split; [vm_compute; reflexivity|reflexivity]. Qed.
