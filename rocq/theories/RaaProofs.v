From Coq Require Import List Arith Lia Bool ZArith.
From Verif Require Import Base Spec RaaModel.
Import ListNotations.

(** ** RA2 *)
Lemma ra2_8k_roundtrip b : ra2_8k_unpack (ra2_8k_pack b) = b.
Proof. induction b as [|[] b IH]; cbn; [reflexivity|..]; f_equal; exact IH. Qed.

Lemma ra2_16k_some n b : length b = 2 * n -> exists r, ra2_16k_pack n b = Some r.
Proof.
  revert b; induction n; intros b H; [now exists []|].
  destruct b as [|x [|y b]]; cbn in H; try lia.
  destruct (IHn b) as [r E]; [lia|]. cbn. rewrite E. eauto.
Qed.

Lemma ra2_16k_roundtrip n b r : length b = 2 * n -> ra2_16k_pack n b = Some r -> ra2_16k_unpack r = b.
Proof.
  revert b r; induction n; intros b r H E.
  - destruct b; [|discriminate]. injection E as <-. reflexivity.
  - destruct b as [|x [|y b]]; cbn in H; try lia. cbn in E. optstep E. injection E as <-.
    specialize (IHn b l ltac:(lia) E0). unfold ra2_16k_unpack in *. cbn [flat_map app]. rewrite IHn.
    now destruct x, y.
Qed.

Lemma ra2_16k_pack_length n b r : ra2_16k_pack n b = Some r -> length r = n.
Proof.
  revert b r; induction n; intros b r E; cbn in E; [injection E as <-; reflexivity|].
  destruct b as [|x [|y b]]; try discriminate. optstep E. injection E as <-. cbn. f_equal. eauto.
Qed.

(** ** Zero windows and the position search *)
Definition zwin (d : bits) (i : nat) : Prop := firstn 8 (skipn i d) = repeat false 8.

Lemma negb_existsb_zeros (w : bits) n : length w = n -> negb (existsb (fun b => b) w) = true <-> w = repeat false n.
Proof.
  intros <-. rewrite negb_true_iff. induction w as [|x w IH]; cbn; [easy|].
  rewrite orb_false_iff, IH. split; [intros [-> H]; f_equal; exact H | intros E; injection E; auto].
Qed.

Lemma is_z_seq_spec d i : i + 8 <= length d -> exists z, is_z_seq d i = Some z /\ (z = true <-> zwin d i).
Proof.
  intros H. unfold is_z_seq. rewrite slice_some by assumption. eexists; split; [reflexivity|].
  unfold zwin. rewrite negb_existsb_zeros; [reflexivity|]. rewrite firstn_length, skipn_length; lia.
Qed.

Fixpoint wf (d : bits) (start : nat) (zs : list nat) : Prop :=
  match zs with
  | [] => forall i, start <= i <= 28 -> ~ zwin d i
  | z :: rest => start <= z <= 28 /\ zwin d z /\ (forall i, start <= i < z -> ~ zwin d i) /\ wf d (z + 8) rest
  end.

Lemma wf_weaken d s zs : s <= 28 -> ~ zwin d s -> wf d (S s) zs -> wf d s zs.
Proof.
  destruct zs; cbn.
  - intros L N H i Hi. destruct (Nat.eq_dec i s) as [->|]; [assumption|]. apply H; lia.
  - intros L N (H1 & H2 & H3 & H4). repeat split; try lia; try assumption.
    intros i Hi. destruct (Nat.eq_dec i s) as [->|]; [assumption|]. apply H3; lia.
Qed.

Lemma find_ok fuel : forall d idx acc, length d = 36 -> 8 * length acc <= idx -> 29 <= fuel + idx ->
  exists zs, find_z_seqs fuel d idx acc = Some (acc ++ zs) /\ wf d idx zs.
Proof.
  induction fuel as [|k IH]; intros d idx acc Hd Ha Hf; cbn [find_z_seqs].
  - exists []. rewrite app_nil_r. split; [reflexivity|]. cbn. intros; lia.
  - destruct (Nat.leb_spec idx 28).
    + destruct (is_z_seq_spec d idx) as (z & -> & Hz); [lia|]. destruct z.
      * destruct (Nat.ltb_spec (length acc) 4); [|lia].
        destruct (IH d (idx + 8) (acc ++ [idx])) as (zs & E & W); [assumption|rewrite app_length; cbn; lia|lia|].
        exists (idx :: zs). rewrite E, <- app_assoc. split; [reflexivity|]. cbn.
        split; [lia|]. split; [now apply Hz|]. split; [intros; lia|assumption].
      * destruct (IH d (S idx) acc) as (zs & E & W); [assumption|lia|lia|].
        exists zs. split; [assumption|]. apply wf_weaken; [assumption| |assumption].
        intros C; apply Hz in C; discriminate.
    + exists []. rewrite app_nil_r. split; [reflexivity|]. cbn; intros; lia.
Qed.

(** sealed, so that conversion never unrolls the search symbolically *)
Lemma zpos_sig : {f : bits -> list nat | forall d, length d = 36 ->
  find_z_seqs 37 d 0 [] = Some (f d) /\ wf d 0 (f d)}.
Proof.
  exists (fun d => match find_z_seqs 37 d 0 [] with Some z => z | None => [] end).
  intros d H. destruct (find_ok 37 d 0 []) as (zs & E & W); [assumption|cbn; lia|lia|].
  rewrite E. auto.
Qed.
Definition zpos : bits -> list nat := proj1_sig zpos_sig.

Lemma zpos_ok d : length d = 36 -> find_z_seqs 37 d 0 [] = Some (zpos d) /\ wf d 0 (zpos d).
Proof. exact (proj2_sig zpos_sig d). Qed.

(** ** The encoder *)
Definition is_nil {A} (l : list A) := match l with [] => true | _ => false end.

Fixpoint body (d : bits) (pos : nat) (zs : list nat) : bits :=
  match zs with
  | [] => skipn pos d
  | z :: rest => encode_zsp z (is_nil rest) ++ firstn (z - pos) (skipn pos d) ++ body d (z + 8) rest
  end.

Definition enc_with (d : bits) (zs : list nat) : bits :=
  match zs with
  | [] => true :: d
  | _ => false :: body d 0 zs
  end.

Definition enc_sub (d : bits) : bits := enc_with d (zpos d).

Lemma encode_zsp_length z f : length (encode_zsp z f) = 8.
Proof. reflexivity. Qed.

Lemma body_length d : length d = 36 -> forall zs pos, pos <= 36 -> wf d pos zs -> length (body d pos zs) = 36 - pos.
Proof.
  intros Hd; induction zs as [|z zs IH]; intros pos Hp W; cbn [body].
  - rewrite skipn_length; lia.
  - destruct W as (H1 & H2 & H3 & H4).
    rewrite !app_length, encode_zsp_length, firstn_length, skipn_length, IH by (assumption || lia). lia.
Qed.

Lemma enc_sub_length d : length d = 36 -> length (enc_sub d) = 37.
Proof.
  intros Hd. unfold enc_sub. destruct (zpos_ok d Hd) as [_ W].
  destruct (zpos d) eqn:E; unfold enc_with; cbn [length]; [lia|]. rewrite body_length by (assumption || lia). reflexivity.
Qed.

Fixpoint endpos (pos : nat) (zs : list nat) : nat :=
  match zs with [] => pos | z :: r => endpos (z + 8) r end.

Fixpoint zspart (d : bits) (pos : nat) (zs : list nat) : bits :=
  match zs with
  | [] => []
  | z :: rest => encode_zsp z (is_nil rest) ++ firstn (z - pos) (skipn pos d) ++ zspart d (z + 8) rest
  end.

Lemma body_split d zs pos : body d pos zs = zspart d pos zs ++ skipn (endpos pos zs) d.
Proof. revert pos; induction zs; intros pos; cbn; [reflexivity|]. now rewrite IHzs, <- !app_assoc. Qed.

Lemma wf_endpos d zs : forall pos, pos <= 36 -> wf d pos zs -> pos <= endpos pos zs <= 36.
Proof.
  induction zs as [|z zs IH]; intros pos Hp W; cbn; [lia|].
  destruct W as (H1 & _ & _ & H4). specialize (IH (z + 8) ltac:(lia) H4). lia.
Qed.

Lemma zspart_length d zs : length d = 36 -> forall pos, pos <= 36 -> wf d pos zs ->
  length (zspart d pos zs) = endpos pos zs - pos.
Proof.
  intros Hd; induction zs as [|z zs IH]; intros pos Hp W; cbn [zspart endpos]; [cbn; lia|].
  destruct W as (H1 & H2 & H3 & H4).
  rewrite !app_length, encode_zsp_length, firstn_length, skipn_length, IH by (assumption || lia).
  pose proof (wf_endpos d zs (z + 8) ltac:(lia) H4). lia.
Qed.

(** the loop writes [zspart] right after what was already written *)
Lemma pack_loop_ok d dp ds zs : slice d dp 36 = Some ds -> forall o op X pos,
  length o >= op + 37 -> pos <= 36 -> length X = S pos -> wf ds pos zs ->
  pack_loop zs (splice o op X) (op + length X) d dp pos
  = Some (splice o op (X ++ zspart ds pos zs), op + length X + (endpos pos zs - pos), endpos pos zs).
Proof.
  intros Hs. pose proof (slice_length _ _ _ _ Hs) as Hds.
  induction zs as [|z zs IH]; intros o op X pos Ho Hp HX W; cbn [pack_loop zspart endpos].
  - rewrite app_nil_r, Nat.sub_diag, Nat.add_0_r. reflexivity.
  - destruct W as (H1 & H2 & H3 & H4).
    assert (Lz := encode_zsp_length z (is_nil zs)).
    fold (@is_nil nat zs).
    change (match zs with [] => true | _ :: _ => false end) with (is_nil zs).
    rewrite blit_splice by (rewrite splice_length; lia).
    rewrite splice_splice by lia.
    destruct (Nat.leb_spec pos z); [|lia].
    assert (Hsl : slice d (dp + pos) (z - pos) = slice ds pos (z - pos)) by (eapply slice_sub; [eassumption|lia]).
    unfold memcpy. rewrite Hsl, slice_some by lia.
    set (w := firstn (z - pos) (skipn pos ds)).
    assert (Lw : length w = z - pos) by (unfold w; rewrite firstn_length, skipn_length; lia).
    replace (op + length X + 8) with (op + length (X ++ encode_zsp z (is_nil zs))) by (rewrite app_length; lia).
    rewrite blit_splice by (rewrite splice_length; rewrite ?app_length; lia).
    rewrite splice_splice by (rewrite ?app_length; lia).
    replace (op + length (X ++ encode_zsp z (is_nil zs)) + (z - pos))
      with (op + length ((X ++ encode_zsp z (is_nil zs)) ++ w)) by (rewrite !app_length; lia).
    replace (pos + (z - pos) + 8) with (z + 8) by lia.
    rewrite IH; [|assumption|lia|rewrite !app_length; lia|assumption].
    pose proof (wf_endpos ds zs (z + 8) ltac:(lia) H4).
    rewrite <- !app_assoc. replace (op + length (X ++ encode_zsp z (is_nil zs) ++ w) + (endpos (z + 8) zs - (z + 8)))
      with (op + length X + (endpos (z + 8) zs - pos)) by (rewrite !app_length; lia). reflexivity.
Qed.

Lemma pack_subframe_ok o op d dp ds : slice d dp 36 = Some ds -> op + 37 <= length o ->
  pack_subframe o op d dp = Some (splice o op (enc_sub ds)).
Proof.
  intros Hs Ho. pose proof (slice_length _ _ _ _ Hs) as Hds.
  unfold pack_subframe. rewrite Hs. destruct (zpos_ok ds Hds) as [-> W].
  unfold enc_sub, enc_with. destruct (zpos ds) as [|z zs] eqn:Ez.
  - rewrite put_splice by lia. unfold memcpy. rewrite Hs.
    rewrite blit_splice by (rewrite splice_length; cbn [length]; lia).
    change (op + 1) with (op + length [true]).
    rewrite (splice_splice o [true] ds op) by (cbn [length]; lia). reflexivity.
  - rewrite put_splice by lia.
    change (op + 1) with (op + length [false]).
    rewrite (pack_loop_ok d dp ds (z :: zs) Hs o op [false] 0) by (try assumption; cbn [length]; lia).
    pose proof (wf_endpos ds (z :: zs) 0 ltac:(lia) W) as Hep.
    pose proof (zspart_length ds (z :: zs) Hds 0 ltac:(lia) W) as Hzl.
    set (ep := endpos 0 (z :: zs)) in *.
    destruct (Nat.leb_spec ep 36); [|lia].
    unfold memcpy. rewrite (slice_sub d ds dp 36 ep (36 - ep) Hs ltac:(lia)). rewrite slice_some by lia.
    rewrite (firstn_all2 (n := 36 - ep)) by (rewrite skipn_length; lia).
    replace (op + length [false] + (ep - 0)) with (op + length ([false] ++ zspart ds 0 (z :: zs)))
      by (rewrite app_length, Hzl; cbn [length]; lia).
    rewrite blit_splice; [rewrite splice_splice|rewrite splice_length];
      rewrite ?app_length, ?skipn_length, ?Hzl; cbn [length]; try lia.
    rewrite body_split. now rewrite <- !app_assoc.
Qed.

(** ** The decoder on encoder output *)
Lemma decode_encode_zsp a ap z f : slice a ap 8 = Some (encode_zsp z f) -> z <= 28 ->
  decode_zsp a ap = Some (inr z) /\ get a (ap + 1) = Some f.
Proof.
  intros H Hz. split; [|erewrite get_sub; [|eassumption|lia]; reflexivity].
  unfold decode_zsp.
  replace (get a ap) with (Some true) by (rewrite <- (Nat.add_0_r ap); erewrite get_sub; [|eassumption|lia]; reflexivity).
  replace (get a (ap + 7)) with (Some true) by (erewrite get_sub; [|eassumption|lia]; reflexivity).
  replace (slice a (ap + 2) 5) with (Some [nbit (z+1) 4; nbit (z+1) 3; nbit (z+1) 2; nbit (z+1) 1; nbit (z+1) 0])
    by (erewrite slice_sub; [|eassumption|lia]; reflexivity).
  clear H. do 29 (destruct z; [reflexivity|]). lia.
Qed.

Lemma skipn_app_add {A} (x y : list A) k : skipn (length x + k) (x ++ y) = skipn k y.
Proof.
  rewrite skipn_app, skipn_all2 by lia. cbn. now replace (length x + k - length x) with k by lia.
Qed.

Lemma slice_of_skipn {A} (s : list A) pos x y : skipn pos s = x ++ y -> pos <= length s ->
  slice s pos (length x) = Some x.
Proof.
  intros H Hp. assert (length (skipn pos s) = length x + length y) by now rewrite H, app_length.
  rewrite skipn_length in H0. rewrite slice_some by lia. rewrite H. now rewrite firstn_app_exact.
Qed.

Lemma skipn_more {A} (s : list A) pos x y : skipn pos s = x ++ y -> skipn (pos + length x) s = y.
Proof. intros H. rewrite <- skipn_skipn', H. now apply skipn_app_exact. Qed.

Lemma zwin_extend ds z : zwin ds z -> z + 8 <= length ds ->
  firstn (z + 8) ds = firstn z ds ++ repeat false 8.
Proof. intros H Hl. unfold zwin in H. rewrite <- H. now rewrite firstn_skipn_comm'. Qed.

Lemma decode_loop_rt a ap sf ds : slice a ap 36 = Some sf -> length ds = 36 ->
  forall zs pos fuel d0 dp,
  zs <> [] -> wf ds pos zs -> pos <= 28 -> skipn pos sf = body ds pos zs ->
  dp + 36 <= length d0 -> 36 <= 8 * fuel + pos ->
  decode_loop fuel (splice d0 dp (firstn pos ds)) dp a ap pos
  = Some (inr (splice d0 dp (firstn (endpos pos zs) ds), endpos pos zs))
  /\ skipn (endpos pos zs) sf = skipn (endpos pos zs) ds.
Proof.
  intros Ha Hds. pose proof (slice_length _ _ _ _ Ha) as Lsf.
  induction zs as [|z zs IH]; intros pos fuel d0 dp Hne W Hp Hb Hd Hf; [congruence|].
  destruct fuel as [|k]; [lia|]. cbn [decode_loop].
  destruct (Nat.ltb_spec 28 pos); [lia|].
  destruct W as (H1 & H2 & H3 & H4). cbn [body] in Hb.
  pose proof (slice_of_skipn sf pos _ _ Hb ltac:(lia)) as Hzsp. rewrite encode_zsp_length in Hzsp.
  rewrite <- (slice_sub a sf ap 36 pos 8 Ha ltac:(lia)) in Hzsp.
  destruct (decode_encode_zsp a (ap + pos) z (is_nil zs) Hzsp ltac:(lia)) as [-> ->].
  destruct (Nat.ltb_spec z pos); [lia|].
  pose proof (skipn_more sf pos _ _ Hb) as Hb2. rewrite encode_zsp_length in Hb2.
  pose proof (slice_of_skipn sf _ _ _ Hb2 ltac:(lia)) as Hdat.
  assert (Lw : length (firstn (z - pos) (skipn pos ds)) = z - pos)
    by (rewrite firstn_length, skipn_length; lia).
  rewrite Lw in Hdat.
  unfold memcpy. replace (ap + 8 + pos) with (ap + (pos + 8)) by lia.
  rewrite (slice_sub a sf ap 36 (pos + 8) (z - pos) Ha ltac:(lia)), Hdat.
  assert (Lf : length (firstn pos ds) = pos) by (rewrite firstn_length; lia).
  rewrite <- Lf at 2.
  rewrite blit_splice by (rewrite splice_length; lia).
  rewrite splice_splice by lia.
  rewrite firstn_skipn_comm'. replace (pos + (z - pos)) with z by lia.
  assert (Lz : length (firstn z ds) = z) by (rewrite firstn_length; lia).
  unfold memset. replace (dp + pos + (z - pos)) with (dp + length (firstn z ds)) by lia.
  rewrite blit_splice by (rewrite ?splice_length, ?repeat_length; lia).
  rewrite splice_splice by (rewrite ?repeat_length; lia).
  rewrite <- (zwin_extend ds z H2) by lia.
  replace (pos + (z - pos + 8)) with (z + 8) by lia.
  pose proof (skipn_more sf _ _ _ Hb2) as Hb3. rewrite Lw in Hb3.
  replace (pos + 8 + (z - pos)) with (z + 8) in Hb3 by lia.
  destruct zs as [|z' zs']; cbn [is_nil].
  - cbn [endpos]. split; [reflexivity|exact Hb3].
  - destruct H4 as (G1 & G). cbn [endpos].
    apply (IH (z + 8) k d0 dp); try congruence; try lia; try assumption. cbn. tauto.
Qed.

Lemma decode_loop_rt0 a ap ds d dp zs : slice a ap 36 = Some (body ds 0 zs) -> length ds = 36 ->
  zs <> [] -> wf ds 0 zs -> dp + 36 <= length d ->
  decode_loop 5 d dp a ap 0 = Some (inr (splice d dp (firstn (endpos 0 zs) ds), endpos 0 zs))
  /\ skipn (endpos 0 zs) (body ds 0 zs) = skipn (endpos 0 zs) ds.
Proof.
  intros. rewrite <- (splice_nil d dp) at 1. change (@nil bool) with (firstn 0 ds).
  generalize (eq_refl : 5 = 5). generalize 5 at 1 3. intros f Hf.
  apply decode_loop_rt; try assumption; try lia; reflexivity.
Qed.

Lemma enc_with_length d zs : length d = 36 -> wf d 0 zs -> length (enc_with d zs) = 37.
Proof.
  intros Hd W. unfold enc_with. destruct zs; cbn [length]; [lia|].
  rewrite body_length by (assumption || lia). reflexivity.
Qed.

Lemma decode_subframe_with d dp a ap ds zs : slice a ap 37 = Some (enc_with ds zs) -> length ds = 36 ->
  wf ds 0 zs -> dp + 36 <= length d ->
  decode_subframe d dp a ap = Some (inr (splice d dp ds)).
Proof.
  intros Ha Hds W Hd. unfold decode_subframe.
  assert (G : get a ap = get (enc_with ds zs) 0) by (rewrite <- (Nat.add_0_r ap) at 1; apply (get_sub _ _ _ _ _ Ha); lia).
  rewrite G. pose proof (slice_sub _ _ _ _ 1 36 Ha ltac:(lia)) as Hs.
  rewrite (slice_some (enc_with ds zs)) in Hs by (rewrite enc_with_length by assumption; lia).
  unfold enc_with in *. destruct zs as [|z zs].
  - cbn [get nth_error]. cbn [skipn] in Hs. rewrite firstn_all2 in Hs by lia.
    unfold memcpy. rewrite Hs, blit_splice by lia. reflexivity.
  - cbn [get nth_error]. cbn [skipn] in Hs.
    rewrite firstn_all2 in Hs by (rewrite body_length by (assumption || lia); lia).
    destruct (decode_loop_rt0 a (ap + 1) ds d dp (z :: zs) Hs Hds ltac:(discriminate) W Hd) as [E1 E2].
    rewrite E1. clear E1.
    pose proof (wf_endpos ds (z :: zs) 0 ltac:(lia) W) as Hep.
    revert E2 Hep. generalize (endpos 0 (z :: zs)) as ep. intros ep E2 Hep.
    destruct (Nat.leb_spec ep 36); [|lia].
    pose proof (slice_length _ _ _ _ Hs) as Lb.
    unfold memcpy. rewrite (slice_sub _ _ _ _ ep (36 - ep) Hs ltac:(lia)).
    rewrite slice_some by lia. rewrite E2, (firstn_all2 (n := 36 - ep)) by (rewrite skipn_length; lia).
    assert (Lf : length (firstn ep ds) = ep) by (rewrite firstn_length; lia).
    assert (Ls : length (skipn ep ds) = 36 - ep) by (rewrite skipn_length; lia).
    rewrite <- Lf at 2. rewrite blit_splice by (rewrite splice_length; lia).
    rewrite splice_splice by lia. now rewrite firstn_skipn.
Qed.

Lemma decode_subframe_rt d dp a ap ds : slice a ap 37 = Some (enc_sub ds) -> length ds = 36 ->
  dp + 36 <= length d ->
  decode_subframe d dp a ap = Some (inr (splice d dp ds)).
Proof.
  intros Ha Hds Hd. destruct (zpos_ok ds Hds) as [_ W].
  exact (decode_subframe_with d dp a ap ds (zpos ds) Ha Hds W Hd).
Qed.

(** ** Whole frames *)
Definition sub (d : bits) (k : nat) : bits := firstn 36 (skipn (k * 36) d).

Lemma sub_slice d k : length d = 288 -> k < 8 -> slice d (k * 36) 36 = Some (sub d k).
Proof. intros. rewrite slice_some by lia. reflexivity. Qed.

Lemma sub_length d k : length d = 288 -> k < 8 -> length (sub d k) = 36.
Proof. intros. unfold sub. rewrite firstn_length, skipn_length. lia. Qed.

Definition hdr (m0 m1 c4 c5 : bool) : bits := atrau_header ++ [c4; c5; m0; m1].

Fixpoint encs (d : bits) (n k : nat) : bits :=
  match n with O => [] | S n' => enc_sub (sub d k) ++ encs d n' (S k) end.

Definition frame (m0 m1 : bool) (d : bits) (c4 c5 : bool) : bits := hdr m0 m1 c4 c5 ++ encs d 8 0.

Lemma encs_length d n : length d = 288 -> forall k, n + k <= 8 -> length (encs d n k) = 37 * n.
Proof.
  intros Hd; induction n; intros k Hk; cbn [encs]; [reflexivity|].
  rewrite app_length, enc_sub_length, IHn by (try apply sub_length; lia). lia.
Qed.

Lemma frame_length m0 m1 d c4 c5 : length d = 288 -> length (frame m0 m1 d c4 c5) = 320.
Proof. intros. unfold frame. rewrite app_length, encs_length by lia. reflexivity. Qed.

Lemma encode_subs d n : length d = 288 -> forall k out X, length out = 320 -> n + k <= 8 -> length X = 24 + k * 37 ->
  forM n k (fun subf out => pack_subframe out (24 + subf * 37) d (subf * 36)) (splice out 0 X)
  = Some (splice out 0 (X ++ encs d n k)).
Proof.
  intros Hd; induction n; intros k out X Ho Hk HX; cbn [forM encs].
  - now rewrite app_nil_r.
  - rewrite (pack_subframe_ok _ _ _ _ (sub d k)) by (rewrite ?splice_length; try apply sub_slice; lia).
    pose proof (enc_sub_length (sub d k) (sub_length d k Hd ltac:(lia))) as L.
    replace (24 + k * 37) with (0 + length X) by lia.
    rewrite splice_splice by lia.
    rewrite IHn by (rewrite ?app_length; lia). now rewrite <- app_assoc.
Qed.

Lemma put_next (o X : bits) k v : length X = k -> k < length o ->
  put (splice o 0 X) k v = Some (splice o 0 (X ++ [v])).
Proof.
  intros <- ?. rewrite put_splice by (rewrite splice_length; lia).
  change (length X) with (0 + length X) at 1. now rewrite splice_splice by (cbn [length]; lia).
Qed.

Lemma to_atrau_ok out m0 m1 d c4 c5 : length out = 320 -> length d = 288 ->
  to_atrau_bits out [m0; m1] d c4 c5 = Some (frame m0 m1 d c4 c5).
Proof.
  intros Ho Hd. unfold to_atrau_bits, memset. rewrite blit_splice by (rewrite repeat_length; lia).
  repeat match goal with |- context [put (splice out 0 ?X) ?k ?v] =>
    rewrite (put_next out X k v) by (cbn [length app repeat]; lia) end.
  cbn [get nth_error].
  repeat match goal with |- context [put (splice out 0 ?X) ?k ?v] =>
    rewrite (put_next out X k v) by (cbn [length app repeat]; lia) end.
  rewrite encode_subs by (cbn [length app repeat]; lia).
  f_equal. rewrite splice_full; [reflexivity|].
  rewrite app_length, encs_length by lia. cbn [length app repeat]. lia.
Qed.

Lemma encs_slice d n : length d = 288 -> forall k j, n + k <= 8 -> j < n ->
  slice (encs d n k) (j * 37) 37 = Some (enc_sub (sub d (k + j))).
Proof.
  intros Hd; induction n; intros k j Hk Hj; [lia|]. cbn [encs].
  pose proof (enc_sub_length (sub d k) (sub_length d k Hd ltac:(lia))) as L.
  destruct j as [|j].
  - cbn [Nat.mul]. rewrite slice_app_l by lia. rewrite Nat.add_0_r. now apply slice_all.
  - replace (S j * 37) with (length (enc_sub (sub d k)) + j * 37) by lia.
    rewrite slice_app_r, IHn by lia. do 3 f_equal. lia.
Qed.

Fixpoint subs (d : bits) (n k : nat) : bits :=
  match n with O => [] | S n' => sub d k ++ subs d n' (S k) end.

Lemma subs_skipn d n : length d = 288 -> forall k, n + k = 8 -> subs d n k = skipn (k * 36) d.
Proof.
  intros Hd; induction n; intros k Hk; cbn [subs].
  - rewrite skipn_all2 by lia. reflexivity.
  - rewrite IHn by lia. unfold sub. rewrite <- (firstn_skipn 36 (skipn (k * 36) d)) at 2.
    rewrite skipn_skipn'. do 2 f_equal. lia.
Qed.

Lemma decode_subs_rt d a : length d = 288 ->
  (forall j, j < 8 -> slice a (24 + j * 37) 37 = Some (enc_sub (sub d j))) ->
  forall n k d0 X, length d0 = 288 -> n + k = 8 -> length X = k * 36 ->
  decode_subframes n k (splice d0 0 X) a = Some (inr (splice d0 0 (X ++ subs d n k))).
Proof.
  intros Hd Ha. induction n; intros k d0 X Hd0 Hk HX; cbn [decode_subframes subs].
  - now rewrite app_nil_r.
  - rewrite (decode_subframe_rt _ _ _ _ (sub d k)); [|apply Ha; lia|apply sub_length; lia|rewrite splice_length; lia].
    replace (k * 36) with (0 + length X) by lia.
    pose proof (sub_length d k Hd ltac:(lia)).
    rewrite splice_splice by lia. rewrite IHn by (rewrite ?app_length; lia). now rewrite <- app_assoc.
Qed.

Lemma atrau_roundtrip m0 m1 d c4 c5 d0 : length d = 288 -> length d0 = 288 ->
  from_atrau_bits d0 (frame m0 m1 d c4 c5) = Some (inr (m0, m1, d, c4, c5)).
Proof.
  intros Hd Hd0. unfold from_atrau_bits.
  assert (Hsub : forall j, j < 8 -> slice (frame m0 m1 d c4 c5) (24 + j * 37) 37 = Some (enc_sub (sub d j))).
  { intros j Hj. unfold frame. change 24 with (length (hdr m0 m1 c4 c5)).
    rewrite slice_app_r. now apply (encs_slice d 8 Hd 0 j). }
  assert (E : decode_subframes 8 0 d0 (frame m0 m1 d c4 c5) = Some (inr d)).
  { pose proof (decode_subs_rt d _ Hd Hsub 8 0 d0 [] Hd0 eq_refl eq_refl) as E.
    rewrite splice_nil in E. rewrite E. cbn [app]. rewrite subs_skipn by (assumption || lia).
    cbn [Nat.mul skipn]. now rewrite splice_full by lia. }
  rewrite E. unfold frame. rewrite slice_app_l by (cbn; lia). reflexivity.
Qed.

(** ** Totality of the decoder on arbitrary input *)
Lemma get_lt {A} (l : list A) i : i < length l -> exists v, get l i = Some v.
Proof. intros H. unfold get. destruct (nth_error l i) eqn:E; [eauto|]. apply nth_error_None in E; lia. Qed.

Lemma decode_zsp_total a ap : ap + 8 <= length a ->
  exists r, decode_zsp a ap = Some r /\ (forall z, r = inr z -> z <= 28) /\ (forall rc, r = inl rc -> rc = EINVAL).
Proof.
  intros H. unfold decode_zsp.
  destruct (get_lt a ap) as [b0 ->]; [lia|]. destruct (get_lt a (ap + 7)) as [b7 ->]; [lia|].
  destruct (negb b0 || negb b7). { eexists; split; [reflexivity|]. split; intros; congruence. }
  rewrite slice_some by lia. set (p := fold_left _ _ _).
  destruct ((p <? 1) || (29 <? p)) eqn:E.
  - eexists; split; [reflexivity|]. split; intros; congruence.
  - apply orb_false_iff in E. destruct E as [E1 E2]. apply Nat.ltb_ge in E1, E2.
    eexists; split; [reflexivity|]. split; [|congruence]. intros z Hz; injection Hz; lia.
Qed.

Lemma decode_loop_total a ap d0 dp : ap + 36 <= length a -> dp + 36 <= length d0 ->
  forall fuel pos X, length X = pos -> 37 <= 8 * fuel + pos -> 1 <= fuel ->
  exists r, decode_loop fuel (splice d0 dp X) dp a ap pos = Some r /\
    (forall rc, r = inl rc -> rc = EINVAL) /\
    (forall d' p', r = inr (d', p') -> exists X', length X' = p' /\ p' <= 36 /\ d' = splice d0 dp X').
Proof.
  intros Ha Hd. induction fuel as [|k IH]; intros pos X HX Hf H1; [lia|]. cbn [decode_loop].
  destruct (Nat.ltb_spec 28 pos).
  { eexists; split; [reflexivity|]. split; intros; congruence. }
  destruct (decode_zsp_total a (ap + pos)) as (r & -> & Hr & Hrc); [lia|].
  destruct r as [rc|z].
  { eexists; split; [reflexivity|]. split; intros; [apply Hrc; congruence|congruence]. }
  specialize (Hr z eq_refl).
  destruct (get_lt a (ap + pos + 1)) as [cb ->]; [lia|].
  destruct (Nat.ltb_spec z pos).
  { eexists; split; [reflexivity|]. split; intros; congruence. }
  rewrite memcpy_splice by (rewrite ?splice_length; lia).
  set (w := firstn (z - pos) _).
  assert (Lw : length w = z - pos) by (unfold w; rewrite firstn_length, skipn_length; lia).
  rewrite splice_next by lia.
  unfold memset. rewrite blit_splice by len.
  rewrite splice_next by len.
  destruct cb.
  - eexists; split; [reflexivity|]. split; [congruence|]. intros d' p' E. injection E as <- <-.
    exists ((X ++ w) ++ repeat false 8). split; [len|]. split; [lia|reflexivity].
  - destruct k as [|k'].
    + lia.
    + apply IH; [len|lia|lia].
Qed.

Lemma decode_subframe_total d dp a ap : ap + 37 <= length a -> dp + 36 <= length d ->
  exists r, decode_subframe d dp a ap = Some r /\
    (forall rc, r = inl rc -> rc = EINVAL) /\
    (forall d', r = inr d' -> exists X, length X = 36 /\ d' = splice d dp X).
Proof.
  intros Ha Hd. unfold decode_subframe. destruct (get_lt a ap) as [zi ->]; [lia|]. destruct zi.
  - rewrite memcpy_splice by lia. eexists; split; [reflexivity|]. split; [congruence|].
    intros d' E; injection E as <-. exists (firstn 36 (skipn (ap + 1) a)). split; [len|reflexivity].
  - destruct (decode_loop_total a (ap + 1) d dp ltac:(lia) Hd 5 0 [] eq_refl ltac:(lia) ltac:(lia)) as (r & E & Hrc & Hr).
    rewrite splice_nil in E. rewrite E. destruct r as [rc|[d1 p]].
    { eexists; split; [reflexivity|]. split; intros; [apply Hrc; congruence|congruence]. }
    destruct (Hr d1 p eq_refl) as (X & HX & Hp & ->).
    destruct (Nat.leb_spec p 36); [|lia].
    rewrite memcpy_splice by (rewrite ?splice_length; lia).
    set (w := firstn _ _). assert (Lw : length w = 36 - p) by (unfold w; rewrite firstn_length, skipn_length; lia).
    replace (dp + p) with (dp + length X) by lia. rewrite splice_splice by lia.
    eexists; split; [reflexivity|]. split; [congruence|]. intros d' E'; injection E' as <-.
    exists (X ++ w). split; [len|reflexivity].
Qed.

Lemma decode_subframes_total a : length a = 320 -> forall n k d, length d = 288 -> n + k <= 8 ->
  exists r, decode_subframes n k d a = Some r /\ (forall rc, r = inl rc -> rc = EINVAL) /\
    (forall d', r = inr d' -> length d' = 288).
Proof.
  intros Ha. induction n; intros k d Hd Hk; cbn [decode_subframes].
  - eexists; split; [reflexivity|]. split; [congruence|]. intros d' E; injection E as <-; assumption.
  - destruct (decode_subframe_total d (k * 36) a (24 + k * 37)) as (r & -> & Hrc & Hr); [lia|lia|].
    destruct r as [rc|d1].
    + eexists; split; [reflexivity|]. split; [|congruence]. intros; apply Hrc; congruence.
    + destruct (Hr d1 eq_refl) as (X & HX & ->). apply IHn; [rewrite splice_length; lia|lia].
Qed.

Lemma header_eqb (h g : bits) : length h = length g ->
  forallb (fun p => Bool.eqb (fst p) (snd p)) (combine h g) = true <-> h = g.
Proof.
  revert g; induction h as [|x h IH]; intros [|y g] H; cbn in *; try discriminate; [easy|].
  rewrite andb_true_iff, IH by lia. rewrite eqb_true_iff. split; [intros [-> ->]; reflexivity|].
  intros E; injection E; auto.
Qed.

Lemma from_atrau_total a d : length a = 320 -> length d = 288 ->
  exists r, from_atrau_bits d a = Some r /\ (forall rc, r = inl rc -> rc = EINVAL) /\
   (forall m0 m1 d' c4 c5, r = inr (m0, m1, d', c4, c5) ->
      length d' = 288 /\ firstn 24 a = atrau_header ++ [c4; c5; m0; m1]).
Proof.
  intros Ha Hd. unfold from_atrau_bits. rewrite slice_some by lia. cbn [skipn].
  destruct (forallb _ _) eqn:E; cbn [negb].
  2:{ eexists; split; [reflexivity|]. split; congruence. }
  apply header_eqb in E; [|rewrite firstn_length, Ha; reflexivity].
  do 24 (destruct a as [|? a]; [discriminate|]). cbn [get nth_error].
  destruct (decode_subframes_total _ Ha 8 0 d Hd ltac:(lia)) as (r & -> & Hrc & Hr).
  destruct r as [rc|d1].
  - eexists; split; [reflexivity|]. split; [|congruence]. intros; apply Hrc; congruence.
  - eexists; split; [reflexivity|]. split; [congruence|]. intros m0 m1 d' c4 c5 Eq. injection Eq as <- <- <- <- <-.
    split; [now apply Hr|]. cbn [firstn] in *.
    unfold atrau_header in *. cbn in E. cbn. injection E; intros; subst. reflexivity.
Qed.

(** ** Zero runs: no emulation of the sync pattern *)
Definition zstep (n : nat) (b : bool) : nat := if b then 0 else S n.
Definition zrun (n : nat) (l : bits) : nat := fold_left zstep l n.
Fixpoint zmax (n : nat) (l : bits) : nat :=
  match l with [] => n | b :: r => Nat.max n (zmax (zstep n b) r) end.

Lemma zrun_app n a b : zrun n (a ++ b) = zrun (zrun n a) b.
Proof. apply fold_left_app. Qed.

Lemma zmax_app a b : forall n, zmax n (a ++ b) = Nat.max (zmax n a) (zmax (zrun n a) b).
Proof.
  induction a as [|x a IH]; intros n; cbn [app zmax zrun fold_left].
  - destruct b; cbn; lia.
  - rewrite IH. unfold zrun. lia.
Qed.

Lemma zrun_le_zmax l : forall n, zrun n l <= zmax n l.
Proof. induction l; intros n; cbn; [lia|]. specialize (IHl (zstep n a)). unfold zrun in *. lia. Qed.

(** a run of at least 8 that starts inside [l] shows as a window *)
Lemma zmax_window l : forall n, n <= 7 -> 8 <= zmax n l ->
  exists i, firstn 8 (skipn i (repeat false n ++ l)) = repeat false 8 /\ i + 8 <= n + length l.
Proof.
  induction l as [|b l IH]; intros n Hn H; cbn [zmax] in H; [lia|].
  destruct b.
  - cbn [zstep] in H. assert (H' : 8 <= zmax 0 l) by lia.
    destruct (IH 0 ltac:(lia) H') as (i & E & L). cbn [repeat app] in E.
    exists (n + 1 + i). split; [|cbn [length]; lia].
    replace (repeat false n ++ true :: l) with ((repeat false n ++ [true]) ++ l) by now rewrite <- app_assoc.
    replace (n + 1 + i) with (length (repeat false n ++ [true]) + i) by (rewrite app_length, repeat_length; reflexivity).
    now rewrite skipn_app_add.
  - cbn [zstep] in H. destruct (Nat.eq_dec n 7) as [->|].
    + exists 0. split; [reflexivity|cbn [length]; lia].
    + destruct (IH (S n) ltac:(lia) ltac:(lia)) as (i & E & L). exists i.
      split; [|cbn [length]; lia]. rewrite <- E. do 2 f_equal.
      change (repeat false (S n)) with (false :: repeat false n). rewrite repeat_cons.
      now rewrite <- app_assoc.
Qed.

(** a piece d[p, p+n) without zero windows has runs below 8 *)
Lemma piece_small d p n : p + n <= length d ->
  (forall i, p <= i -> i + 8 <= p + n -> ~ zwin d i) -> zmax 0 (firstn n (skipn p d)) <= 7.
Proof.
  intros L H. destruct (Nat.leb_spec (zmax 0 (firstn n (skipn p d))) 7); [assumption|].
  destruct (zmax_window (firstn n (skipn p d)) 0 ltac:(lia) ltac:(lia)) as (i & E & Li).
  cbn [repeat app] in E. rewrite firstn_length, skipn_length in Li.
  exfalso. apply (H (p + i)); [lia|lia|]. unfold zwin.
  rewrite skipn_firstn_comm, firstn_firstn, skipn_skipn' in E.
  now rewrite Nat.min_l in E by lia.
Qed.

Lemma zsp_runs z f n : z <= 28 -> n <= 8 -> zrun n (encode_zsp z f) = 0 /\ zmax n (encode_zsp z f) <= 8.
Proof.
  intros Hz Hn. split; [reflexivity|].
  do 29 (destruct z; [destruct f; cbn -[Nat.max]; lia|]). lia.
Qed.

Lemma zrun_snoc n l b : zrun n (l ++ [b]) = zstep (zrun n l) b.
Proof. now rewrite zrun_app. Qed.

(** the data in front of a greedily found zero window ends in a one *)
Lemma piece_ends_in_one d p z : zwin d z -> z + 8 <= length d -> p <= z ->
  (forall i, p <= i < z -> ~ zwin d i) -> zrun 0 (firstn (z - p) (skipn p d)) = 0.
Proof.
  intros W L Hp H. destruct (Nat.eq_dec p z) as [->|Hne]; [now rewrite Nat.sub_diag|].
  replace (z - p) with ((z - 1 - p) + 1) by lia.
  rewrite <- firstn_skipn_comm', skipn_skipn'. replace (p + (z - 1 - p)) with (z - 1) by lia.
  destruct (skipn (z - 1) d) as [|b r] eqn:E.
  { apply (f_equal (@length bool)) in E. rewrite skipn_length in E. cbn in E. lia. }
  change (firstn 1 (b :: r)) with [b]. rewrite zrun_snoc. destruct b; [reflexivity|].
  exfalso. apply (H (z - 1)); [lia|]. unfold zwin in *. rewrite E.
  assert (Er : skipn z d = r).
  { replace z with ((z - 1) + 1) by lia. rewrite <- skipn_skipn', E. reflexivity. }
  rewrite Er in W. cbn [firstn repeat]. f_equal.
  do 8 (destruct r as [|? r]; [discriminate|]). cbn in W. injection W; intros; subst. reflexivity.
Qed.

Lemma body_runs d : length d = 36 -> forall zs pos n, wf d pos zs -> pos <= 36 -> n <= 8 ->
  (zs = [] -> n = 0) ->
  zrun n (body d pos zs) <= 7 /\ zmax n (body d pos zs) <= 8.
Proof.
  intros Hd. induction zs as [|z zs IH]; intros pos n W Hp Hn H0.
  - rewrite (H0 eq_refl). cbn [body wf] in *.
    rewrite <- (firstn_all2 (n := 36 - pos) (skipn pos d)) by (rewrite skipn_length; lia).
    assert (P : zmax 0 (firstn (36 - pos) (skipn pos d)) <= 7).
    { apply piece_small; [lia|]. intros i H1 H2. apply W; lia. }
    pose proof (zrun_le_zmax (firstn (36 - pos) (skipn pos d)) 0). lia.
  - cbn [body]. destruct W as (H1 & H2 & H3 & H4).
    destruct (zsp_runs z (is_nil zs) n ltac:(lia) Hn) as [R M].
    rewrite !zrun_app, !zmax_app, R.
    assert (P : zmax 0 (firstn (z - pos) (skipn pos d)) <= 7).
    { apply piece_small; [lia|]. intros i Hi1 Hi2. apply H3; lia. }
    rewrite (piece_ends_in_one d pos z) by (assumption || lia).
    destruct (IH (z + 8) 0 H4 ltac:(lia) ltac:(lia) ltac:(reflexivity)) as [A B]. lia.
Qed.

Lemma enc_sub_runs d n : length d = 36 -> n <= 7 -> zrun n (enc_sub d) <= 7 /\ zmax n (enc_sub d) <= 8.
Proof.
  intros Hd Hn. destruct (zpos_ok d Hd) as [_ W]. unfold enc_sub, enc_with. destruct (zpos d) as [|z zs] eqn:E.
  - destruct (body_runs d Hd [] 0 0 W ltac:(lia) ltac:(lia) ltac:(reflexivity)) as [A B].
    cbn [body skipn] in A, B. cbn [zrun fold_left zmax zstep]. unfold zrun in A. lia.
  - destruct (body_runs d Hd (z :: zs) 0 (S n) W ltac:(lia) ltac:(lia) ltac:(discriminate)) as [A B].
    cbn [zrun fold_left zmax zstep]. unfold zrun in A. lia.
Qed.

Lemma encs_runs d : length d = 288 -> forall n k m, n + k <= 8 -> m <= 7 ->
  zrun m (encs d n k) <= 7 /\ zmax m (encs d n k) <= 8.
Proof.
  intros Hd; induction n; intros k m Hk Hm; cbn [encs]; [cbn; lia|].
  rewrite zrun_app, zmax_app.
  destruct (enc_sub_runs (sub d k) m (sub_length d k Hd ltac:(lia)) Hm) as [A B].
  destruct (IHn (S k) (zrun m (enc_sub (sub d k))) ltac:(lia) A) as [C D]. lia.
Qed.

(** positions at which a 16-zeros-then-one pattern ends are where the run
    counter is at least 16 and the bit is one *)

Lemma zrun_repeat n k : zrun n (repeat false k) = n + k.
Proof.
  revert n; induction k; intros n; [now rewrite Nat.add_0_r|].
  change (repeat false (S k)) with (false :: repeat false k).
  change (zrun n (false :: repeat false k)) with (zrun (S n) (repeat false k)). rewrite IHk. lia.
Qed.

Lemma sync_run s k n : sync_at s k -> 16 <= zrun n (firstn (k + 16) s) /\ nth_error s (k + 16) = Some true.
Proof.
  intros H. unfold sync_at, sync_header in H. split.
  - rewrite <- firstn_skipn_comm', zrun_app.
    assert (E : firstn 16 (skipn k s) = repeat false 16).
    { apply (f_equal (firstn 16)) in H. rewrite firstn_firstn in H. exact H. }
    rewrite E, zrun_repeat. lia.
  - rewrite <- nth_error_skipn. rewrite <- (nth_error_firstn _ 17) by lia. rewrite H. reflexivity.
Qed.

Lemma zrun_prefix_le_zmax l : forall n i, zrun n (firstn i l) <= zmax n l.
Proof.
  induction l as [|b l IH]; intros n i; [destruct i; cbn; lia|].
  destruct i; cbn [firstn zmax]; [cbn; lia|]. change (zrun n (b :: firstn i l)) with (zrun (zstep n b) (firstn i l)).
  specialize (IH (zstep n b) i). lia.
Qed.

Definition mkframe (p : (bool * bool) * (bits * (bool * bool))) : bits :=
  match p with ((m0, m1), (d, (c4, c5))) => frame m0 m1 d c4 c5 end.

Definition valid_payload (p : (bool * bool) * (bits * (bool * bool))) : Prop :=
  length (fst (snd p)) = 288.

Lemma firstn_ge_app {A} (x y : list A) i : length x <= i -> firstn i (x ++ y) = x ++ firstn (i - length x) y.
Proof. intros. rewrite firstn_app. f_equal. apply firstn_all2. lia. Qed.

Lemma stream_run ps : Forall valid_payload ps -> forall n i, n <= 7 ->
  16 <= zrun n (firstn i (concat (map mkframe ps))) ->
  nth_error (concat (map mkframe ps)) i = Some true ->
  exists j, i = 320 * j + 16 /\ j < length ps.
Proof.
  induction ps as [|p ps IH]; intros HV n i Hn H Hi; cbn [map concat] in *.
  - destruct i; discriminate.
  - inversion HV as [|? ? Hp HV']; subst. destruct p as ((m0, m1), (d, (c4, c5))). cbn in Hp.
    pose proof (frame_length m0 m1 d c4 c5 Hp) as LF. cbn [mkframe] in *.
    set (F := frame m0 m1 d c4 c5) in *.
    assert (Hend : zrun n F <= 7 /\ forall i, 17 <= i <= 320 -> zrun n (firstn i F) <= 8).
    { unfold F, frame. assert (EH : hdr m0 m1 c4 c5 = repeat false 16 ++ [true] ++ [false; true; true; c4; c5; m0; m1]) by reflexivity.
      assert (R17 : zrun n (repeat false 16 ++ [true]) = 0) by now rewrite zrun_app.
      assert (R24 : zrun n (hdr m0 m1 c4 c5) <= 4).
      { rewrite EH, app_assoc, zrun_app, R17. destruct c4, c5, m0, m1; cbn; lia. }
      assert (M : zmax 0 ([false; true; true; c4; c5; m0; m1] ++ encs d 8 0) <= 8).
      { rewrite zmax_app.
        assert (Q : zrun 0 [false; true; true; c4; c5; m0; m1] <= 4 /\ zmax 0 [false; true; true; c4; c5; m0; m1] <= 4)
          by (destruct c4, c5, m0, m1; cbn; lia).
        destruct (encs_runs d Hp 8 0 (zrun 0 [false; true; true; c4; c5; m0; m1]) ltac:(lia) ltac:(lia)). lia. }
      split.
      - rewrite zrun_app. apply encs_runs; [assumption|lia|lia].
      - intros k Hk. rewrite EH, (app_assoc (repeat false 16)), <- app_assoc.
        rewrite firstn_ge_app by (cbn; lia). rewrite zrun_app, R17.
        pose proof (zrun_prefix_le_zmax ([false; true; true; c4; c5; m0; m1] ++ encs d 8 0) 0 (k - length (repeat false 16 ++ [true]))).
        lia. }
    destruct Hend as [Hend Hmid].
    destruct (Nat.ltb_spec i 320).
    + rewrite firstn_app in H. replace (i - length F) with 0 in H by lia. rewrite firstn_O, app_nil_r in H.
      destruct (Nat.leb_spec 17 i). { specialize (Hmid i ltac:(lia)). lia. }
      destruct (Nat.eq_dec i 16) as [->|]. { exists 0. cbn [length]. lia. }
      exfalso. rewrite nth_error_app1 in Hi by lia. unfold F, frame, hdr, atrau_header in Hi.
      do 16 (destruct i; [discriminate Hi|]). lia.
    + rewrite firstn_ge_app in H by lia. rewrite zrun_app in H.
      rewrite nth_error_app2 in Hi by lia. rewrite LF in *.
      destruct (IH HV' (zrun n F) (i - 320) Hend H Hi) as (j & E & L). exists (S j). cbn [length]. lia.
Qed.

Lemma no_emulation ps k : Forall valid_payload ps -> sync_at (concat (map mkframe ps)) k ->
  exists j, k = 320 * j /\ j < length ps.
Proof.
  intros HV H. destruct (sync_run _ _ 0 H) as [R T].
  destruct (stream_run ps HV 0 (k + 16) ltac:(lia) R T) as (j & E & L). exists j. lia.
Qed.

Lemma is_frame_payload out m d c4 c5 f : length out = 320 -> length m = 2 -> length d = 288 ->
  to_atrau_bits out m d c4 c5 = Some f ->
  exists p, valid_payload p /\ f = mkframe p.
Proof.
  intros Ho Hm Hd E. destruct m as [|m0 [|m1 [|]]]; try discriminate.
  rewrite to_atrau_ok in E by assumption. injection E as <-.
  exists ((m0, m1), (d, (c4, c5))). split; [exact Hd|reflexivity].
Qed.

Lemma frame_sync m0 m1 d c4 c5 : firstn 17 (frame m0 m1 d c4 c5) = sync_header.
Proof. reflexivity. Qed.

Lemma stream_sync ps : Forall valid_payload ps -> forall j, j < length ps ->
  sync_at (concat (map mkframe ps)) (320 * j).
Proof.
  induction ps as [|p ps IH]; intros HV j Hj; [cbn in Hj; lia|]. cbn [map concat].
  inversion HV as [|? ? Hp HV']; subst. destruct p as ((m0, m1), (d, (c4, c5))).
  pose proof (frame_length m0 m1 d c4 c5 Hp) as LF. cbn [mkframe]. unfold sync_at. destruct j as [|j].
  - rewrite Nat.mul_0_r, skipn_O, firstn_app, LF. change (17 - 320) with 0. rewrite firstn_O, app_nil_r.
    apply frame_sync.
  - replace (320 * S j) with (length (frame m0 m1 d c4 c5) + 320 * j) by lia. rewrite skipn_app_add.
    apply IH; [assumption|cbn in Hj; lia].
Qed.

Lemma ra2_8k_fill b : Forall (fun o => (0 <= o <= 255)%Z /\ Z.land o 127 = 127%Z) (ra2_8k_pack b).
Proof. induction b as [|[] b IH]; cbn; constructor; try exact IH; cbn; split; reflexivity || lia. Qed.

Lemma ra2_16k_fill n : forall b r, ra2_16k_pack n b = Some r ->
  Forall (fun o => (0 <= o <= 255)%Z /\ Z.land o 63 = 63%Z) r.
Proof.
  induction n; intros b r E; cbn in E; [injection E as <-; constructor|].
  destruct b as [|x [|y b]]; try discriminate. optstep E. injection E as <-.
  constructor; [destruct x, y; cbn; split; reflexivity || lia|eauto].
Qed.
