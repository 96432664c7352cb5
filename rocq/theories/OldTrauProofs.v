From Coq Require Import List Arith Lia Bool ZArith.
From Verif Require Import Base Spec OldTrauModel.
Import ListNotations.

(** split a well-formed frame into 5 type bits and index functions *)
Lemma dtf_symbolic (P : dtf -> Prop) :
  (forall b0 b1 b2 b3 b4 fc fd ft fs fm,
     P (mkDtf (b0 :: b1 :: b2 :: b3 :: b4 :: vec 20 fc) (vec 288 fd) (vec 4 ft) (vec 6 fs) (vec 2 fm))) ->
  forall fr, dtf_wf fr -> P fr.
Proof.
  intros H [c d t s m] (Hc & Hd & Ht & Hs & Hm). cbn [c_bits d_bits t_bits s_bits m_bits] in *.
  do 5 (destruct c as [|? c]; [discriminate|]). assert (Hc' : length c = 20) by (cbn in Hc; lia).
  rewrite (vec_of_list _ _ Hc'), (vec_of_list _ _ Hd), (vec_of_list _ _ Ht), (vec_of_list _ _ Hs), (vec_of_list _ _ Hm).
  apply H.
Qed.

Ltac conjs := repeat match goal with |- _ /\ _ => apply conj end; reflexivity.
Ltac sym_frame := match goal with |- forall fr, dtf_wf fr -> @?P fr => apply (dtf_symbolic P) end.
Ltac sym_buf buf H := rewrite (vec_of_list buf _ H); generalize (fun i => nth i buf false); clear H; clear buf.

Definition fr_types : list (list bool) :=
  [[false;false;false;true;false]; [true;true;true;false;false]; [true;true;false;true;false];
   [true;false;false;false;false]; [false;true;true;true;false]].
Definition data_types : list (list bool) := [[false;true;false;false;false]; [true;false;true;true;false]].

Ltac split_types HI := cbn in HI; decompose [or] HI; try contradiction; clear HI;
    match goal with H : _ :: _ = _ :: _ |- _ => injection H as <- <- <- <- <- end.

Lemma old_roundtrip_fr_m buf fr0 fr : length buf = 320 -> dtf_wf fr0 -> dtf_wf fr ->
  In (firstn 5 (c_bits fr)) fr_types ->
  match encode_trau_frame buf fr with
  | Some (0%Z, b) => length b = 320 /\ firstn 17 b = sync_header /\ map (fun k => nth (16 + 16 * k) b false) (seq 0 19) = repeat true 19 /\
     match decode_trau_frame fr0 b with
     | Some (0%Z, fr') => dtf_wf fr' /\ firstn 21 (c_bits fr') = firstn 21 (c_bits fr) /\
          firstn 260 (d_bits fr') = firstn 260 (d_bits fr) /\ t_bits fr' = t_bits fr
     | _ => False end
  | _ => False end.
Proof.
  intros Hb W0 W. sym_buf buf Hb.
  intros fb. revert fr0 W0. sym_frame. intros a0 a1 a2 a3 a4 gc gd gt gs gm. revert fr W.
  sym_frame. intros b0 b1 b2 b3 b4 fc fd ft fs fm HI. split_types HI;
  (vm_compute; conjs).
Qed.

Lemma old_roundtrip_fr buf fr0 fr : length buf = 320 -> dtf_wf fr0 -> dtf_wf fr ->
  In (firstn 5 (c_bits fr)) fr_types ->
  exists b fr', encode_trau_frame buf fr = Some (0%Z, b) /\ length b = 320 /\
    firstn 17 b = sync_header /\ map (fun k => nth (16 + 16 * k) b false) (seq 0 19) = repeat true 19 /\
    decode_trau_frame fr0 b = Some (0%Z, fr') /\ dtf_wf fr' /\
    firstn 21 (c_bits fr') = firstn 21 (c_bits fr) /\ firstn 260 (d_bits fr') = firstn 260 (d_bits fr) /\
    t_bits fr' = t_bits fr.
Proof.
  intros Hb W0 W HI. pose proof (old_roundtrip_fr_m buf fr0 fr Hb W0 W HI) as H.
  destruct (encode_trau_frame buf fr) as [[[] b]|]; try contradiction. destruct H as (L & S & T & H).
  destruct (decode_trau_frame fr0 b) as [[[] fr']|] eqn:E; try contradiction.
  exists b, fr'. tauto.
Qed.

Lemma old_roundtrip_data_m buf fr0 fr : length buf = 320 -> dtf_wf fr0 -> dtf_wf fr ->
  In (firstn 5 (c_bits fr)) data_types ->
  match encode_trau_frame buf fr with
  | Some (0%Z, b) => length b = 320 /\ firstn 17 b = sync_header /\
     match decode_trau_frame fr0 b with
     | Some (0%Z, fr') => dtf_wf fr' /\ firstn 15 (c_bits fr') = firstn 15 (c_bits fr) /\
          d_bits fr' = d_bits fr
     | _ => False end
  | _ => False end.
Proof.
  intros Hb W0 W. sym_buf buf Hb.
  intros fb. revert fr0 W0. sym_frame. intros a0 a1 a2 a3 a4 gc gd gt gs gm. revert fr W.
  sym_frame. intros b0 b1 b2 b3 b4 fc fd ft fs fm HI. split_types HI;
  (vm_compute; conjs).
Qed.

Lemma old_roundtrip_data buf fr0 fr : length buf = 320 -> dtf_wf fr0 -> dtf_wf fr ->
  In (firstn 5 (c_bits fr)) data_types ->
  exists b fr', encode_trau_frame buf fr = Some (0%Z, b) /\ length b = 320 /\
    firstn 17 b = sync_header /\
    decode_trau_frame fr0 b = Some (0%Z, fr') /\ dtf_wf fr' /\
    firstn 15 (c_bits fr') = firstn 15 (c_bits fr) /\ d_bits fr' = d_bits fr.
Proof.
  intros Hb W0 W HI. pose proof (old_roundtrip_data_m buf fr0 fr Hb W0 W HI) as H.
  destruct (encode_trau_frame buf fr) as [[[] b]|]; try contradiction. destruct H as (L & S & H).
  destruct (decode_trau_frame fr0 b) as [[[] fr']|] eqn:E; try contradiction.
  exists b, fr'. tauto.
Qed.

Lemma old_unsupported_m buf fr : length buf = 320 -> dtf_wf fr ->
  ~ In (firstn 5 (c_bits fr)) (fr_types ++ data_types) ->
  match encode_trau_frame buf fr with Some (rc, b) => rc = (-1)%Z /\ length b = 320 | None => False end.
Proof.
  intros Hb W. sym_buf buf Hb. intros fb. revert fr W. sym_frame.
  intros [] [] [] [] [] fc fd ft fs fm HI;
  try (exfalso; apply HI; cbn; tauto); vm_compute; conjs.
Qed.
Lemma old_unsupported buf fr : length buf = 320 -> dtf_wf fr ->
  ~ In (firstn 5 (c_bits fr)) (fr_types ++ data_types) ->
  exists b, encode_trau_frame buf fr = Some ((-1)%Z, b) /\ length b = 320.
Proof.
  intros Hb W HI. pose proof (old_unsupported_m buf fr Hb W HI) as H.
  destruct (encode_trau_frame buf fr) as [[rc b]|]; [|contradiction]. destruct H as [-> L]. now exists b.
Qed.

(** the decoder on an arbitrary 320-bit input *)
Lemma old_decode_total_m buf fr0 : length buf = 320 -> dtf_wf fr0 ->
  match decode_trau_frame fr0 buf with
  | Some (rc, fr') => dtf_wf fr' /\
    if existsb (fun t => if list_eq_dec bool_dec t (firstn 5 (skipn 17 buf)) then true else false)
        (fr_types ++ data_types ++ [[false;false;true;true;false]])
    then rc = 0%Z else rc = (-1)%Z /\ fr' = fr0
  | None => False end.
Proof.
  intros Hb W0.
  assert (E : exists p b0 b1 b2 b3 b4 q, buf = vec 17 p ++ b0 :: b1 :: b2 :: b3 :: b4 :: vec 298 q).
  { rewrite <- (firstn_skipn 17 buf).
    assert (L1 : length (firstn 17 buf) = 17) by (rewrite firstn_length; lia).
    assert (L2 : length (skipn 17 buf) = 303) by (rewrite skipn_length; lia).
    rewrite (vec_of_list _ _ L1). destruct (skipn 17 buf) as [|b0[|b1[|b2[|b3[|b4 r]]]]]; try discriminate.
    cbn [length] in L2. assert (L3 : length r = 298) by lia. rewrite (vec_of_list _ _ L3).
    repeat eexists. }
  destruct E as (p & b0 & b1 & b2 & b3 & b4 & q & ->). clear Hb. revert fr0 W0. sym_frame.
  intros a0 a1 a2 a3 a4 gc gd gt gs gm.
  destruct b0, b1, b2, b3, b4; (vm_compute; conjs).
Qed.

Lemma old_decode_total buf fr0 : length buf = 320 -> dtf_wf fr0 ->
  exists rc fr', decode_trau_frame fr0 buf = Some (rc, fr') /\ dtf_wf fr' /\
    (In (firstn 5 (skipn 17 buf)) (fr_types ++ data_types ++ [[false;false;true;true;false]]) -> rc = 0%Z) /\
    (~ In (firstn 5 (skipn 17 buf)) (fr_types ++ data_types ++ [[false;false;true;true;false]]) ->
        rc = (-1)%Z /\ fr' = fr0).
Proof.
  intros Hb W0. pose proof (old_decode_total_m buf fr0 Hb W0) as H.
  destruct (decode_trau_frame fr0 buf) as [[rc fr']|]; [|contradiction]. destruct H as [W H].
  exists rc, fr'. split; [reflexivity|]. split; [assumption|].
  set (l := fr_types ++ _) in *. set (t := firstn 5 _) in *.
  destruct (existsb _ l) eqn:E.
  - split; [now intros _|]. intros N. exfalso. apply N. apply existsb_exists in E.
    destruct E as (x & Hx & E). now destruct (list_eq_dec bool_dec x t); [subst|].
  - split; [|now intros _]. intros N. exfalso. rewrite <- Bool.not_true_iff_false in E. apply E.
    apply existsb_exists. exists t. split; [assumption|]. now destruct (list_eq_dec bool_dec t t).
Qed.

(** up2down *)
Lemma old_up2down_m fr : dtf_wf fr ->
  match trau_frame_up2down fr with
  | Some (rc, fr') => dtf_wf fr' /\
     d_bits fr' = d_bits fr /\ t_bits fr' = t_bits fr /\ s_bits fr' = s_bits fr /\ m_bits fr' = m_bits fr /\
     match firstn 5 (c_bits fr) with
     | [false;false;false;true;false] =>
        rc = 0%Z /\ c_bits fr' = [true;true;true;false;false] ++ repeat false 6 ++ repeat true 10 ++ skipn 21 (c_bits fr)
     | [true;true;false;true;false] =>
        rc = 0%Z /\ c_bits fr' = [true;true;false;true;false] ++ repeat false 6 ++ repeat true 10 ++ skipn 21 (c_bits fr)
     | [true;false;false;false;false] =>
        rc = 0%Z /\ c_bits fr' = [false;true;true;true;false] ++ repeat false 6 ++ repeat true 10 ++ skipn 21 (c_bits fr)
     | [false;true;false;false;false] =>
        rc = 0%Z /\ c_bits fr' = [true;false;true;true;false] ++ skipn 5 (c_bits fr)
     | _ => (rc = EINVAL \/ rc = (-1)%Z) /\ fr' = fr
     end
  | None => False end.
Proof.
  destruct fr as [c d t s m]. intros (Hc & Hd & Ht & Hs & Hm).
  cbn [c_bits d_bits t_bits s_bits m_bits] in *. revert c Hc.
  assert (H : forall c, length c = 25 ->
    match trau_frame_up2down (mkDtf c d t s m) with
    | Some (rc, fr') => (d_bits fr' = d /\ t_bits fr' = t /\ s_bits fr' = s /\ m_bits fr' = m) /\
     length (c_bits fr') = 25 /\
     match firstn 5 c with
     | [false;false;false;true;false] =>
        rc = 0%Z /\ c_bits fr' = [true;true;true;false;false] ++ repeat false 6 ++ repeat true 10 ++ skipn 21 c
     | [true;true;false;true;false] =>
        rc = 0%Z /\ c_bits fr' = [true;true;false;true;false] ++ repeat false 6 ++ repeat true 10 ++ skipn 21 c
     | [true;false;false;false;false] =>
        rc = 0%Z /\ c_bits fr' = [false;true;true;true;false] ++ repeat false 6 ++ repeat true 10 ++ skipn 21 c
     | [false;true;false;false;false] =>
        rc = 0%Z /\ c_bits fr' = [true;false;true;true;false] ++ skipn 5 c
     | _ => (rc = EINVAL \/ rc = (-1)%Z) /\ fr' = mkDtf c d t s m
     end
    | None => False end).
  { intros c Hc. do 5 (destruct c as [|? c]; [discriminate|]). assert (Hc' : length c = 20) by (cbn in Hc; lia).
    clear Hc. rewrite (vec_of_list _ _ Hc'). generalize (fun i => nth i c false). clear c Hc'. intros f.
    destruct b, b0, b1, b2, b3;
    (vm_compute; repeat match goal with |- _ /\ _ => apply conj end;
     solve [reflexivity | left; reflexivity | right; reflexivity]). }
  intros c Hc. specialize (H c Hc). destruct (trau_frame_up2down _) as [[rc [c' d' t' s' m']]|]; [|contradiction].
  cbn [c_bits d_bits t_bits s_bits m_bits] in *. destruct H as ((-> & -> & -> & ->) & L & H).
  split; [now repeat split|]. do 4 (split; [reflexivity|]). exact H.
Qed.

(** idle frame, from the initial static state; afterwards the state is a fixed point *)
Fixpoint idle_calls (n : nat) (st : idle_state) : option (idle_state * list bits) :=
  match n with
  | O => Some (st, [])
  | S n' => do r <- trau_idle_frame st; let '(st', b) := r in
            do r <- idle_calls n' st'; let '(st'', l) := r in Some (st'', b :: l)
  end.

Definition idle_pattern : bits :=
  sync_header ++ ([false;true;true;true;false] ++ repeat false 6 ++ repeat true 4) ++ repeat true 288.

Lemma idle_first : exists st, trau_idle_frame idle_initial = Some (st, idle_pattern) /\
  dbits_initted st = true /\ encoded_idle_frame st = idle_pattern.
Proof.
  destruct (trau_idle_frame idle_initial) as [[st b]|] eqn:E; [|exfalso; vm_compute in E; discriminate].
  exists st. vm_compute in E. injection E as <- <-. repeat split.
Qed.

Lemma idle_calls_spec n : exists st, idle_calls n idle_initial = Some (st, repeat idle_pattern n).
Proof.
  destruct n as [|n]; [eexists; reflexivity|]. destruct idle_first as (st & E & I & P).
  exists st. cbn [idle_calls repeat]. rewrite E.
  assert (H : idle_calls n st = Some (st, repeat idle_pattern n)).
  { clear E. induction n as [|n IH]; [reflexivity|]. cbn [idle_calls repeat].
    unfold trau_idle_frame. rewrite I, P, IH. reflexivity. }
  now rewrite H.
Qed.


(** * layouts (08.60 figures), as the concatenation of the fields on the line *)
Definition piece {A} (l : list A) (o n : nat) := firstn n (skipn o l).
Definition speech_line (c d t : bits) : bits :=
  repeat false 16 ++ [true] ++ piece c 0 15 ++
  flat_map (fun k => true :: piece d (15 * k) 15) (seq 0 17) ++
  [true] ++ piece d 255 5 ++ piece c 15 6 ++ t.
Definition data_line (c d : bits) : bits := repeat false 16 ++ [true] ++ piece c 0 15 ++ d.

Lemma old_encode_layout_m buf fr : length buf = 320 -> dtf_wf fr ->
  (In (firstn 5 (c_bits fr)) fr_types -> encode_trau_frame buf fr = Some (0%Z, speech_line (c_bits fr) (d_bits fr) (t_bits fr))) /\
  (In (firstn 5 (c_bits fr)) data_types -> encode_trau_frame buf fr = Some (0%Z, data_line (c_bits fr) (d_bits fr))).
Proof.
  intros Hb W. sym_buf buf Hb. intros fb. revert fr W.
  sym_frame. intros b0 b1 b2 b3 b4 fc fd ft fs fm. split; intros HI; split_types HI; vm_compute; reflexivity.
Qed.

Lemma buf_types (P : bits -> Prop) :
  (forall p b0 b1 b2 b3 b4 q, P (vec 17 p ++ b0 :: b1 :: b2 :: b3 :: b4 :: vec 298 q)) ->
  forall buf, length buf = 320 -> P buf.
Proof.
  intros H buf Hb. rewrite <- (firstn_skipn 17 buf).
  assert (L1 : length (firstn 17 buf) = 17) by (rewrite firstn_length; lia).
  assert (L2 : length (skipn 17 buf) = 303) by (rewrite skipn_length; lia).
  rewrite (vec_of_list _ _ L1). destruct (skipn 17 buf) as [|b0[|b1[|b2[|b3[|b4 r]]]]]; try discriminate.
  cbn [length] in L2. assert (L3 : length r = 298) by lia. rewrite (vec_of_list _ _ L3). apply H.
Qed.

(** what the decoder takes from where *)
Definition speech_fields (fr0 : dtf) (b : bits) : dtf :=
  mkDtf (piece b 17 15 ++ piece b 310 6 ++ skipn 21 (c_bits fr0))
        (flat_map (fun k => piece b (33 + 16 * k) 15) (seq 0 17) ++ piece b 305 5 ++ skipn 260 (d_bits fr0))
        (piece b 316 4) (s_bits fr0) (m_bits fr0).
Definition data_fields (fr0 : dtf) (b : bits) : dtf :=
  mkDtf (piece b 17 15 ++ skipn 15 (c_bits fr0)) (piece b 32 288) (t_bits fr0) (s_bits fr0) (m_bits fr0).
Definition amr_fields (fr0 : dtf) (b : bits) : dtf :=
  mkDtf (piece b 17 15 ++ piece b 33 10)
        (piece b 43 5 ++ flat_map (fun k => piece b (49 + 16 * k) 15) (seq 0 16) ++ piece b 305 11 ++ skipn 256 (d_bits fr0))
        (piece b 316 4) (s_bits fr0) (m_bits fr0).
Lemma old_decode_layout_m fr0 buf : length buf = 320 -> dtf_wf fr0 ->
  (In (firstn 5 (skipn 17 buf)) fr_types -> decode_trau_frame fr0 buf = Some (0%Z, speech_fields fr0 buf)) /\
  (In (firstn 5 (skipn 17 buf)) data_types -> decode_trau_frame fr0 buf = Some (0%Z, data_fields fr0 buf)) /\
  (firstn 5 (skipn 17 buf) = [false;false;true;true;false] -> decode_trau_frame fr0 buf = Some (0%Z, amr_fields fr0 buf)).
Proof.
  intros Hb. revert fr0. revert buf Hb.
  match goal with |- forall buf, length buf = 320 -> @?P buf => apply (buf_types P) end.
  intros p b0 b1 b2 b3 b4 q. sym_frame. intros a0 a1 a2 a3 a4 gc gd gt gs gm.
  split; [|split].
  - intros HI. split_types HI; vm_compute; reflexivity.
  - intros HI. split_types HI; vm_compute; reflexivity.
  - intros HI. match type of HI with ?l = _ => change l with [b0; b1; b2; b3; b4] in HI end.
    injection HI as -> -> -> -> ->. vm_compute; reflexivity.
Qed.
