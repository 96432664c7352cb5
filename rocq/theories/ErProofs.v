(** Lemmas for C44, C45. *)
From Coq Require Import List Arith Lia Bool ZArith.
From Verif Require Import Base ErModel ErSpec.
Import ListNotations.
Open Scope nat_scope.

(** ** numbers *)
Lemma val_lsb_spec l : val_lsb l = lsb1st l.
Proof. induction l as [|b l IH]; cbn; [reflexivity|]. rewrite IH. now destruct b. Qed.
Lemma fold_msb l : forall a, fold_left (fun a b => (2 * a + b2z b)%Z) l a = (a * 2 ^ Z.of_nat (length l) + msb1st l)%Z.
Proof.
  induction l as [|b l IH]; intros a; cbn [fold_left length msb1st]; [cbn; lia|].
  rewrite IH, Nat2Z.inj_succ, Z.pow_succ_r by lia. destruct b; cbn [b2z bz]; ring.
Qed.
Lemma val_msb_spec l : val_msb l = msb1st l.
Proof. unfold val_msb. rewrite fold_msb. lia. Qed.
Lemma lsb1st_bound l : (0 <= lsb1st l < 2 ^ Z.of_nat (length l))%Z.
Proof.
  induction l as [|b l IH]; [cbn; lia|]. cbn [lsb1st length]. rewrite Nat2Z.inj_succ, Z.pow_succ_r by lia. destruct b; cbn [bz]; lia.
Qed.
Lemma msb1st_bound l : (0 <= msb1st l < 2 ^ Z.of_nat (length l))%Z.
Proof.
  induction l as [|b l IH]; [cbn; lia|]. cbn [msb1st length]. rewrite Nat2Z.inj_succ, Z.pow_succ_r by lia. destruct b; cbn [bz]; lia.
Qed.
Lemma msb_bits_length n t : length (msb_bits n t) = n.
Proof. unfold msb_bits. now rewrite map_length, seq_length. Qed.
Lemma msb_bits_S n t : msb_bits (S n) t = t (Z.of_nat n) :: msb_bits n t.
Proof.
  unfold msb_bits. cbn [seq map]. f_equal; [f_equal; f_equal; lia|].
  rewrite <- seq_shift, map_map. apply map_ext_in. intros a Ha. apply in_seq in Ha. f_equal. f_equal. lia.
Qed.
Lemma msb1st_bits n v : msb1st (msb_bits n (Z.testbit v)) = (v mod 2 ^ Z.of_nat n)%Z.
Proof.
  induction n as [|n IH]; [cbn; now rewrite Z.mod_1_r|].
  rewrite msb_bits_S. cbn [msb1st]. rewrite IH, msb_bits_length, Nat2Z.inj_succ, Z.pow_succ_r by lia.
  assert (Hb : bz (Z.testbit v (Z.of_nat n)) = ((v / 2 ^ Z.of_nat n) mod 2)%Z).
  { rewrite <- Z.testbit_spec' by lia. now destruct (Z.testbit v (Z.of_nat n)). }
  rewrite Hb, (Z.mul_comm 2 (2 ^ _)%Z), Z.rem_mul_r by lia. lia.
Qed.
Lemma lsb1st_bits2 v : (0 <= v < 4)%Z -> lsb1st (lsb_bits 2 (Z.testbit v)) = v.
Proof. intros H. assert (v = 0 \/ v = 1 \/ v = 2 \/ v = 3)%Z as [->|[->|[->| ->]]] by lia; reflexivity. Qed.

(** ** parity *)
Lemma fold_xorb l : forall a, fold_left xorb l a = xorb a (fold_left xorb l false).
Proof.
  induction l as [|b l IH]; intros a; cbn [fold_left]; [now destruct a|].
  rewrite IH, (IH (xorb false b)). destruct a, b; cbn; reflexivity || now destruct (fold_left xorb l false).
Qed.
Lemma odd_ones_fold l : odd_ones l <-> fold_left xorb l false = true.
Proof.
  unfold odd_ones. rewrite <- Nat.odd_spec.
  assert (E : Nat.odd (length (filter (fun b => b) l)) = fold_left xorb l false).
  { induction l as [|b l IH]; [reflexivity|]. cbn [filter fold_left]. rewrite fold_xorb. destruct b; cbn [length xorb].
    - rewrite Nat.odd_succ, <- Nat.negb_odd, IH. now destruct (fold_left xorb l false).
    - rewrite IH. now destruct (fold_left xorb l false). }
  now rewrite E.
Qed.
Lemma odd_ones_parity l p : odd_ones (l ++ [p]) <-> p = fold_left xorb l true.
Proof.
  rewrite odd_ones_fold, fold_left_app. cbn [fold_left]. rewrite (fold_xorb l true).
  destruct (fold_left xorb l false), p; cbn; split; intros; (reflexivity || discriminate).
Qed.

(** ** CRC *)
Lemma xor_sub a b : length a = length b -> xor_bits a b = sub a b.
Proof.
  unfold xor_bits. revert b; induction a as [|x a IH]; intros [|y b] H; cbn in *; try discriminate; [reflexivity|].
  f_equal. apply IH. lia.
Qed.
Lemma sub_app a b c : length a = length b -> sub (a ++ c) b = sub a b ++ c.
Proof.
  revert b; induction a as [|x a IH]; intros [|y b] H; cbn in *; try discriminate; [now destruct c|].
  f_equal. apply IH. lia.
Qed.
Lemma crc16_step_length r b : length r = 16 -> length (crc16_step r b) = 16.
Proof.
  intros H. destruct r as [|t r]; [discriminate|]. unfold crc16_step. cbn in H.
  destruct (xorb t b); [unfold xor_bits; rewrite map_length, combine_length|]; rewrite app_length; cbn; lia.
Qed.
Lemma crc16_fold_length w : forall r, length r = 16 -> length (fold_left crc16_step w r) = 16.
Proof. induction w as [|b w IH]; intros r H; cbn; [assumption|]. apply IH, crc16_step_length, H. Qed.
Lemma crc16_length w : length (crc16 w) = 16.
Proof. unfold crc16. rewrite map_length. apply crc16_fold_length. reflexivity. Qed.
Lemma sub_false_l r : sub (repeat false (length r)) r = r.
Proof. induction r as [|b r IH]; cbn [length repeat sub]; [reflexivity|]. now rewrite xorb_false_l, IH. Qed.
Lemma sub_pad a r : length r < length a -> sub a (r ++ [false]) = sub a r.
Proof.
  revert r; induction a as [|x a IH]; intros [|y r] H; cbn in *; try lia; [now destruct x, a|]. f_equal. apply IH. lia.
Qed.
Lemma sub_sub a b c : length b = length c -> length b <= length a -> sub (sub a b) c = sub a (sub b c).
Proof.
  revert b c; induction a as [|x a IH]; intros [|y b] [|z c] H H'; cbn in *; try lia; try reflexivity.
  rewrite xorb_assoc. f_equal. apply IH; lia.
Qed.
(** the bits still to be divided: the register added onto the rest of the word *)
Lemma division_register w : forall r, length r = 16 ->
  division (length w) (sub (w ++ repeat false 16) r) = fold_left crc16_step w r.
Proof.
  induction w as [|b w IH]; intros r H.
  - cbn [length division app fold_left]. rewrite <- H. apply sub_false_l.
  - destruct r as [|t r]; [discriminate|]. injection H as H.
    assert (H' : length (t :: r) = 16) by (cbn; lia).
    cbn [length division app sub fold_left].
    rewrite <- (IH (crc16_step (t :: r) b)) by now apply crc16_step_length.
    f_equal. unfold crc16_step. rewrite (xorb_comm t b).
    assert (L : 15 < length (w ++ repeat false 16)) by (rewrite app_length, repeat_length; lia).
    destruct (xorb b t).
    + change divisor with (true :: poly16). cbn [sub tl].
      rewrite xor_sub by (rewrite app_length, H; reflexivity).
      rewrite <- sub_sub by (rewrite app_length, H; cbn [length poly16]; lia).
      now rewrite sub_pad by lia.
    + cbn [tl]. now rewrite sub_pad by lia.
Qed.
Lemma sub_zeros n : forall l, n <= length l -> sub l (repeat false n) = l.
Proof. induction n as [|n IH]; intros [|x l] Hl; cbn in *; try lia; try reflexivity. rewrite xorb_false_r, IH by lia. reflexivity. Qed.
Lemma crc16_spec w : crc16 w = crc_of w.
Proof.
  unfold crc16, crc_of. f_equal. rewrite <- division_register by reflexivity. f_equal.
  apply sub_zeros. rewrite app_length, repeat_length. lia.
Qed.
Lemma beq_spec a : forall b, beq a b = true <-> a = b.
Proof.
  induction a as [|x a IH]; intros [|y b]; cbn; try (split; congruence). rewrite andb_true_iff, IH, Bool.eqb_true_iff.
  split; [intros [-> ->]; reflexivity|intros E; injection E as -> ->; auto].
Qed.

(** ** reading a frame through its figure *)
Lemma rd_nth fig f c p : cell_pos fig c = p -> rd fig f c = nth p f false.
Proof. intros <-. reflexivity. Qed.
Lemma map_nth_slice (f : bits) n : forall p, p + n <= length f -> map (fun i => nth i f false) (seq p n) = firstn n (skipn p f).
Proof.
  intros p H. apply list_ext. intros i. destruct (Nat.ltb_spec i n).
  - rewrite nth_error_firstn, nth_error_skipn by assumption. rewrite nth_error_map.
    assert (E : nth_error (seq p n) i = Some (p + i)).
    { rewrite (nth_error_nth' _ 0) by now rewrite seq_length. now rewrite seq_nth. }
    rewrite E. cbn. symmetry. apply nth_error_nth'. lia.
  - rewrite (proj2 (nth_error_None _ _)) by (rewrite map_length, seq_length; lia).
    symmetry. apply nth_error_None. rewrite firstn_length. lia.
Qed.
Lemma rds_slice fig f l p : map (cell_pos fig) l = seq p (length l) -> p + length l <= length f ->
  rds fig f l = firstn (length l) (skipn p f).
Proof.
  intros E H. unfold rds, rd. rewrite <- map_nth_slice by assumption. rewrite <- E, map_map. reflexivity.
Qed.
(** positions of a run of D cells, without evaluating the figure *)
Definition not_D (a b : nat) (c : cell) : bool := match c with D k => (k <? a) || (b <? k) | _ => true end.
Lemma cell_pos_app pre l c : forallb (fun x => negb (cell_eqb x c)) pre = true -> cell_pos (pre ++ l) c = length pre + cell_pos l c.
Proof.
  induction pre as [|x pre IH]; [reflexivity|]. cbn [forallb app cell_pos length]. intros H. apply andb_prop in H as [H1 H2].
  destruct (cell_eqb x c); [discriminate|]. rewrite IH by assumption. reflexivity.
Qed.
Lemma cell_pos_D n : forall a i suf, i < n -> cell_pos (map D (seq a n) ++ suf) (D (a + i)) = i.
Proof.
  induction n as [|n IH]; intros a i suf Hi; [lia|]. cbn [seq map app cell_pos cell_eqb].
  destruct (Nat.eqb_spec a (a + i)); [lia|]. destruct i as [|i]; [lia|].
  replace (a + S i) with (S a + i) by lia. rewrite IH by lia. reflexivity.
Qed.
Lemma cell_run pre a b suf : forallb (not_D a b) pre = true ->
  map (cell_pos ((pre ++ rng D a b) ++ suf)) (rng D a b) = seq (length pre) (b + 1 - a).
Proof.
  intros H. rewrite <- app_assoc. unfold rng. set (n := b + 1 - a). apply list_ext. intros i. rewrite !nth_error_map.
  destruct (Nat.ltb_spec i n) as [Hi|Hi].
  - rewrite !(nth_error_nth' _ 0) by (rewrite seq_length; exact Hi). rewrite !seq_nth by exact Hi. cbn [option_map]. f_equal.
    rewrite cell_pos_app.
    + now rewrite cell_pos_D.
    + rewrite forallb_forall in *. intros x Hx. specialize (H x Hx). destruct x; try reflexivity. cbn in *.
      destruct (Nat.eqb_spec n0 (a + i)) as [->|]; [|reflexivity]. apply orb_prop in H as [H|H]; apply Nat.ltb_lt in H; subst n; lia.
  - rewrite !(proj2 (nth_error_None _ _)) by (rewrite seq_length; exact Hi). reflexivity.
Qed.
Ltac d_run := match goal with |- map (cell_pos ?F) _ = _ => unfold F; rewrite !app_assoc; rewrite cell_run; reflexivity end.
(** decidable check of the sync cells *)
Fixpoint synced_b (fig : list cell) (f : bits) : bool :=
  match fig, f with
  | [], _ => true
  | T0 :: r, b :: f => negb b && synced_b r f
  | T1 :: r, b :: f => b && synced_b r f
  | _ :: r, _ :: f => synced_b r f
  | _ :: _, [] => false
  end.
Lemma synced_b_spec fig : forall f, length fig <= length f -> (synced_b fig f = true <-> synced fig f).
Proof.
  unfold synced. induction fig as [|c fig IH]; intros [|b f] H; cbn [length] in H; try lia.
  - split; [|reflexivity]. intros _ [|i]; split; discriminate.
  - split; [|reflexivity]. intros _ [|i]; split; discriminate.
  - assert (H' : length fig <= length f) by lia. specialize (IH f H').
    assert (S : (forall i, (nth_error (c :: fig) i = Some T0 -> nth_error (b :: f) i = Some false) /\ (nth_error (c :: fig) i = Some T1 -> nth_error (b :: f) i = Some true)) <->
                ((c = T0 -> b = false) /\ (c = T1 -> b = true)) /\ (forall i, (nth_error fig i = Some T0 -> nth_error f i = Some false) /\ (nth_error fig i = Some T1 -> nth_error f i = Some true))).
    { split.
      - intros G. split; [destruct (G 0) as [G0 G1]; cbn in G0, G1; split; intros ->; [specialize (G0 eq_refl)|specialize (G1 eq_refl)]; congruence|].
        intros i. exact (G (S i)).
      - intros [[A B] G] [|i]; [cbn; split; intros E; injection E as E; [rewrite (A E)|rewrite (B E)]; reflexivity|exact (G i)]. }
    rewrite S, <- IH. clear S IH.
    destruct c; cbn [synced_b]; rewrite ?andb_true_iff, ?negb_true_iff; intuition congruence.
Qed.
Fixpoint filled_b (fig : list cell) (f : bits) : bool :=
  match fig, f with
  | [], _ => true
  | K true :: r, b :: f => b && filled_b r f
  | _ :: r, _ :: f => filled_b r f
  | _ :: _, [] => false
  end.
Lemma filled_b_spec fig : forall f, filled_b fig f = true -> filled fig f.
Proof.
  unfold filled. induction fig as [|c fig IH]; intros [|b f] H [|i] E; cbn in E; try discriminate.
  - injection E as ->. cbn in *. discriminate.
  - cbn in H. destruct c as [| |[|]| | | | | | |]; discriminate.
  - injection E as ->. cbn in *. apply andb_true_iff in H as [-> _]. reflexivity.
  - cbn. apply IH; [|assumption]. cbn in H. destruct c as [| |[|]| | | | | | |]; try assumption. now apply andb_true_iff in H as [_ H].
Qed.

(** ** encoder *)
Definition blank_16 : bits := repeat false 16 ++ repeat true 308.
Definition blank_64 : bits := repeat false 64 ++ repeat true 1232.
Lemma memset2 (b : bits) p n : length b = p + n ->
  (do b <- memset b 0 false p; memset b p true n) = Some (repeat false p ++ repeat true n).
Proof.
  intros H. unfold memset. rewrite blit_some by (rewrite repeat_length; lia).
  rewrite firstn_O, repeat_length. cbn [app]. rewrite blit_some by (rewrite app_length, !repeat_length, skipn_length; lia).
  rewrite repeat_length, firstn_app_exact by apply repeat_length.
  rewrite (skipn_all2 (n := p + n)) by (rewrite app_length, repeat_length, skipn_length; lia). now rewrite app_nil_r.
Qed.

Ltac tav3 H := match type of H with (0 <= ?t <= 2)%Z => let h := fresh in assert (h : (t = 0 \/ t = 1 \/ t = 2)%Z) by lia; clear H; destruct h as [h|[h|h]] end.

(** conditions in computable form *)
Definition ok_pcu_sync_16 (f : bits) tav err t1 t2 t3 t4 t5 t6 : Prop :=
  let F := fig_pcu_sync_16 in
  length f = 324 /\ synced_b F f = true /\ filled_b F f = true /\ map (rd F f) (rng TA 1 8) = repeat true 8 /\
  rds F f (rng C 1 7) = lsb_bits 5 (Z.testbit 0x0f) ++ lsb_bits 2 (Z.testbit tav) /\ rd F f (C 8) = negb err /\
  fold_left xorb (rds F f (rng C 1 8 ++ [PC])) false = true /\
  rds F f (rng D 15 36) = msb_bits 22 t1 /\ rds F f (rng D 37 51) = msb_bits 15 t2 /\ rds F f (rng D 60 81) = msb_bits 22 t3 /\
  rds F f (rng D 82 96) = msb_bits 15 t4 /\ rds F f (rng D 105 126) = msb_bits 22 t5 /\ rds F f (rng D 127 141) = msb_bits 15 t6 /\
  (** cells documented 0 *)
  firstn 6 (skipn 26 f) = repeat true 6 /\ firstn 8 (skipn 33 f) = repeat true 8.
Ltac conjs := repeat match goal with |- _ /\ _ => apply conj end; reflexivity.
Lemma enc_sync_16 tav err t1 t2 t3 t4 t5 t6 : (0 <= tav <= 2)%Z ->
  match (do b <- put_c blank_16 FT_PCU_SYNC_IND tav err 17 24 25;
         put_u32s b 320 T_bits_16 [(t1, 41, 22); (t2, 65, 15); (t3, 89, 22); (t4, 113, 15); (t5, 137, 22); (t6, 161, 15)]) with
  | Some (rc, f) => rc = 0%Z /\ ok_pcu_sync_16 f tav err t1 t2 t3 t4 t5 t6
  | None => False
  end.
Proof. intros H. tav3 H; subst tav; destruct err; vm_compute; conjs. Qed.
Lemma enc_sync_16_len tav err t1 t2 t3 t4 t5 t6 :
  match (do b <- put_c blank_16 FT_PCU_SYNC_IND tav err 17 24 25;
         put_u32s b 320 T_bits_16 [(t1, 41, 22); (t2, 65, 15); (t3, 89, 22); (t4, 113, 15); (t5, 137, 22); (t6, 161, 15)]) with
  | Some (rc, f) => rc = 0%Z /\ length f = 324
  | None => False
  end.
Proof. unfold put_c. generalize (Z.testbit tav). intros t. destruct err; vm_compute; conjs. Qed.

(** first 43 bits of a 16k data frame *)
Definition pre_16 (b : bits) (tav : Z) (err e1 e2 e3 e4 : bool) (t_offs t_att : Z -> bool) : option bits :=
  do b <- put_c b FT_DATA_IND tav err 17 24 25;
  do b <- put b 26 e1; do b <- put b 27 e2; do b <- put b 28 e3; do b <- put b 29 e4;
  do b <- blit b 30 (msb_bits 8 t_offs); do b <- blit b 38 (msb_bits 4 t_att);
  do p <- calc_parity b 26 16; put b 42 p.
Ltac optcases := repeat match goal with |- context [match ?e with Some _ => _ | None => _ end] => destruct e end; reflexivity.
Lemma enc_data_16_eq b d e1 e2 e3 e4 : cs_code_16 (pd_cs d) = Some (e1, e2) -> mode_code_16 (pd_mode d) = Some (e3, e4) ->
  enc_pcu_data_ind_16 b d =
  do b <- pre_16 b (pd_tav d) (pd_err d) e1 e2 e3 e4 (Z.testbit (pd_offs d)) (Z.testbit (pd_atten d));
  do b <- (if (pd_cs d =? CS_CS1)%Z then do b <- memcpy b 43 (pd_data d) 0 184; put_crc b 43 184
           else memcpy b 43 (pd_data d) 0 271);
  Some (timing_16 (pd_tav d), b).
Proof.
  intros H1 H2. unfold enc_pcu_data_ind_16, pre_16. rewrite H1, H2.
  destruct (put_c b FT_DATA_IND (pd_tav d) (pd_err d) 17 24 25) as [b1|]; [|reflexivity].
  destruct (put b1 26 e1) as [b2|]; [|reflexivity]. destruct (put b2 27 e2) as [b3|]; [|reflexivity].
  destruct (put b3 28 e3) as [b4|]; [|reflexivity]. destruct (put b4 29 e4) as [b5|]; [|reflexivity].
  destruct (blit b5 30 _) as [b6|]; [|reflexivity]. destruct (blit b6 38 _) as [b7|]; [|reflexivity].
  destruct (calc_parity b7 26 16) as [p|]; [|reflexivity]. destruct (put b7 42 p); reflexivity.
Qed.
Definition ok_pre_16 (p x : bits) tav err e1 e2 e3 e4 to ta : Prop :=
  let F := fig_pcu_data_16 in let f := p ++ x in
  length p = 43 /\ synced_b (firstn 43 F) p = true /\
  rds F f (rng C 1 7) = lsb_bits 5 (Z.testbit 0x1a) ++ lsb_bits 2 (Z.testbit tav) /\ rd F f (C 8) = negb err /\
  fold_left xorb (rds F f (rng C 1 8 ++ [PC])) false = true /\
  rds F f [E 1; E 2] = [e1; e2] /\ rds F f [E 3; E 4] = [e3; e4] /\ rds F f (rng E 5 12) = msb_bits 8 to /\ rds F f (rng E 13 16) = msb_bits 4 ta /\
  rd F f PE = fold_left xorb ([e1; e2; e3; e4] ++ msb_bits 8 to ++ msb_bits 4 ta) true.
Lemma pre_16_ok tav err e1 e2 e3 e4 to ta x : (0 <= tav <= 2)%Z ->
  match pre_16 blank_16 tav err e1 e2 e3 e4 to ta with
  | Some b => b = firstn 43 b ++ repeat true 281 /\ ok_pre_16 (firstn 43 b) x tav err e1 e2 e3 e4 to ta
  | None => False
  end.
Proof. intros H. tav3 H; subst tav; destruct err; vm_compute; conjs. Qed.
Lemma synced_b_app F1 : forall F2 a b, length F1 = length a -> synced_b (F1 ++ F2) (a ++ b) = synced_b F1 a && synced_b F2 b.
Proof.
  induction F1 as [|c F1 IH]; intros F2 [|x a] b H; cbn in H; try discriminate; [reflexivity|].
  cbn [app synced_b]. rewrite IH by lia. destruct c; rewrite ?andb_assoc; reflexivity.
Qed.
Definition no_T (c : cell) : bool := match c with T0 | T1 => false | _ => true end.
Lemma synced_free F : forall f, forallb no_T F = true -> length F <= length f -> synced_b F f = true.
Proof.
  induction F as [|c F IH]; intros [|b f] H L; cbn in *; try lia; try reflexivity.
  apply andb_true_iff in H as [H1 H2]. destruct c; try discriminate; apply IH; assumption || lia.
Qed.
Lemma one_each_slice F f l p : map (cell_pos F) l = seq p (length l) -> p + length l <= length f ->
  firstn (length l) (skipn p f) = repeat true (length l) -> one_each F f l.
Proof.
  intros H1 H2 H3. rewrite <- (rds_slice F f l p H1 H2) in H3. unfold one_each. apply Forall_forall. intros c Hc.
  assert (G : forall l', rds F f l' = repeat true (length l') -> In c l' -> rd F f c = true).
  { induction l' as [|y l' IH]; [contradiction|]. cbn. intros E [->|HI]; injection E as E1 E2; auto. }
  exact (G l H3 Hc).
Qed.
