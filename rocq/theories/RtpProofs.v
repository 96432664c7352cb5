From Coq Require Import List Arith Lia Bool ZArith.
From Verif Require Import Base RtpSpec RaaModel TrauModel TrauProofs RtpModel.
Import ListNotations.

(** * Octets and bits *)
Lemma octet_bits b7 b6 b5 b4 b3 b2 b1 b0 :
  bits_of_octet (octet_of_bits [b7;b6;b5;b4;b3;b2;b1;b0]) = [b7;b6;b5;b4;b3;b2;b1;b0] /\
  is_octet (octet_of_bits [b7;b6;b5;b4;b3;b2;b1;b0]).
Proof. destruct b7, b6, b5, b4, b3, b2, b1, b0; (split; [reflexivity | split; discriminate]). Qed.

Lemma bits_octet z : is_octet z -> octet_of_bits (bits_of_octet z) = z.
Proof.
  intros [H1 H2].
  assert (K : forallb (fun n => (octet_of_bits (bits_of_octet (Z.of_nat n)) =? Z.of_nat n)%Z) (seq 0 256) = true)
    by (vm_compute; reflexivity).
  rewrite forallb_forall in K. specialize (K (Z.to_nat z)).
  rewrite Z2Nat.id in K by lia. apply Z.eqb_eq, K, in_seq. lia.
Qed.

Lemma boo_length l : length (bits_of_octets l) = 8 * length l.
Proof. induction l as [|z l IH]; [reflexivity|]. unfold bits_of_octets in *. cbn [flat_map]. rewrite app_length, IH. cbn [length bits_of_octet map]. lia. Qed.

Lemma octets_of_bits_of l : Forall is_octet l -> octets_of_bits (bits_of_octets l) = l.
Proof.
  induction 1 as [|z l H F IH]; [reflexivity|].
  assert (E : octets_of_bits (bits_of_octets (z :: l)) = octet_of_bits (bits_of_octet z) :: octets_of_bits (bits_of_octets l)) by reflexivity.
  rewrite E, IH, bits_octet by assumption. reflexivity.
Qed.

Lemma bits_ind8 (P : bits -> Prop) : P [] ->
  (forall a b c d e f g h l, P l -> P (a::b::c::d::e::f::g::h::l)) ->
  forall n l, length l = 8 * n -> P l.
Proof.
  intros H0 HS. induction n as [|n IH]; intros l L.
  - destruct l; [exact H0|discriminate].
  - do 8 (destruct l as [|? l]; [cbn in L; lia|]). apply HS, IH. cbn in L. lia.
Qed.

Lemma bits_of_octets_of n l : length l = 8 * n -> bits_of_octets (octets_of_bits l) = l.
Proof.
  revert n l. apply (bits_ind8 (fun l => bits_of_octets (octets_of_bits l) = l)); [reflexivity|].
  intros a b c d e f g h l IH. cbn [octets_of_bits].
  change (bits_of_octets (?x :: ?y)) with (bits_of_octet x ++ bits_of_octets y).
  rewrite IH. destruct (octet_bits a b c d e f g h) as [-> _]. reflexivity.
Qed.
Lemma oob_length n l : length l = 8 * n -> length (octets_of_bits l) = n.
Proof. intros H. pose proof (boo_length (octets_of_bits l)) as L. rewrite (bits_of_octets_of n l H) in L. lia. Qed.
Lemma oob_octets n l : length l = 8 * n -> Forall is_octet (octets_of_bits l).
Proof.
  revert n l. apply (bits_ind8 (fun l => Forall is_octet (octets_of_bits l))); [constructor|].
  intros a b c d e f g h l IH. cbn [octets_of_bits]. constructor; [apply octet_bits|exact IH].
Qed.
Lemma oob_app n l r : length l = 8 * n -> octets_of_bits (l ++ r) = octets_of_bits l ++ octets_of_bits r.
Proof.
  revert n l. apply (bits_ind8 (fun l => octets_of_bits (l ++ r) = octets_of_bits l ++ octets_of_bits r)); [reflexivity|].
  intros a b c d e f g h l IH. cbn [app octets_of_bits]. now rewrite IH.
Qed.
Lemma oob_firstn n k l : length l = 8 * n -> k <= n -> octets_of_bits (firstn (8 * k) l) = firstn k (octets_of_bits l).
Proof.
  intros L Hk. rewrite <- (firstn_skipn (8 * k) l) at 2.
  rewrite (oob_app k) by (rewrite firstn_length; lia). symmetry. apply firstn_app_exact, oob_length.
  rewrite firstn_length; lia.
Qed.
Lemma oob_skipn n k l : length l = 8 * n -> k <= n -> octets_of_bits (skipn (8 * k) l) = skipn k (octets_of_bits l).
Proof.
  intros L Hk. rewrite <- (firstn_skipn (8 * k) l) at 2.
  rewrite (oob_app k) by (rewrite firstn_length; lia). symmetry. apply skipn_app_exact, oob_length.
  rewrite firstn_length; lia.
Qed.

(** * FR *)
Lemma split_vec (out : bits) n : n <= length out -> exists f, out = vec n f ++ skipn n out.
Proof.
  intros. exists (fun i => nth i (firstn n out) false).
  rewrite <- (vec_of_list (firstn n out) n) by (rewrite firstn_length; lia). symmetry; apply firstn_skipn.
Qed.
Lemma get_nth (l : bits) i : i < length l -> get l i = Some (nth i l false).
Proof. intros. unfold get. now apply nth_error_nth'. Qed.

Definition fr_hdr (fr : tframe) : bits :=
  [true;true;true;false; nth 16 (tf_c fr) false; false; nth 11 (tf_c fr) false; nth 14 (tf_c fr) false].

Definition fr_nonsid_positions : list nat :=
  concat (map (fun n => map (fun k => 8 * (5 + 7 * n) + k) [18;21;24;27]) [0;1;2;3]).
Definition set_positions (v : bool) (ps : list nat) (l : bits) : bits :=
  map (fun p => if existsb (Nat.eqb (fst p)) ps then v else snd p) (combine (seq 0 (length l)) l).


(** all C bits as separate variables *)
Lemma tf_symbolic_c (P : tframe -> Prop) :
  (forall ty dir ta c0 c1 c2 c3 c4 c5 c6 c7 c8 c9 c10 c11 c12 c13 c14 c15 c16 c17 c18 c19 c20 c21 c22 c23 c24 fd ft fs fm u fcr fx,
     P (mkTf ty dir ta [c0;c1;c2;c3;c4;c5;c6;c7;c8;c9;c10;c11;c12;c13;c14;c15;c16;c17;c18;c19;c20;c21;c22;c23;c24] (vec 288 fd) (vec 4 ft) (vec 6 fs) (vec 2 fm) u (vec 3 fcr) (vec 6 fx))) ->
  forall fr, tf_wf fr -> P fr.
Proof.
  intros H [ty dir ta c d t s m u cr x] (Hc & Hd & Ht & Hs & Hm & Hcr & Hx).
  cbn [tf_c tf_d tf_t tf_s tf_m tf_crc tf_xc] in *.
  do 25 (destruct c as [|? c]; [discriminate|]). destruct c; [|discriminate].
  rewrite (vec_of_list _ _ Hd), (vec_of_list _ _ Ht), (vec_of_list _ _ Hs),
    (vec_of_list _ _ Hm), (vec_of_list _ _ Hcr), (vec_of_list _ _ Hx).
  apply H.
Qed.
Ltac sym_c := match goal with |- forall fr, tf_wf fr -> @?P fr => apply (tf_symbolic_c P) end; intros.
Ltac vmr := match goal with |- ?x = ?y => vm_cast_no_check (eq_refl y) end.


(** ** D bits <-> payload bits *)
Lemma fr_reassemble_0 f d rest : length d = 288 ->
  fr_reassemble (vec 264 f ++ rest) 0 d = Some (fr_rtp_bits d ++ rest).
Proof. intros H. sym_buf d H. vmr. Qed.
Lemma fr_reassemble_8 f d h0 h1 h2 h3 h4 h5 h6 h7 rest : length d = 288 ->
  fr_reassemble (h0::h1::h2::h3::h4::h5::h6::h7::(vec 264 f ++ rest)) 8 d
  = Some ([h0;h1;h2;h3;h4;h5;h6;h7] ++ fr_rtp_bits d ++ rest).
Proof. intros H. sym_buf d H. vmr. Qed.
Lemma fr_rtp_length d : length d = 288 -> length (fr_rtp_bits d) = 264.
Proof. intros H. sym_buf d H. vmr. Qed.
Lemma fr_nonsid_8 p h0 h1 h2 h3 h4 h5 h6 h7 rest : length p = 264 ->
  make_fr_bfi_nonsid ([h0;h1;h2;h3;h4;h5;h6;h7] ++ p ++ rest) 8 =
  Some ([h0;h1;h2;h3;h4;h5;h6;h7] ++ set_positions true fr_nonsid_positions p ++ rest).
Proof. intros H. sym_buf p H. vmr. Qed.

(** the 260 D bits of a payload *)
Definition fr_d_of (data : bits) : bits :=
  concat (map (@rev bool) (pieces fr_widths (skipn 4 data))).
Lemma fr_set_d_ok d data : length d = 288 -> length data = 264 ->
  fr_set_d d data = Some (fr_d_of data ++ skipn 260 d).
Proof. intros H H'. sym_buf d H. sym_buf data H'. vmr. Qed.
Lemma fr_d_of_length data : length data = 264 -> length (fr_d_of data) = 260.
Proof. intros H'. sym_buf data H'. vmr. Qed.
Lemma fr_d_rtp data r : length data = 264 -> fr_rtp_bits (fr_d_of data ++ r) = [true;true;false;true] ++ skipn 4 data.
Proof. intros H'. sym_buf data H'. vmr. Qed.
Lemma fr_rtp_d d : length d = 288 -> fr_d_of (fr_rtp_bits d) = firstn 260 d.
Proof. intros H'. sym_buf d H'. vmr. Qed.

(** ** EFR *)
Definition efr_ok (d : bits) : bool :=
  forallb (fun g => crc3_check (at_ d (fst g)) (firstn 3 (skipn (snd g) d))) efr_protected.
Definition efr_prot1 d i := let g := nth i efr_protected ([], 0) in
  crc3_check (at_ d (fst g)) (firstn 3 (skipn (snd g) d)).

Lemma efr_ok_split d : efr_ok d = efr_prot1 d 0 && efr_prot1 d 1 && efr_prot1 d 2 && efr_prot1 d 3 && efr_prot1 d 4.
Proof. unfold efr_ok, efr_protected, efr_prot1. cbn [forallb nth fst snd]. now rewrite andb_true_r, !andb_assoc. Qed.


Lemma efr_par_1 d : length d = 288 -> efr_parity_bits_1 d = Some (at_ d (fst (nth 0 efr_protected ([],0)))).
Proof. intros H. sym_buf d H. vmr. Qed.
Lemma efr_par_2 d : length d = 288 -> efr_parity_bits_2 d = Some (at_ d (fst (nth 1 efr_protected ([],0)))).
Proof. intros H. sym_buf d H. vmr. Qed.
Lemma efr_par_3 d : length d = 288 -> efr_parity_bits_3 d = Some (at_ d (fst (nth 2 efr_protected ([],0)))).
Proof. intros H. sym_buf d H. vmr. Qed.
Lemma efr_par_4 d : length d = 288 -> efr_parity_bits_4 d = Some (at_ d (fst (nth 3 efr_protected ([],0)))).
Proof. intros H. sym_buf d H. vmr. Qed.
Lemma efr_par_5 d : length d = 288 -> efr_parity_bits_5 d = Some (at_ d (fst (nth 4 efr_protected ([],0)))).
Proof. intros H. sym_buf d H. vmr. Qed.

Definition efr_reassemble' (k0 k1 k2 k3 k4 : bool) (out : bits) (op : nat) (d : bits) : option (bool * bits) :=
  do out <- blit out op [true; true; false; false; false; false; false; false];
  do out <- memset out (op + 8) false (30 * 8);
  do out <- efr_copy out op d 1 4 38;
  if negb k0 then Some (false, out) else
  do out <- efr_copy out op d 42 42 53;
  if negb k1 then Some (false, out) else
  do out <- efr_copy out op d 98 95 50;
  if negb k2 then Some (false, out) else
  do out <- efr_copy out op d 151 145 53;
  if negb k3 then Some (false, out) else
  do out <- efr_copy out op d 207 198 50;
  Some (k4, out).
Lemma efr_reassemble_abs out op d : length d = 288 ->
  efr_reassemble out op d =
  efr_reassemble' (efr_prot1 d 0) (efr_prot1 d 1) (efr_prot1 d 2) (efr_prot1 d 3) (efr_prot1 d 4) out op d.
Proof.
  intros H. unfold efr_reassemble, efr_reassemble'.
  rewrite efr_par_1, efr_par_2, efr_par_3, efr_par_4, efr_par_5 by assumption.
  rewrite !slice_some by (rewrite H; lia).
  reflexivity.
Qed.
Lemma efr_reassemble_0 f d rest : length d = 288 ->
  if efr_ok d then efr_reassemble (vec 248 f ++ rest) 0 d = Some (true, efr_rtp_bits d ++ rest)
  else exists p, length p = 248 /\ efr_reassemble (vec 248 f ++ rest) 0 d = Some (false, p ++ rest).
Proof.
  intros H. rewrite efr_ok_split, efr_reassemble_abs by assumption.
  generalize (efr_prot1 d 0) (efr_prot1 d 1) (efr_prot1 d 2) (efr_prot1 d 3) (efr_prot1 d 4).
  intros k0 k1 k2 k3 k4. sym_buf d H.
  assert (A : efr_reassemble' k0 k1 k2 k3 k4 (vec 248 f ++ rest) 0 (vec 288 b) = 
     Some (k0 && k1 && k2 && k3 && k4, 
       match efr_reassemble' k0 k1 k2 k3 k4 (vec 248 f) 0 (vec 288 b) with Some (_, p) => p | None => [] end ++ rest) /\
     length (match efr_reassemble' k0 k1 k2 k3 k4 (vec 248 f) 0 (vec 288 b) with Some (_, p) => p | None => [] end) = 248).
  { destruct k0, k1, k2, k3, k4; (split; vmr). }
  destruct A as [A B]. destruct (k0 && k1 && k2 && k3 && k4) eqn:K; [|eexists; split; [exact B|exact A]].
  rewrite A. f_equal. f_equal. f_equal. 
  rewrite !andb_true_iff in K. destruct K as ((((-> & ->) & ->) & ->) & ->). vmr.
Qed.
Lemma efr_reassemble_8 f d h0 h1 h2 h3 h4 h5 h6 h7 rest : length d = 288 ->
  if efr_ok d then efr_reassemble (h0::h1::h2::h3::h4::h5::h6::h7::(vec 248 f ++ rest)) 8 d 
    = Some (true, [h0;h1;h2;h3;h4;h5;h6;h7] ++ efr_rtp_bits d ++ rest)
  else exists p, length p = 248 /\ efr_reassemble (h0::h1::h2::h3::h4::h5::h6::h7::(vec 248 f ++ rest)) 8 d 
    = Some (false, [h0;h1;h2;h3;h4;h5;h6;h7] ++ p ++ rest).
Proof.
  intros H. rewrite efr_ok_split, efr_reassemble_abs by assumption.
  generalize (efr_prot1 d 0) (efr_prot1 d 1) (efr_prot1 d 2) (efr_prot1 d 3) (efr_prot1 d 4).
  intros k0 k1 k2 k3 k4. sym_buf d H.
  assert (A : efr_reassemble' k0 k1 k2 k3 k4 (h0::h1::h2::h3::h4::h5::h6::h7::(vec 248 f ++ rest)) 8 (vec 288 b) = 
     Some (k0 && k1 && k2 && k3 && k4, [h0;h1;h2;h3;h4;h5;h6;h7] ++
       match efr_reassemble' k0 k1 k2 k3 k4 (vec 248 f) 0 (vec 288 b) with Some (_, p) => p | None => [] end ++ rest) /\
     length (match efr_reassemble' k0 k1 k2 k3 k4 (vec 248 f) 0 (vec 288 b) with Some (_, p) => p | None => [] end) = 248).
  { destruct k0, k1, k2, k3, k4; (split; vmr). }
  destruct A as [A B]. destruct (k0 && k1 && k2 && k3 && k4) eqn:K; [|eexists; split; [exact B|exact A]].
  rewrite A. f_equal. f_equal. f_equal. f_equal.
  rewrite !andb_true_iff in K. destruct K as ((((-> & ->) & ->) & ->) & ->). vmr.
Qed.
Lemma efr_rtp_length d : length d = 288 -> length (efr_rtp_bits d) = 248.
Proof. intros H. sym_buf d H. vmr. Qed.
Lemma efr_nonsid_8 p h0 h1 h2 h3 h4 h5 h6 h7 rest : length p = 248 ->
  make_efr_bfi_nonsid ([h0;h1;h2;h3;h4;h5;h6;h7] ++ p ++ rest) 8 =
  Some ([h0;h1;h2;h3;h4;h5;h6;h7] ++ set_positions false efr_nonsid_positions p ++ rest).
Proof. intros H. sym_buf p H. vmr. Qed.

(** the 260 D bits of a payload *)
Definition efr_pieces (data : bits) : bits :=
  [true] ++ firstn 38 (skipn 4 data) ++ repeat false 3 ++ firstn 53 (skipn 42 data) ++ repeat false 3 ++
  firstn 50 (skipn 95 data) ++ repeat false 3 ++ firstn 53 (skipn 145 data) ++ repeat false 3 ++ firstn 50 (skipn 198 data).
Definition efr_crc (data : bits) (i : nat) : bits := crc3_bits (at_ (efr_pieces data) (fst (nth i efr_protected ([], 0)))).
Definition efr_d_of (data : bits) : bits :=
  [true] ++ firstn 38 (skipn 4 data) ++ efr_crc data 0 ++ firstn 53 (skipn 42 data) ++ efr_crc data 1 ++
  firstn 50 (skipn 95 data) ++ efr_crc data 2 ++ firstn 53 (skipn 145 data) ++ efr_crc data 3 ++
  firstn 50 (skipn 198 data) ++ efr_crc data 4.

Lemma efr_set_d_ok d data : length d = 288 -> length data = 248 ->
  efr_set_d d data = Some (efr_d_of data ++ skipn 260 d).
Proof.
  intros H H'. unfold efr_set_d, efr_d_of, efr_crc, crc3_bits. generalize crc3. intros c.
  sym_buf d H. sym_buf data H'. vmr.
Qed.
Lemma efr_d_of_length data : length data = 248 -> length (efr_d_of data) = 260.
Proof.
  intros H'. unfold efr_d_of, efr_crc, crc3_bits. generalize crc3. intros c. sym_buf data H'. vmr.
Qed.
Lemma efr_d_rtp data r : length data = 248 -> efr_rtp_bits (efr_d_of data ++ r) = [true;true;false;false] ++ skipn 4 data.
Proof.
  intros H'. unfold efr_d_of, efr_crc, crc3_bits. generalize crc3. intros c. sym_buf data H'. vmr.
Qed.
Lemma crc3_check_refl w : crc3_check w (crc3_bits w) = true.
Proof. unfold crc3_check, crc3_bits. now rewrite !Bool.eqb_reflx. Qed.
Lemma efr_d_ok data r : length data = 248 -> efr_ok (efr_d_of data ++ r) = true.
Proof.
  intros H'. rewrite efr_ok_split. unfold efr_prot1.
  assert (K : forall i, i < 5 -> let g := nth i efr_protected ([], 0) in
     at_ (efr_d_of data ++ r) (fst g) = at_ (efr_pieces data) (fst g) /\
     firstn 3 (skipn (snd g) (efr_d_of data ++ r)) = crc3_bits (at_ (efr_pieces data) (fst g))).
  { unfold efr_d_of, efr_crc, crc3_bits. generalize crc3. intros c. sym_buf data H'.
    intros j Hj. do 5 (destruct j as [|j]; [split; vmr|]). lia. }
  assert (K' : forall i, i < 5 -> efr_prot1 (efr_d_of data ++ r) i = true).
  { intros i Hi. unfold efr_prot1. cbv zeta. destruct (K i Hi) as [-> ->]. apply crc3_check_refl. }
  unfold efr_prot1 in K'. rewrite !K' by lia. reflexivity.
Qed.

(** ** speech bodies *)
Lemma hdr_ok fr : tf_wf fr -> twts001_hdr fr = Some (fr_hdr fr).
Proof. intros (Hc & _). unfold twts001_hdr, fr_hdr. rewrite !get_nth by (rewrite Hc; lia). reflexivity. Qed.

Lemma blit0_hdr (out h : bits) : length h = 8 -> 8 <= length out -> blit out 0 h = Some (h ++ skipn 8 out).
Proof. intros. rewrite blit_some by lia. cbn [firstn app Nat.add]. now rewrite H. Qed.

Lemma slice_app2 (h p rest : bits) n : length p = n -> slice (h ++ p ++ rest) (length h) n = Some p.
Proof.
  intros <-. replace (length h) with (length h + 0) by lia. rewrite slice_app_r.
  rewrite slice_app_l by lia. now apply slice_all.
Qed.
Lemma slice_app1 (p rest : bits) n : length p = n -> slice (p ++ rest) 0 n = Some p.
Proof. intros <-. rewrite slice_app_l by lia. now apply slice_all. Qed.

Definition fr_out (cd : codec) (fr : tframe) : bits :=
  if nth 11 (tf_c fr) false && negb (nth 12 (tf_c fr) false) && negb (nth 13 (tf_c fr) false)
     && osmo_fr_is_any_sid cd (fr_rtp_bits (tf_d fr))
  then set_positions true fr_nonsid_positions (fr_rtp_bits (tf_d fr)) else fr_rtp_bits (tf_d fr).

Lemma fr_body_plain cd fr out : tf_wf fr -> 264 <= length out ->
  trau2rtp_fr_body cd out fr false =
  if nth 11 (tf_c fr) false then Some (0%Z, out)
  else Some (33%Z, fr_rtp_bits (tf_d fr) ++ skipn 264 out).
Proof.
  intros W L. pose proof W as (Hc & Hd & _). unfold trau2rtp_fr_body.
  rewrite !get_nth by (rewrite Hc; lia). destruct (nth 11 (tf_c fr) false); [reflexivity|]. cbn [andb negb].
  destruct (split_vec out 264 L) as [f E]. rewrite E at 1. rewrite fr_reassemble_0 by assumption.
  rewrite (slice_app1 _ _ (33 * 8)) by now apply fr_rtp_length. reflexivity.
Qed.

Lemma fr_body_ext cd fr out : tf_wf fr -> 272 <= length out ->
  trau2rtp_fr_body cd out fr true = Some (34%Z, fr_hdr fr ++ fr_out cd fr ++ skipn 272 out).
Proof.
  intros W L. pose proof W as (Hc & Hd & _). unfold trau2rtp_fr_body, fr_out.
  rewrite hdr_ok by assumption. rewrite blit0_hdr by (try reflexivity; lia).
  rewrite !get_nth by (rewrite Hc; lia).
  replace (nth 11 (tf_c fr) false && negb true) with false by now rewrite andb_false_r.
  destruct (split_vec (skipn 8 out) 264) as [f E]; [rewrite skipn_length; lia|].
  rewrite skipn_skipn' in E. change (8 + 264) with 272 in E. rewrite E. unfold fr_hdr at 1. cbn [app].
  rewrite fr_reassemble_8 by assumption. fold (fr_hdr fr).
  change (slice (?h ++ ?x) 8) with (slice (h ++ x) (length (fr_hdr fr))).
  rewrite (slice_app2 (fr_hdr fr) _ _ (33 * 8)) by now apply fr_rtp_length.
  destruct (_ && _ && _ && _); [|reflexivity].
  unfold fr_hdr. rewrite fr_nonsid_8 by now apply fr_rtp_length. reflexivity.
Qed.

Definition efr_out (cd : codec) (fr : tframe) : bits :=
  if nth 11 (tf_c fr) false && negb (nth 12 (tf_c fr) false) && negb (nth 13 (tf_c fr) false)
     && osmo_efr_is_any_sid cd (efr_rtp_bits (tf_d fr))
  then set_positions false efr_nonsid_positions (efr_rtp_bits (tf_d fr)) else efr_rtp_bits (tf_d fr).
(** header with BFI and No_Data set *)
Definition bad_hdr (fr : tframe) : bits :=
  [true;true;true;false; nth 16 (tf_c fr) false; true; true; nth 14 (tf_c fr) false].

Lemma efr_body_plain cd fr out : tf_wf fr -> 248 <= length out ->
  exists rc p, trau2rtp_efr_body cd out fr false = Some (rc, p ++ skipn 248 out) /\ length p = 248 /\
  if nth 11 (tf_c fr) false || negb (efr_ok (tf_d fr)) then rc = 0%Z
  else rc = 31%Z /\ p = efr_rtp_bits (tf_d fr).
Proof.
  intros W L. pose proof W as (Hc & Hd & _). unfold trau2rtp_efr_body.
  rewrite !get_nth by (rewrite Hc; lia). destruct (split_vec out 248 L) as [f E].
  destruct (nth 11 (tf_c fr) false).
  { exists 0%Z, (vec 248 f). rewrite <- E. split; [reflexivity|]. split; [apply vec_length|reflexivity]. }
  cbn [andb negb orb]. pose proof (efr_reassemble_0 f (tf_d fr) (skipn 248 out) Hd) as R. rewrite <- E in R.
  destruct (efr_ok (tf_d fr)).
  - rewrite R. cbn [negb]. rewrite (slice_app1 _ _ (31 * 8)) by now apply efr_rtp_length.
    exists 31%Z, (efr_rtp_bits (tf_d fr)). split; [reflexivity|]. split; [now apply efr_rtp_length|auto].
  - destruct R as (p & Lp & ->). exists 0%Z, p. repeat split; auto.
Qed.

Lemma put_at5 (h0 h1 h2 h3 h4 h5 h6 h7 : bool) r :
  (do out <- put ([h0;h1;h2;h3;h4;h5;h6;h7] ++ r) 5 true; do out <- put out 6 true; Some (1%Z, out))
  = Some (1%Z, [h0;h1;h2;h3;h4;true;true;h7] ++ r).
Proof. reflexivity. Qed.

Lemma efr_body_ext cd fr out : tf_wf fr -> 256 <= length out ->
  if efr_ok (tf_d fr) then
    trau2rtp_efr_body cd out fr true = Some (32%Z, fr_hdr fr ++ efr_out cd fr ++ skipn 256 out)
  else exists p, trau2rtp_efr_body cd out fr true = Some (1%Z, bad_hdr fr ++ p ++ skipn 256 out) /\ length p = 248.
Proof.
  intros W L. pose proof W as (Hc & Hd & _). unfold trau2rtp_efr_body, efr_out.
  rewrite hdr_ok by assumption. rewrite blit0_hdr by (try reflexivity; lia).
  rewrite !get_nth by (rewrite Hc; lia).
  replace (nth 11 (tf_c fr) false && negb true) with false by now rewrite andb_false_r.
  destruct (split_vec (skipn 8 out) 248) as [f E]; [rewrite skipn_length; lia|].
  rewrite skipn_skipn' in E. change (8 + 248) with 256 in E. rewrite E. unfold fr_hdr. cbn [app].
  pose proof (fun h0 h1 h2 h3 h4 h5 h6 h7 => efr_reassemble_8 f (tf_d fr) h0 h1 h2 h3 h4 h5 h6 h7 (skipn 256 out) Hd) as R.
  destruct (efr_ok (tf_d fr)).
  - rewrite R. cbn [negb]. fold (fr_hdr fr).
    change (slice (?h ++ ?x) 8) with (slice (h ++ x) (length (fr_hdr fr))).
    rewrite (slice_app2 (fr_hdr fr) _ _ (31 * 8)) by now apply efr_rtp_length.
    destruct (_ && _ && _ && _); [|reflexivity].
    unfold fr_hdr. rewrite efr_nonsid_8 by now apply efr_rtp_length. reflexivity.
  - match goal with |- context [efr_reassemble (?a :: ?b :: ?c :: ?d :: ?e :: ?f' :: ?g :: ?h :: _)] =>
      destruct (R a b c d e f' g h) as (p & Lp & ->) end.
    exists p. split; [|exact Lp]. reflexivity.
Qed.

(** ** CRC error detection *)
Lemma crc3_step_inj s s' b b' : crc3_step s b = crc3_step s' b' -> (s = s' /\ b = b') \/ (s <> s' /\ b <> b').
Proof.
  destruct s as [[s2 s1] s0], s' as [[t2 t1] t0], s2, s1, s0, t2, t1, t0, b, b'; cbn; intros E; try discriminate E;
  first [left; split; congruence | right; split; congruence].
Qed.
Lemma crc3_fold_ne w s s' : s <> s' -> fold_left crc3_step w s <> fold_left crc3_step w s'.
Proof.
  revert s s'. induction w as [|b w IH]; intros s s' H; [exact H|]. cbn [fold_left]. apply IH.
  intros E. destruct (crc3_step_inj _ _ _ _ E) as [[? _]|[_ ?]]; congruence.
Qed.
Lemma crc3_flip a b x : crc3_state (a ++ x :: b) <> crc3_state (a ++ negb x :: b).
Proof.
  unfold crc3_state. rewrite !fold_left_app. cbn [fold_left]. apply crc3_fold_ne.
  intros E. destruct (crc3_step_inj _ _ _ _ E) as [[_ H]|[H _]]; [destruct x; discriminate|congruence].
Qed.
Lemma crc3_check_eq w c : length c = 3 -> (crc3_check w c = true <-> c = crc3_bits w).
Proof.
  destruct c as [|a [|b [|d [|]]]]; try discriminate. intros _. unfold crc3_check, crc3_bits.
  rewrite !andb_true_iff, !Bool.eqb_true_iff. split; [intros ((-> & ->) & ->); reflexivity|intros E; injection E; auto].
Qed.
Lemma crc3_bits_inj w w' : crc3_bits w = crc3_bits w' -> crc3_state w = crc3_state w'.
Proof.
  unfold crc3_bits, crc3. destruct (crc3_state w) as [[a b] c], (crc3_state w') as [[d e] f].
  intros E; injection E as E1 E2 E3. destruct a, b, c, d, e, f; cbn in *; congruence.
Qed.

(** inversion of one bit *)
Definition flip (d : bits) (p : nat) : bits := splice d p [negb (nth p d false)].
Lemma flip_length d p : p < length d -> length (flip d p) = length d.
Proof. intros. unfold flip. apply splice_length. cbn; lia. Qed.
Lemma nth_flip d p i : p < length d -> nth i (flip d p) false = if i =? p then negb (nth p d false) else nth i d false.
Proof.
  intros H. unfold flip, splice. assert (L : length (firstn p d) = p) by (rewrite firstn_length; lia).
  destruct (Nat.eqb_spec i p) as [->|N].
  - rewrite app_nth2 by lia. now rewrite L, Nat.sub_diag.
  - destruct (Nat.lt_ge_cases i p).
    + rewrite app_nth1 by lia. rewrite <- (firstn_skipn p d) at 2. rewrite app_nth1 by lia. reflexivity.
    + rewrite app_nth2 by lia. rewrite L. cbn [length]. change ([negb (nth p d false)] ++ ?r) with (negb (nth p d false) :: r).
      destruct (i - p) as [|k] eqn:E; [lia|]. cbn [nth].
      rewrite <- (firstn_skipn (p + 1) d) at 2. rewrite app_nth2; rewrite firstn_length; [|lia]. f_equal. lia.
Qed.
Lemma at_flip_out d p l : p < length d -> ~ In p l -> at_ (flip d p) l = at_ d l.
Proof.
  intros H N. apply map_ext_in. intros i Hi. rewrite nth_flip by assumption.
  destruct (Nat.eqb_spec i p); [congruence|reflexivity].
Qed.
Lemma firstn3_at d q : q + 3 <= length d -> firstn 3 (skipn q d) = at_ d [q; q+1; q+2].
Proof.
  intros H. apply (nth_ext _ _ false false).
  - unfold at_. rewrite firstn_length, skipn_length, map_length. cbn [length]. lia.
  - intros n Hn. rewrite firstn_length in Hn. cbn [at_ map].
    rewrite <- (firstn_skipn q d) at 2 3 4. assert (L : length (firstn q d) = q) by (rewrite firstn_length; lia).
    rewrite !app_nth2 by lia. rewrite L.
    replace (q - q) with 0 by lia. replace (q + 1 - q) with 1 by lia. replace (q + 2 - q) with 2 by lia.
    destruct (skipn q d) as [|a [|b [|c r]]] eqn:E; try (apply (f_equal (@length bool)) in E; rewrite skipn_length in E; cbn in E; lia).
    destruct n as [|[|[|[|n]]]]; reflexivity.
Qed.

Lemma efr_group_facts i : i < 5 -> let g := nth i efr_protected ([], 0) in
  NoDup (fst g) /\ (forall p, In p (fst g) -> p < 260) /\ snd g + 3 <= 260 /\
  (forall p, snd g <= p < snd g + 3 -> ~ In p (fst g)).
Proof.
  assert (K : forallb (fun g => (if list_eq_dec Nat.eq_dec (nodup Nat.eq_dec (fst g)) (fst g) then true else false)
     && forallb (fun p => (p <? 260) && negb ((snd g <=? p) && (p <? snd g + 3))) (fst g)
     && (snd g + 3 <=? 260)) efr_protected = true) by (vm_compute; reflexivity).
  rewrite forallb_forall in K. intros Hi g. specialize (K g). 
  assert (HI : In g efr_protected) by (apply nth_In; exact Hi). specialize (K HI).
  rewrite !andb_true_iff in K. destruct K as ((K1 & K2) & K3). apply Nat.leb_le in K3.
  destruct (list_eq_dec Nat.eq_dec (nodup Nat.eq_dec (fst g)) (fst g)) as [ND|]; [|discriminate].
  assert (NoDup (fst g)) by (rewrite <- ND; apply NoDup_nodup). rewrite forallb_forall in K2.
  split; [assumption|]. split; [|split; [lia|]].
  - intros p Hp. specialize (K2 p Hp). apply andb_true_iff in K2. apply Nat.ltb_lt, K2.
  - intros p Hp HI'. specialize (K2 p HI'). apply andb_true_iff in K2. destruct K2 as [_ K2].
    apply negb_true_iff, andb_false_iff in K2. destruct K2 as [K2|K2]; [apply Nat.leb_gt in K2|apply Nat.ltb_ge in K2]; lia.
Qed.

Lemma efr_flip_detected d i p : length d = 288 -> i < 5 -> efr_prot1 d i = true ->
  let g := nth i efr_protected ([], 0) in
  (In p (fst g) \/ snd g <= p < snd g + 3) -> efr_prot1 (flip d p) i = false.
Proof.
  intros L Hi OK g HP. destruct (efr_group_facts i Hi) as (ND & B & C & D). fold g in ND, B, C, D.
  assert (Lp : p < length d) by (destruct HP as [HP|HP]; [specialize (B p HP); lia|lia]).
  unfold efr_prot1 in *. fold g in OK. fold g. cbv zeta in *.
  rewrite firstn3_at in * by (rewrite ?flip_length; lia).
  apply crc3_check_eq in OK; [|reflexivity].
  apply not_true_is_false. intros OK'. apply crc3_check_eq in OK'; [|reflexivity].
  destruct HP as [HP|HP].
  - assert (N : ~ In p [snd g; snd g + 1; snd g + 2]).
    { intros H. apply (D p); [|exact HP]. cbn [In] in H. lia. }
    rewrite (at_flip_out d p [snd g; snd g + 1; snd g + 2]) in OK' by assumption.
    assert (E : crc3_bits (at_ d (fst g)) = crc3_bits (at_ (flip d p) (fst g))) by congruence.
    apply crc3_bits_inj in E. apply in_split in HP. destruct HP as (a & b & HP).
    rewrite HP in ND, E. apply NoDup_remove_2 in ND. rewrite in_app_iff in ND.
    unfold at_ in E. rewrite !map_app in E. cbn [map] in E. fold (at_ d a) (at_ d b) (at_ (flip d p) a) (at_ (flip d p) b) in E.
    rewrite !at_flip_out in E by tauto. rewrite nth_flip, Nat.eqb_refl in E by assumption. now apply crc3_flip in E.
  - rewrite (at_flip_out d p (fst g)) in OK' by (try assumption; now apply D). rewrite <- OK in OK'.
    unfold at_ in OK'. cbn [map] in OK'. rewrite !nth_flip in OK' by assumption.
    assert (p = snd g \/ p = snd g + 1 \/ p = snd g + 2) as K by lia.
    injection OK' as E1 E2 E3.
    destruct K as [K|[K|K]]; rewrite <- K, Nat.eqb_refl in *; [destruct (nth p d false); discriminate E1
      |destruct (nth p d false); discriminate E2|destruct (nth p d false); discriminate E3].
Qed.

(** ** C bits set for speech *)
Lemma speech_c_ul ul dl cl ck bfi taf dtxd data fr : tf_wf fr -> tf_dir fr = UL -> length ul = 5 ->
  speech_c_bits ul dl cl ck bfi taf dtxd data fr =
  let sidc := if length data =? 0 then SID_SPEECH else cl data in
  Some (set_t (set_c fr (ul ++ repeat false 6 ++ [bfi; sid_msb sidc; sid_lsb sidc; taf; true; dtxd] ++ repeat true 4 ++ skipn 21 (tf_c fr)))
         (repeat true 4)).
Proof.
  intros W E HU. destruct ul as [|u0 [|u1 [|u2 [|u3 [|u4 [|]]]]]]; try discriminate HU.
  destruct (length data =? 0) eqn:N; unfold speech_c_bits; rewrite N; clear N.
  - revert E; revert fr W; sym_c. cbn [tf_dir] in E. subst. reflexivity.
  - generalize (cl data). intros s. revert E; revert fr W; sym_c. cbn [tf_dir] in E. subst. reflexivity.
Qed.
Lemma speech_c_some ul dl cl ck bfi taf dtxd data fr : tf_wf fr -> length ul = 5 -> length dl = 5 ->
  exists c, length c = 25 /\ speech_c_bits ul dl cl ck bfi taf dtxd data fr = Some (set_t (set_c fr c) (repeat true 4)).
Proof.
  intros W HU HD. destruct ul as [|u0 [|u1 [|u2 [|u3 [|u4 [|]]]]]]; try discriminate HU.
  destruct dl as [|d0 [|d1 [|d2 [|d3 [|d4 [|]]]]]]; try discriminate HD.
  unfold speech_c_bits. generalize (length data =? 0) (cl data) (ck data). intros n s k.
  revert fr W. sym_c. destruct dir, n; eexists; (split; [|reflexivity]); reflexivity.
Qed.

(** ** HR *)
Definition codec_ok (cd : codec) : Prop := forall p, length p = 112 -> length (osmo_hr_sid_reset cd p) = 112.

Lemma blit_prefix (out x : bits) o : o + length x <= length out -> 
  blit out o x = Some (firstn o out ++ x ++ skipn (o + length x) out).
Proof. apply blit_some. Qed.

Lemma blit_mid (h p p' rest : bits) : length p' = length p -> blit (h ++ p ++ rest) (length h) p' = Some (h ++ p' ++ rest).
Proof.
  intros L. rewrite blit_some by (rewrite !app_length; lia).
  rewrite firstn_app_exact by reflexivity. f_equal. f_equal. f_equal.
  rewrite app_assoc. apply skipn_app_exact. rewrite app_length. lia.
Qed.
Lemma blit_head (p p' rest : bits) : length p' = length p -> blit (p ++ rest) 0 p' = Some (p' ++ rest).
Proof. intros L. exact (blit_mid [] p p' rest L). Qed.

Lemma hr_split (out : bits) : 120 <= length out -> exists h p, length h = 8 /\ length p = 112 /\ out = h ++ p ++ skipn 120 out.
Proof.
  intros L. exists (firstn 8 out), (firstn 112 (skipn 8 out)).
  split; [rewrite firstn_length; lia|]. split; [rewrite firstn_length, skipn_length; lia|].
  rewrite <- (firstn_skipn 8 out) at 1. f_equal. rewrite <- (firstn_skipn 112 (skipn 8 out)) at 1. f_equal.
  apply skipn_skipn'.
Qed.

(** everything trau2rtp_hr16 can do *)
Definition hr16_hdr (ft : bits) (tw : bool) (fr : tframe) : bits :=
  ft ++ (if tw then [nth 16 (tf_c fr) false; false; tf_ufi fr; nth 14 (tf_c fr) false] else zero4).
Definition c_ (fr : tframe) i := nth i (tf_c fr) false.
Definition hr_crc_ok (fr : tframe) : bool := crc3_check (firstn 44 (tf_d fr)) (tf_crc fr).

Inductive hr_result := HR_none | HR_hdr (ft : bits) | HR_full (ft payload : bits).
Definition hr16_result (cd : codec) (tw : bool) (fr : tframe) : hr_result :=
  let pl := firstn 112 (tf_d fr) in
  if negb (hr_crc_ok fr) || (c_ fr 12 && c_ fr 13) then (if tw then HR_hdr FT_NO_DATA else HR_none) else
  if tw then
    if c_ fr 12 then (if c_ fr 11 then HR_hdr FT_INVALID_SID else HR_full FT_GOOD_SID pl)
    else if c_ fr 13 then HR_hdr FT_INVALID_SID
    else if c_ fr 11 then HR_full FT_BFI_WITH_DATA pl else HR_full FT_GOOD_SPEECH pl
  else
    if c_ fr 11 || c_ fr 13 then HR_none
    else if c_ fr 12 then HR_full FT_GOOD_SID (osmo_hr_sid_reset cd pl) else HR_full FT_GOOD_SPEECH pl.

Lemma hr16_body cd out fr tw : tf_wf fr -> codec_ok cd -> 120 <= length out ->
  trau2rtp_hr16_body cd out fr tw =
  match hr16_result cd tw fr with
  | HR_none => Some (0%Z, out)
  | HR_hdr ft => Some (1%Z, hr16_hdr ft tw fr ++ skipn 8 out)
  | HR_full ft pl => Some (15%Z, hr16_hdr ft tw fr ++ pl ++ skipn 120 out)
  end.
Proof.
  intros W CD L. pose proof W as (Hc & Hd & Ht & Hs & Hm & Hcr & Hx).
  unfold trau2rtp_hr16_body, hr16_result, hr16_bad_frame, twts002_hr16_octet, hr16_hdr, hr_crc_ok, c_.
  rewrite (slice_some (tf_d fr) 0 44), (slice_some (tf_d fr) 0 112) by lia. rewrite (slice_all (tf_crc fr) 3) by assumption.
  change (skipn 0 (tf_d fr)) with (tf_d fr). rewrite !get_nth by (rewrite Hc; lia).
  destruct (hr_split out L) as (h & p & Hh & Hp & E).
  assert (E8 : skipn 8 out = p ++ skipn 120 out) by (rewrite E at 1; now apply skipn_app_exact).
  assert (Lpl : length (firstn 112 (tf_d fr)) = length p) by (rewrite firstn_length; lia).
  assert (B0 : forall x, length x = 8 -> blit out 0 x = Some (x ++ p ++ skipn 120 out))
    by (intros x Hx'; rewrite E at 1; apply blit_head; lia).
  assert (B0' : forall y x, length x = 8 -> length y = 8 -> blit (y ++ p ++ skipn 120 out) 0 x = Some (x ++ p ++ skipn 120 out))
    by (intros y x Hx' Hy'; apply blit_head; lia).
  assert (B8 : forall x y, length x = 8 -> length y = 112 -> blit (x ++ p ++ skipn 120 out) 8 y = Some (x ++ y ++ skipn 120 out))
    by (intros x y Hx' Hy'; pose proof (blit_mid x p y (skipn 120 out)) as Q; rewrite Hx' in Q; apply Q; lia).
  assert (R8 : forall x y, length x = 8 -> length y = 112 -> blit (x ++ y ++ skipn 120 out) 8 (osmo_hr_sid_reset cd y)
      = Some (x ++ osmo_hr_sid_reset cd y ++ skipn 120 out))
    by (intros x y Hx' Hy'; pose proof (blit_mid x y (osmo_hr_sid_reset cd y) (skipn 120 out)) as Q; rewrite Hx' in Q; apply Q; rewrite CD; lia).
  assert (S8 : forall x y, length x = 8 -> length y = 112 -> slice (x ++ y ++ skipn 120 out) 8 112 = Some y)
    by (intros x y Hx' Hy'; pose proof (slice_app2 x y (skipn 120 out) 112 Hy') as Q; rewrite Hx' in Q; exact Q).
  rewrite Hp in Lpl.
  destruct (crc3_check _ _); cbn [negb orb]; [|destruct tw; [rewrite B0, <- E8 by reflexivity|]; reflexivity].
  destruct tw, (nth 11 (tf_c fr) false), (nth 12 (tf_c fr) false), (nth 13 (tf_c fr) false); cbn [andb orb negb];
  repeat first [rewrite B0 by reflexivity | rewrite B0' by reflexivity | rewrite B8 by (try exact Lpl; reflexivity)
    | rewrite S8 by (try exact Lpl; reflexivity) | rewrite R8 by (try exact Lpl; reflexivity)]; rewrite ?E8; reflexivity.
Qed.

Definition hr8_hdr (ft : bits) (taf tw : bool) (fr : tframe) : bits :=
  ft ++ (if tw then [nth 8 (tf_c fr) false; false; nth 4 (tf_xc fr) false; taf] else zero4).
Definition x_ (fr : tframe) i := nth i (tf_xc fr) false.
Definition hr8_par_ok (fr : tframe) : bool := fold_left xorb (tf_xc fr) false.
(** result and the TAF bit of the header *)
Definition hr8_result (cd : codec) (tw : bool) (fr : tframe) : hr_result * bool :=
  let pl := firstn 112 (tf_d fr) in
  let bad := ((if tw then HR_hdr FT_NO_DATA else HR_none), false) in
  if negb (hr8_par_ok fr) || negb (hr_crc_ok fr) then bad else
  if x_ fr 0 then bad else
  if x_ fr 1 then
    if tw then (if x_ fr 2 then HR_full FT_BFI_WITH_DATA pl else HR_hdr FT_INVALID_SID, x_ fr 3)
    else (HR_none, false)
  else if x_ fr 2 then bad
  else if x_ fr 3 then (HR_full FT_GOOD_SID (if tw then pl else osmo_hr_sid_reset cd pl), false)
  else (HR_full FT_GOOD_SPEECH pl, false).

Lemma hr8_body cd out fr tw : tf_wf fr -> codec_ok cd -> 120 <= length out ->
  trau2rtp_hr8_body cd out fr tw =
  let '(r, taf) := hr8_result cd tw fr in
  match r with
  | HR_none => Some (0%Z, out)
  | HR_hdr ft => Some (1%Z, hr8_hdr ft taf tw fr ++ skipn 8 out)
  | HR_full ft pl => Some (15%Z, hr8_hdr ft taf tw fr ++ pl ++ skipn 120 out)
  end.
Proof.
  intros W CD L. pose proof W as (Hc & Hd & Ht & Hs & Hm & Hcr & Hx).
  unfold trau2rtp_hr8_body, hr8_result, hr8_bad_frame, twts002_hr8_octet, hr8_hdr, hr_crc_ok, hr8_par_ok, x_, hr8_xc_bits_good_parity.
  rewrite (slice_some (tf_d fr) 0 44), (slice_some (tf_d fr) 0 112) by lia. rewrite (slice_all (tf_crc fr) 3) by assumption.
  rewrite (slice_all (tf_xc fr) 6) by assumption.
  change (skipn 0 (tf_d fr)) with (tf_d fr). rewrite !get_nth by (rewrite ?Hc, ?Hx; lia).
  destruct (hr_split out L) as (h & p & Hh & Hp & E).
  assert (E8 : skipn 8 out = p ++ skipn 120 out) by (rewrite E at 1; now apply skipn_app_exact).
  assert (Lpl : length (firstn 112 (tf_d fr)) = length p) by (rewrite firstn_length; lia).
  assert (B0 : forall x, length x = 8 -> blit out 0 x = Some (x ++ p ++ skipn 120 out))
    by (intros x Hx'; rewrite E at 1; apply blit_head; lia).
  assert (B8 : forall x y, length x = 8 -> length y = 112 -> blit (x ++ p ++ skipn 120 out) 8 y = Some (x ++ y ++ skipn 120 out))
    by (intros x y Hx' Hy'; pose proof (blit_mid x p y (skipn 120 out)) as Q; rewrite Hx' in Q; apply Q; lia).
  assert (R8 : forall x y, length x = 8 -> length y = 112 -> blit (x ++ y ++ skipn 120 out) 8 (osmo_hr_sid_reset cd y)
      = Some (x ++ osmo_hr_sid_reset cd y ++ skipn 120 out))
    by (intros x y Hx' Hy'; pose proof (blit_mid x y (osmo_hr_sid_reset cd y) (skipn 120 out)) as Q; rewrite Hx' in Q; apply Q; rewrite CD; lia).
  assert (S8 : forall x y, length x = 8 -> length y = 112 -> slice (x ++ y ++ skipn 120 out) 8 112 = Some y)
    by (intros x y Hx' Hy'; pose proof (slice_app2 x y (skipn 120 out) 112 Hy') as Q; rewrite Hx' in Q; exact Q).
  rewrite Hp in Lpl.
  destruct (tf_xc fr) as [|x0 [|x1 [|x2 [|x3 [|x4 [|x5 [|]]]]]]]; try discriminate Hx. cbn [nth].
  set (par := fold_left xorb _ false). clearbody par.
  destruct par, (crc3_check (firstn 44 (tf_d fr)) (tf_crc fr)); cbn [negb orb];
    try (destruct tw; [rewrite B0, <- E8 by reflexivity|]; reflexivity).
  change (slice [x0; x1; x2; x3; x4; x5] 0 4) with (Some [x0;x1;x2;x3]). cbv beta iota zeta.
  destruct tw, x0, x1, x2, x3; cbn [andb orb negb];
  repeat first [rewrite B0 by reflexivity | rewrite B8 by (try exact Lpl; reflexivity)
    | rewrite S8 by (try exact Lpl; reflexivity) | rewrite R8 by (try exact Lpl; reflexivity)]; rewrite ?E8; reflexivity.
Qed.

Lemma firstn44_app (p r : bits) : length p = 112 -> firstn 44 (p ++ r) = firstn 44 p.
Proof. intros. rewrite firstn_app. replace (44 - length p) with 0 by lia. apply app_nil_r. Qed.

(** ** HR, RTP to TRAU *)
Lemma hr_d_ok fr data : tf_wf fr -> length data = 112 \/ length data = 0 ->
  let p := if length data =? 0 then repeat false 112 else data in
  hr_d_bits fr data = Some (set_crc (set_d fr (p ++ skipn 112 (tf_d fr))) (crc3_bits (firstn 44 p))).
Proof.
  intros W H. pose proof W as (Hc & Hd & Ht & Hs & Hm & Hcr & Hx). unfold hr_d_bits, memset.
  assert (K : forall p, length p = 112 -> (do w <- slice (p ++ skipn 112 (tf_d fr)) 0 44;
    do crc <- blit (tf_crc fr) 0 (crc3_bits w); Some (set_crc (set_d fr (p ++ skipn 112 (tf_d fr))) crc)) =
    Some (set_crc (set_d fr (p ++ skipn 112 (tf_d fr))) (crc3_bits (firstn 44 p)))).
  { intros p Lp. rewrite slice_some by (rewrite app_length; lia). cbn [skipn]. rewrite firstn44_app by assumption.
    rewrite blit_splice by (rewrite Hcr; cbn; lia). rewrite splice_full by (rewrite Hcr; reflexivity). reflexivity. }
  assert (B : forall p, length p = 112 -> blit (tf_d fr) 0 p = Some (p ++ skipn 112 (tf_d fr))).
  { intros p Lp. rewrite <- (firstn_skipn 112 (tf_d fr)) at 1. apply blit_head. rewrite firstn_length; lia. }
  destruct H as [H|H]; rewrite H; cbn [Nat.eqb].
  - rewrite slice_all by assumption. rewrite B by assumption. now apply K.
  - rewrite B by apply repeat_length. apply K. apply repeat_length.
Qed.
Lemma set_c_wf fr c : tf_wf fr -> length c = 25 -> tf_wf (set_c fr c).
Proof. intros (Hc & Hd & Ht & Hs & Hm & Hcr & Hx) L. repeat split; assumption. Qed.

Definition hr_payload (data : bits) : bits := if length data =? 0 then repeat false 112 else data.
Definition hr16_c (cd : codec) (fr : tframe) (data : bits) : bits :=
  match tf_dir fr with
  | UL => [false; false; false; true; true] ++ repeat false 6 ++
          [length data =? 0; osmo_hr_check_sid cd data; false; nth 14 (tf_c fr) false; false; false]
  | DL => [true; true; true; false; true] ++ repeat false 6 ++
          [true; true; true; true; negb (osmo_hr_check_sid cd data); true]
  end ++ repeat true 4 ++ skipn 21 (tf_c fr).
Lemma hr16_rtp cd fr data : tf_wf fr -> length data = 112 \/ length data = 0 ->
  rtp2trau_hr16_body cd fr data =
  Some (mkTf T16_HR (tf_dir fr) (tf_ta fr) (hr16_c cd fr data) (hr_payload data ++ skipn 112 (tf_d fr))
     (repeat true 4) (tf_s fr) (tf_m fr) (match tf_dir fr with UL => false | DL => true end)
     (crc3_bits (firstn 44 (hr_payload data))) (tf_xc fr)).
Proof.
  intros W HL. unfold rtp2trau_hr16_body.
  assert (K : forall c, length c = 25 -> hr_d_bits (set_ufi (set_t (set_c (set_type fr T16_HR) c) (repeat true 4)) (match tf_dir fr with UL => false | DL => true end)) data =
   Some (mkTf T16_HR (tf_dir fr) (tf_ta fr) c (hr_payload data ++ skipn 112 (tf_d fr))
     (repeat true 4) (tf_s fr) (tf_m fr) (match tf_dir fr with UL => false | DL => true end)
     (crc3_bits (firstn 44 (hr_payload data))) (tf_xc fr))).
  { intros c Lc. rewrite hr_d_ok; [reflexivity| |exact HL]. destruct W as (Hc & Hd & Ht & Hs & Hm & Hcr & Hx).
    repeat split; assumption. }
  assert (T : memset (tf_t fr) 0 true 4 = Some (repeat true 4)).
  { destruct W as (_ & _ & Ht & _). unfold memset. rewrite blit_splice by (rewrite Ht; reflexivity). rewrite splice_full by (now rewrite Ht). reflexivity. }
  unfold hr16_c. cbn [set_type tf_c tf_t tf_dir] in *. rewrite T. revert K. generalize (length data =? 0) (osmo_hr_check_sid cd data). intros b1 b2.
  set (X := hr_d_bits) in *. clearbody X.
  pose proof W as (Hc & _). destruct fr as [ty dir ta c d t s m u cr x]. cbn [tf_c tf_dir tf_d tf_t tf_s tf_m tf_xc tf_ta] in *.
  do 25 (destruct c as [|? c]; [discriminate|]). destruct c; [|discriminate].
  intros K. destruct dir; refine (K _ _); reflexivity.
Qed.

Lemma hr8_rtp cd fr data : tf_wf fr -> length data = 112 \/ length data = 0 ->
  rtp2trau_hr8_body cd fr data =
  Some (mkTf T8_SPEECH (tf_dir fr) (tf_ta fr) ([false;false;false;true;false;true;true;true;true] ++ skipn 9 (tf_c fr))
     (hr_payload data ++ skipn 112 (tf_d fr))
     ([true;true] ++ skipn 2 (tf_t fr)) (tf_s fr) (tf_m fr) (tf_ufi fr)
     (crc3_bits (firstn 44 (hr_payload data)))
     (if osmo_hr_check_sid cd data then [false; false; false; true; false; false] else [false; false; false; false; false; true])).
Proof.
  intros W HL. unfold rtp2trau_hr8_body.
  assert (K : forall c t x, length c = 25 -> length t = 4 -> length x = 6 ->
   hr_d_bits (set_t (set_xc (set_c (set_type fr T8_SPEECH) c) x) t) data =
   Some (mkTf T8_SPEECH (tf_dir fr) (tf_ta fr) c (hr_payload data ++ skipn 112 (tf_d fr))
     t (tf_s fr) (tf_m fr) (tf_ufi fr)
     (crc3_bits (firstn 44 (hr_payload data))) x)).
  { intros c t x Lc Lt Lx. rewrite hr_d_ok; [reflexivity| |exact HL]. destruct W as (Hc & Hd & Ht & Hs & Hm & Hcr & Hx).
    repeat split; assumption. }
  pose proof W as (Hc & Hd & Ht & Hs & Hm & Hcr & Hx). cbn [set_type tf_c tf_t tf_xc].
  unfold memset. rewrite (blit_splice (tf_c fr)) by (rewrite Hc; cbn; lia).
  rewrite blit_splice by (rewrite splice_length; rewrite Hc; cbn; lia).
  rewrite (blit_splice (tf_xc fr)) by (rewrite Hx; destruct (osmo_hr_check_sid cd data); cbn; lia).
  rewrite (blit_splice (tf_t fr)) by (rewrite Ht; cbn; lia).
  rewrite splice_next by (rewrite ?Hc; cbn; lia).
  rewrite (splice_full (tf_xc fr)) by (rewrite Hx; destruct (osmo_hr_check_sid cd data); reflexivity).
  rewrite K; [reflexivity| | |destruct (osmo_hr_check_sid cd data); reflexivity].
  - rewrite splice_length; rewrite Hc; cbn; lia.
  - rewrite splice_length; rewrite Ht; cbn; lia.
Qed.

(** ** CSD *)
Lemma boo_app a b : bits_of_octets (a ++ b) = bits_of_octets a ++ bits_of_octets b.
Proof. apply flat_map_app. Qed.
Lemma v110_bits_ok d off : off + 63 <= length d -> trau2v110_bits d off = Some (v110_frame (firstn 63 (skipn off d))).
Proof.
  intros H. unfold trau2v110_bits.
  assert (E : slice d off 63 = Some (firstn 63 (skipn off d))) by now apply slice_some.
  assert (L : length (firstn 63 (skipn off d)) = 63) by (rewrite firstn_length, skipn_length; lia).
  cbn [forM]. rewrite !(fun i Hi => slice_sub d _ off 63 (7 * i) 7 E Hi) by lia.
  generalize dependent (firstn 63 (skipn off d)). intros l _ L. sym_buf l L. vmr.
Qed.
Lemma v110_frame_length x : length x = 63 -> length (v110_frame x) = 80.
Proof. intros L. sym_buf x L. vmr. Qed.

(** the V.110 payload bits *)
Definition v110_payload (f : bits) : bits := concat (map (fun i => firstn 7 (skipn (8 * i + 9) f)) (seq 0 9)).
Lemma v110_payload_frame x : length x = 63 -> v110_payload (v110_frame x) = x.
Proof. intros L. sym_buf x L. vmr. Qed.
Lemma v110_payload_length f : length f = 80 -> length (v110_payload f) = 63.
Proof. intros L. sym_buf f L. vmr. Qed.

Definition aligned (f : bits) : bool :=
  forallb negb (firstn 8 f) && forallb (fun i => nth (8 * i) f false) (seq 1 9).
Lemma check_align ra off : off + 80 <= length ra -> check_v110_align ra off = Some (aligned (firstn 80 (skipn off ra))).
Proof.
  intros H. unfold check_v110_align.
  assert (E : slice ra off 80 = Some (firstn 80 (skipn off ra))) by now apply slice_some.
  assert (L : length (firstn 80 (skipn off ra)) = 80) by (rewrite firstn_length, skipn_length; lia).
  replace (slice ra off 8) with (slice (firstn 80 (skipn off ra)) 0 8)
    by (rewrite <- (slice_sub ra _ off 80 0 8 E) by lia; now rewrite Nat.add_0_r).
  cbn [forM]. rewrite !(fun i Hi => get_sub ra _ off 80 (i * 8) E Hi) by lia.
  generalize dependent (firstn 80 (skipn off ra)). intros l _ L. unfold aligned. rewrite !get_nth by (rewrite L; lia).
  rewrite slice_some by lia. cbn [skipn]. f_equal. f_equal.
  cbn [seq forallb]. rewrite andb_true_r, andb_true_l, !andb_assoc. reflexivity.
Qed.
Lemma aligned_spec f : length f = 80 -> (aligned f = true <-> is_v110 f).
Proof.
  intros L. unfold aligned, is_v110. rewrite andb_true_iff, !forallb_forall. split.
  - intros [A B]. split; [exact L|]. split.
    + intros i Hi. rewrite <- (nth_error_firstn f 8) by exact Hi.
      destruct (nth_error (firstn 8 f) i) as [b|] eqn:E.
      * apply nth_error_In in E. specialize (A b E). apply negb_true_iff in A. now subst.
      * apply nth_error_None in E. rewrite firstn_length in E. lia.
    + intros i Hi. rewrite (nth_error_nth' _ false) by lia. f_equal. apply B. apply in_seq. lia.
  - intros (_ & A & B). split.
    + intros b Hb. apply In_nth_error in Hb. destruct Hb as [i E].
      assert (i < 8) by (assert (i < length (firstn 8 f)) by (apply nth_error_Some; congruence); rewrite firstn_length in *; lia).
      rewrite nth_error_firstn, A in E by assumption. now injection E as <-.
    + intros i Hi. apply in_seq in Hi. specialize (B i ltac:(lia)). now apply nth_error_nth.
Qed.
Lemma aligned_frame x : length x = 63 -> aligned (v110_frame x) = true.
Proof. intros L. sym_buf x L. vmr. Qed.

Definition f80 (ra : bits) (i : nat) : bits := firstn 80 (skipn (80 * i) ra).
Lemma copy2_63 d ra : length d = 288 -> length ra = 160 ->
  (do d <- v110_to_63bits d 0 ra 0; v110_to_63bits d 63 ra 80) =
  Some (v110_payload (f80 ra 0) ++ v110_payload (f80 ra 1) ++ skipn 126 d).
Proof. intros H H'. sym_buf d H. sym_buf ra H'. vmr. Qed.
Lemma copy2_126 d ra : length d = 288 -> length ra = 160 ->
  (do d <- v110_to_63bits d 0 ra 0; v110_to_63bits d 126 ra 80) =
  Some (v110_payload (f80 ra 0) ++ firstn 63 (skipn 63 d) ++ v110_payload (f80 ra 1) ++ skipn 189 d).
Proof. intros H H'. sym_buf d H. sym_buf ra H'. vmr. Qed.
Lemma copy4 d ra : length d = 288 -> length ra = 320 ->
  (do d <- v110_to_63bits d 0 ra 0; do d <- v110_to_63bits d 63 ra 80;
   do d <- v110_to_63bits d 126 ra 160; v110_to_63bits d 189 ra 240) =
  Some (v110_payload (f80 ra 0) ++ v110_payload (f80 ra 1) ++ v110_payload (f80 ra 2) ++ v110_payload (f80 ra 3) ++ skipn 252 d).
Proof. intros H H'. sym_buf d H. sym_buf ra H'. vmr. Qed.

Lemma ra2_8k_unpack_length l : length (ra2_8k_unpack l) = length l.
Proof. apply map_length. Qed.
Lemma ra2_16k_unpack_length l : length (ra2_16k_unpack l) = 2 * length l.
Proof. unfold ra2_16k_unpack. induction l; [reflexivity|]. cbn [flat_map app length]. rewrite IHl. lia. Qed.

(** what the 8k and 16k unpackers do to the D bits *)
Definition frames_ok (n : nat) (ra : bits) : bool := forallb (fun i => aligned (f80 ra i)) (seq 0 n).

Lemma ir8_63 d data : length d = 288 ->
  rtp2trau_data_ir8 d data 63 = Some (
    if (length data =? 160) && frames_ok 2 (ra2_8k_unpack data)
    then v110_payload (f80 (ra2_8k_unpack data) 0) ++ v110_payload (f80 (ra2_8k_unpack data) 1) ++ skipn 126 d
    else repeat true 126 ++ skipn 126 d).
Proof.
  intros Hd. unfold rtp2trau_data_ir8.
  assert (I : (do d <- memset d 0 true 63; memset d 63 true 63) = Some (repeat true 126 ++ skipn 126 d)) by (sym_buf d Hd; vmr).
  destruct (Nat.eqb_spec (length data) 160) as [L|L]; cbn [negb andb]; [|exact I].
  pose proof (ra2_8k_unpack_length data) as LR. rewrite L in LR.
  rewrite !check_align by (rewrite LR; lia).
  unfold frames_ok. cbn [seq forallb]. rewrite andb_true_r, <- negb_andb. unfold f80 at 1 2. 
  change (80 * 0) with 0. change (80 * 1) with 80.
  destruct (_ && _); cbn [negb]; [now apply copy2_63|exact I].
Qed.
Lemma ir8_126 d data : length d = 288 ->
  rtp2trau_data_ir8 d data (63 * 2) = Some (
    if (length data =? 160) && frames_ok 2 (ra2_8k_unpack data)
    then v110_payload (f80 (ra2_8k_unpack data) 0) ++ firstn 63 (skipn 63 d) ++ v110_payload (f80 (ra2_8k_unpack data) 1) ++ skipn 189 d
    else repeat true 63 ++ firstn 63 (skipn 63 d) ++ repeat true 63 ++ skipn 189 d).
Proof.
  intros Hd. unfold rtp2trau_data_ir8. change (63 * 2) with 126.
  assert (I : (do d <- memset d 0 true 63; memset d 126 true 63) = Some (repeat true 63 ++ firstn 63 (skipn 63 d) ++ repeat true 63 ++ skipn 189 d)) by (sym_buf d Hd; vmr).
  destruct (Nat.eqb_spec (length data) 160) as [L|L]; cbn [negb andb]; [|exact I].
  pose proof (ra2_8k_unpack_length data) as LR. rewrite L in LR.
  rewrite !check_align by (rewrite LR; lia).
  unfold frames_ok. cbn [seq forallb]. rewrite andb_true_r, <- negb_andb. unfold f80 at 1 2. 
  change (80 * 0) with 0. change (80 * 1) with 80.
  destruct (_ && _); cbn [negb]; [now apply copy2_126|exact I].
Qed.
Lemma ir16_ok d data : length d = 288 ->
  rtp2trau_data_ir16 d data = Some (
    (if (length data =? 160) && frames_ok 4 (ra2_16k_unpack data)
    then v110_payload (f80 (ra2_16k_unpack data) 0) ++ v110_payload (f80 (ra2_16k_unpack data) 1) ++
         v110_payload (f80 (ra2_16k_unpack data) 2) ++ v110_payload (f80 (ra2_16k_unpack data) 3)
    else repeat true 252) ++ skipn 252 d).
Proof.
  intros Hd. unfold rtp2trau_data_ir16. change (63 * 2) with 126. change (63 * 3) with 189. change (63 * 4) with 252.
  change (80 * 2) with 160. change (80 * 3) with 240.
  assert (I : memset d 0 true 252 = Some (repeat true 252 ++ skipn 252 d)) by (sym_buf d Hd; vmr).
  destruct (Nat.eqb_spec (length data) 160) as [L|L]; cbn [negb andb]; [|exact I].
  pose proof (ra2_16k_unpack_length data) as LR. rewrite L in LR. change (2 * 160) with 320 in LR.
  rewrite !check_align by (rewrite LR; lia).
  unfold frames_ok. cbn [seq forallb]. rewrite andb_true_r, <- !negb_andb, !andb_assoc. unfold f80 at 1 2 3 4. 
  change (80 * 0) with 0. change (80 * 1) with 80. change (80 * 2) with 160. change (80 * 3) with 240.
  destruct (_ && _); cbn [negb]; [rewrite copy4 by assumption; now rewrite <- !app_assoc|exact I].
Qed.

(** ** API level: octets *)
Lemma boo_skipn k l : skipn (8 * k) (bits_of_octets l) = bits_of_octets (skipn k l).
Proof.
  revert l. induction k as [|k IH]; intros l; [reflexivity|]. destruct l as [|z l]; [now rewrite !skipn_nil|].
  replace (8 * S k) with (8 + 8 * k) by lia. rewrite <- skipn_skipn'. exact (IH l).
Qed.
Lemma oob_out p k out : length p = 8 * k -> Forall is_octet out ->
  octets_of_bits (p ++ skipn (8 * k) (bits_of_octets out)) = octets_of_bits p ++ skipn k out.
Proof.
  intros L F. rewrite (oob_app k) by exact L. rewrite boo_skipn. f_equal. apply octets_of_bits_of.
  apply Forall_forall. intros x Hx. rewrite Forall_forall in F. apply F.
  rewrite <- (firstn_skipn k out). apply in_or_app. now right.
Qed.

Lemma octet_cases z : is_octet z -> exists b7 b6 b5 b4 b3 b2 b1 b0,
  bits_of_octet z = [b7;b6;b5;b4;b3;b2;b1;b0] /\ z = octet_of_bits [b7;b6;b5;b4;b3;b2;b1;b0].
Proof.
  intros H. unfold bits_of_octet. do 8 eexists. split; [reflexivity|]. symmetry. exact (bits_octet z H).
Qed.
Lemma hi_nibble b7 b6 b5 b4 b3 b2 b1 b0 :
  (octet_of_bits [b7;b6;b5;b4;b3;b2;b1;b0] / 16)%Z = octet_of_bits [b7;b6;b5;b4].
Proof. destruct b7, b6, b5, b4, b3, b2, b1, b0; reflexivity. Qed.

(** specification of the accepted speech payloads: optional TW-TS-001 header
    (high nibble 14), then nothing or [n] octets with signature [s] *)
Definition strip_header (rtp : list Z) : list Z :=
  match rtp with h :: r => if (h / 16 =? 14)%Z then r else rtp | [] => [] end.
Definition accept_speech (s : Z) (n : nat) (rtp : list Z) : bool :=
  match strip_header rtp with
  | [] => true
  | h :: _ => (length (strip_header rtp) =? n) && (h / 16 =? s)%Z
  end.

Lemma boo_cons z l : bits_of_octets (z :: l) = bits_of_octet z ++ bits_of_octets l.
Proof. reflexivity. Qed.

Definition hbit (rtp : list Z) (i : Z) : bool :=
  match rtp with h :: _ => (h / 16 =? 14)%Z && Z.testbit h i | [] => false end.

Lemma speech_input_spec s3 s2 s1 s0 n rtp : Forall is_octet rtp -> 0 < n ->
  speech_input [s3;s2;s1;s0] n (bits_of_octets rtp) =
  if accept_speech (octet_of_bits [s3;s2;s1;s0]) n rtp
  then Some (match strip_header rtp with [] => true | _ => hbit rtp 1 end, hbit rtp 0, hbit rtp 3, bits_of_octets (strip_header rtp))
  else None.
Proof.
  intros F Hn.
  assert (K : forall r (bfi taf dtxd : bool), Forall is_octet r ->
    (if length (bits_of_octets r) =? 8 * n
     then if forallb (fun p => Bool.eqb (fst p) (snd p)) (combine (firstn 4 (bits_of_octets r)) [s3;s2;s1;s0])
          then Some (bfi, taf, dtxd, bits_of_octets r) else None
     else if length (bits_of_octets r) =? 0 then Some (true, taf, dtxd, bits_of_octets r) else None) =
    if match r with [] => true | h :: _ => (length r =? n) && (h / 16 =? octet_of_bits [s3;s2;s1;s0])%Z end
    then Some (match r with [] => true | _ => bfi end, taf, dtxd, bits_of_octets r) else None).
  { intros r bfi taf dtxd Fr. rewrite boo_length. destruct r as [|h r].
    - change (8 * length (@nil Z)) with 0. destruct (Nat.eqb_spec 0 (8 * n)); [lia|]. reflexivity.
    - inversion Fr as [|? ? Hh Fr' E]; subst.
      destruct (Nat.eqb_spec (8 * length (h :: r)) (8 * n)) as [E|E], (Nat.eqb_spec (length (h :: r)) n) as [E'|E']; try lia.
      + cbn [andb]. destruct (octet_cases h Hh) as (b7 & b6 & b5 & b4 & b3 & b2 & b1 & b0 & EB & ->).
        rewrite hi_nibble. rewrite boo_cons, EB. cbn [app firstn combine forallb fst snd].
        replace (octet_of_bits [b7;b6;b5;b4] =? octet_of_bits [s3;s2;s1;s0])%Z with
          (Bool.eqb b7 s3 && (Bool.eqb b6 s2 && (Bool.eqb b5 s1 && (Bool.eqb b4 s0 && true))))
          by (destruct b7, b6, b5, b4, s3, s2, s1, s0; reflexivity).
        reflexivity.
      + cbn [andb length Nat.mul]. destruct (Nat.eqb_spec (8 * S (length r)) 0); [lia|]. reflexivity. }
  destruct rtp as [|h r].
  - unfold speech_input, accept_speech, strip_header. exact (K [] false false false F).
  - inversion F as [|? ? Hh Fr E]; subst. unfold accept_speech, strip_header, hbit.
    destruct (octet_cases h Hh) as (b7 & b6 & b5 & b4 & b3 & b2 & b1 & b0 & EB & Eh).
    assert (N : (h / 16 =? 14)%Z = b7 && b6 && b5 && negb b4) by (rewrite Eh, hi_nibble; destruct b7, b6, b5, b4; reflexivity).
    assert (T0 : Z.testbit h 0 = b0) by (unfold bits_of_octet in EB; cbn [map] in EB; congruence).
    assert (T1 : Z.testbit h 1 = b1) by (unfold bits_of_octet in EB; cbn [map] in EB; congruence).
    assert (T3 : Z.testbit h 3 = b3) by (unfold bits_of_octet in EB; cbn [map] in EB; congruence).
    rewrite N, T0, T1, T3.
    assert (S : forall x, speech_input x n (bits_of_octets (h :: r)) =
      let '(bfi, taf, dtxd, data) := if b7 && b6 && b5 && negb b4 then (b1, b0, b3, bits_of_octets r) else (false, false, false, bits_of_octets (h :: r)) in
      if length data =? 8 * n then
        if forallb (fun p => Bool.eqb (fst p) (snd p)) (combine (firstn 4 data) x)
        then Some (bfi, taf, dtxd, data) else None
      else if length data =? 0 then Some (true, taf, dtxd, data) else None).
    { intros x. unfold speech_input. rewrite boo_cons, EB. destruct b7, b6, b5, b4; reflexivity. }
    rewrite S. clear S. destruct (b7 && b6 && b5 && negb b4).
    + rewrite K by assumption. cbn [andb]. reflexivity.
    + rewrite K by assumption. cbn [andb]. reflexivity.
Qed.
