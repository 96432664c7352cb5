(** Lemmas for C33-C36 *)
From Coq Require Import List Arith Lia Bool ZArith.
From Verif Require Import Base LapdSpec LapdModel.
Import ListNotations.
Open Scope Z_scope.

Lemma Zall n (P : Z -> bool) : forallb P (map Z.of_nat (seq 0 n)) = true ->
  forall z, 0 <= z < Z.of_nat n -> P z = true.
Proof.
  intros H z Hz. rewrite forallb_forall in H. apply H. apply in_map_iff.
  exists (Z.to_nat z). split; [lia|]. apply in_seq. lia.
Qed.
Lemma Zall2 n m (P : Z -> Z -> bool) :
  forallb (fun a => forallb (P a) (map Z.of_nat (seq 0 m))) (map Z.of_nat (seq 0 n)) = true ->
  forall a b, 0 <= a < Z.of_nat n -> 0 <= b < Z.of_nat m -> P a b = true.
Proof.
  intros H a b Ha Hb. apply (Zall m (P a)); [|exact Hb].
  exact (Zall n (fun a => forallb (P a) (map Z.of_nat (seq 0 m))) H a Ha).
Qed.

Ltac zsplit H := repeat (apply andb_prop in H; let H' := fresh "Q" in destruct H as [H H']);
  repeat match goal with Q : (_ =? _) = true |- _ => apply Z.eqb_eq in Q
                       | Q : Bool.eqb _ _ = true |- _ => apply Bool.eqb_prop in Q end.

(** encoder macros are the Q.921 layout *)
Lemma enc_addr2 s c : 0 <= s < 64 -> 0 <= c < 2 -> LAPD_ADDR2 s c = s * 4 + c * 2 /\ Z.lor (LAPD_ADDR2 s c) 1 = s * 4 + c * 2 + 1.
Proof.
  intros Hs Hc.
  assert (H := Zall2 64 2 (fun s c => (LAPD_ADDR2 s c =? s * 4 + c * 2) && (Z.lor (LAPD_ADDR2 s c) 1 =? s * 4 + c * 2 + 1)) eq_refl s c Hs Hc).
  cbv beta in H. zsplit H. auto.
Qed.
Lemma enc_addr3 t : 0 <= t < 128 -> LAPD_ADDR3 t = t * 2 + 1.
Proof.
  intros Ht. apply Z.eqb_eq. exact (Zall 128 (fun t => LAPD_ADDR3 t =? t * 2 + 1) eq_refl t Ht).
Qed.
Lemma enc_i4 t : 0 <= t < 128 -> LAPD_CTRL_I4 t = t * 2.
Proof. intros Ht. apply Z.eqb_eq. exact (Zall 128 (fun t => LAPD_CTRL_I4 t =? t * 2) eq_refl t Ht). Qed.
Lemma enc_i5 n p : 0 <= n < 128 -> 0 <= p < 2 -> LAPD_CTRL_I5 n p = n * 2 + p /\ LAPD_CTRL_S5 n p = n * 2 + p.
Proof.
  intros Hs Hc.
  assert (H := Zall2 128 2 (fun s c => (LAPD_CTRL_I5 s c =? s * 2 + c) && (LAPD_CTRL_S5 s c =? s * 2 + c)) eq_refl n p Hs Hc).
  cbv beta in H. zsplit H. auto.
Qed.
Lemma enc_s4 t : 0 <= t < 4 -> LAPD_CTRL_S4 t = t * 4 + 1.
Proof. intros Ht. apply Z.eqb_eq. exact (Zall 4 (fun t => LAPD_CTRL_S4 t =? t * 4 + 1) eq_refl t Ht). Qed.
Lemma enc_u4 u p : 0 <= u < 32 -> 0 <= p < 2 -> LAPD_CTRL_U4 u p = (u / 4) * 32 + p * 16 + (u mod 4) * 4 + 3.
Proof.
  intros Hs Hc. apply Z.eqb_eq.
  exact (Zall2 32 2 (fun u p => LAPD_CTRL_U4 u p =? (u / 4) * 32 + p * 16 + (u mod 4) * 4 + 3) eq_refl u p Hs Hc).
Qed.

(** decoder macros *)
Lemma dec_octet x : octet x ->
  LAPD_ADDR_SAPI x = x / 4 /\ LAPD_ADDR_CR x = (x / 2) mod 2 /\ (LAPD_ADDR_EA x =? 0) = negb (Z.odd x) /\
  LAPD_ADDR_TEI x = x / 2 /\
  LAPD_CTRL_is_I x = Z.even x /\
  LAPD_CTRL_is_S x = (negb (Z.even x) && Z.even (x / 2)) /\
  LAPD_CTRL_is_U x = (negb (Z.even x) && negb (Z.even (x / 2))) /\
  LAPD_CTRL_U_BITS x = (x / 32) * 4 + (x / 4) mod 4 /\ LAPD_CTRL_U_PF x = (x / 16) mod 2 /\
  LAPD_CTRL_S_BITS x = (x / 4) mod 4 /\ LAPD_CTRL_S_PF x = x mod 2 /\
  LAPD_CTRL_I_Ns x = x / 2 /\ LAPD_CTRL_I_P x = x mod 2 /\ LAPD_CTRL_Nr x = x / 2.
Proof.
  intros Hx.
  assert (H := Zall 256 (fun x =>
  (LAPD_ADDR_SAPI x =? x / 4) && (LAPD_ADDR_CR x =? (x / 2) mod 2) && Bool.eqb (LAPD_ADDR_EA x =? 0) (negb (Z.odd x)) &&
  (LAPD_ADDR_TEI x =? x / 2) &&
  Bool.eqb (LAPD_CTRL_is_I x) (Z.even x) &&
  Bool.eqb (LAPD_CTRL_is_S x) (negb (Z.even x) && Z.even (x / 2)) &&
  Bool.eqb (LAPD_CTRL_is_U x) (negb (Z.even x) && negb (Z.even (x / 2))) &&
  (LAPD_CTRL_U_BITS x =? (x / 32) * 4 + (x / 4) mod 4) && (LAPD_CTRL_U_PF x =? (x / 16) mod 2) &&
  (LAPD_CTRL_S_BITS x =? (x / 4) mod 4) && (LAPD_CTRL_S_PF x =? x mod 2) &&
  (LAPD_CTRL_I_Ns x =? x / 2) && (LAPD_CTRL_I_P x =? x mod 2) && (LAPD_CTRL_Nr x =? x / 2)) eq_refl x Hx).
  cbv beta in H. zsplit H. repeat split; assumption.
Qed.

(** a message context says what a header says *)
Definition ctx_is (c : lctx) (h : hdr) : Prop :=
  l_sapi c = h_sapi h /\ l_cr c = h_cr h /\ l_tei c = h_tei h /\
  match h_ctrl h with
  | CI ns nr p => l_format c = FORM_I /\ l_n_send c = ns /\ l_n_recv c = nr /\ l_p_f c = p
  | CS s nr p => l_format c = FORM_S /\ l_s_u c = s /\ l_n_recv c = nr /\ l_p_f c = p
  | CU u p => l_format c = FORM_U /\ l_s_u c = u /\ l_p_f c = p
  end.

Lemma encode_frame_q921 short c h hr p : ctx_is c h -> hdr_ok h -> (4 <= hr)%nat ->
  encode_frame short c hr p = Some (Some (q921 short h p)).
Proof.
  intros (Es & Ec & Et & Ef) (Hs & Hc & Ht & Hk) Hr.
  destruct h as [s cr t k]; cbn [h_sapi h_cr h_tei h_ctrl] in *.
  unfold encode_frame, q921, msgb_push, long_addr, short_addr; cbn [h_sapi h_cr h_tei h_ctrl].
  rewrite Es, Ec, Et.
  destruct (enc_addr2 s cr Hs Hc) as [A1 A2]. rewrite A1 in *. rewrite A2.
  rewrite (enc_addr3 t Ht).
  destruct k as [ns nr pf|su nr pf|u pf]; cbn [ctrl_ok] in Hk.
  - destruct Ef as (F & -> & -> & ->); rewrite F. destruct Hk as (K1 & K2 & K3).
    cbn [length]. rewrite (proj2 (Nat.leb_le 2 hr)) by lia.
    rewrite (enc_i4 ns K1), (proj1 (enc_i5 nr pf K2 K3)).
    destruct (short && (t =? 0)); cbn [length];
      rewrite (proj2 (Nat.leb_le _ (hr - 2))) by lia; reflexivity.
  - destruct Ef as (F & -> & -> & ->); rewrite F. destruct Hk as (K1 & K2 & K3).
    cbn [length]. rewrite (proj2 (Nat.leb_le 2 hr)) by lia.
    rewrite (enc_s4 su K1), (proj2 (enc_i5 nr pf K2 K3)).
    destruct (short && (t =? 0)); cbn [length];
      rewrite (proj2 (Nat.leb_le _ (hr - 2))) by lia; reflexivity.
  - destruct Ef as (F & -> & ->); rewrite F. destruct Hk as (K1 & K2).
    cbn [length]. rewrite (proj2 (Nat.leb_le 1 hr)) by lia.
    rewrite (enc_u4 u pf K1 K2).
    destruct (short && (t =? 0)); cbn [length];
      rewrite (proj2 (Nat.leb_le _ (hr - 1))) by lia; reflexivity.
Qed.

Lemma read_ctrl_octets k p : ctrl_ok k -> read_ctrl (ctrl_octets k ++ p) = Some (k, p).
Proof.
  destruct k as [ns nr pf|s nr pf|u pf]; cbn [ctrl_ok ctrl_octets app]; unfold read_ctrl.
  - intros (K1 & K2 & K3).
    assert (E : Z.even (ns * 2) = true) by (rewrite Z.even_mul; now rewrite orb_true_r).
    rewrite E. rewrite Z.div_mul by lia.
    replace ((nr * 2 + pf) / 2) with nr by (rewrite Z.div_add_l by lia; rewrite (Z.div_small pf 2); lia).
    replace ((nr * 2 + pf) mod 2) with pf by (rewrite Z.add_comm, Z.mod_add, Z.mod_small; lia).
    reflexivity.
  - intros (K1 & K2 & K3).
    replace ((nr * 2 + pf) / 2) with nr by (rewrite Z.div_add_l by lia; rewrite (Z.div_small pf 2); lia).
    replace ((nr * 2 + pf) mod 2) with pf by (rewrite Z.add_comm, Z.mod_add, Z.mod_small; lia).
    assert (H := Zall 4 (fun s => negb (Z.even (s * 4 + 1)) && Z.even ((s * 4 + 1) / 2) && (((s * 4 + 1) / 4) mod 4 =? s)) eq_refl s K1).
    cbv beta in H. zsplit H. apply negb_true_iff in H. rewrite H, Q0, Q. reflexivity.
  - intros (K1 & K2).
    assert (H := Zall2 32 2 (fun u pf => let c := u / 4 * 32 + pf * 16 + u mod 4 * 4 + 3 in
      negb (Z.even c) && negb (Z.even (c / 2)) && (c / 32 * 4 + (c / 4) mod 4 =? u) && ((c / 16) mod 2 =? pf)) eq_refl u pf K1 K2).
    cbv beta zeta in H. zsplit H. apply negb_true_iff in H, Q1. rewrite H, Q1, Q0, Q. reflexivity.
Qed.

Lemma read_frame_q921 short h p : hdr_ok h -> read_frame (q921 short h p) = Some (h, p).
Proof.
  intros (Hs & Hc & Ht & Hk). destruct h as [s cr t k]; cbn [h_sapi h_cr h_tei h_ctrl] in *.
  unfold q921, long_addr, short_addr; cbn [h_sapi h_cr h_tei h_ctrl].
  destruct (short && (t =? 0)) eqn:E; cbn [app read_frame].
  - apply andb_prop in E. destruct E as [_ E]. apply Z.eqb_eq in E. subst t.
    assert (H := Zall2 64 2 (fun s c => let a := s * 4 + c * 2 + 1 in
       Z.odd a && (a / 4 =? s) && ((a / 2) mod 2 =? c)) eq_refl s cr Hs Hc).
    cbv beta zeta in H. zsplit H. rewrite H, Q0, Q, read_ctrl_octets by exact Hk. reflexivity.
  - assert (H := Zall2 64 2 (fun s c => let a := s * 4 + c * 2 in
       negb (Z.odd a) && (a / 4 =? s) && ((a / 2) mod 2 =? c)) eq_refl s cr Hs Hc).
    cbv beta zeta in H. zsplit H. apply negb_true_iff in H. rewrite H, Q0, Q, read_ctrl_octets by exact Hk.
    replace ((t * 2 + 1) / 2) with t by (rewrite Z.div_add_l by lia; rewrite (Z.div_small 1 2); lia).
    reflexivity.
Qed.

(** the parser is [read_frame] *)
Lemma parse_header_read m : octets m ->
  match read_frame m with
  | None => parse_header m = Some (inl tt)
  | Some (h, p) => exists c i, parse_header m = Some (inr (c, i)) /\ ctx_is c h /\ msgb_pull m i = Some p
  end.
Proof.
  intros Ho. unfold parse_header.
  destruct m as [|a r]; [reflexivity|].
  inversion Ho as [|? ? Oa Or]; subst. destruct (dec_octet a Oa) as (A1 & A2 & A3 & _).
  destruct r as [|b r].
  { cbn. destruct (Z.odd a); reflexivity. }
  inversion Or as [|? ? Ob Or']; subst.
  change (get (a :: b :: r) 0%nat) with (Some a).
  change (get (a :: b :: r) 1%nat) with (Some b).
  cbn [read_frame length Nat.ltb Nat.leb]. rewrite A3.
  assert (GC : forall x, octet x -> _) by exact dec_octet.
  destruct (Z.odd a) eqn:Oda; cbn [negb].
  - (* one octet address *)
    cbn [l_sapi l_cr l_tei]. change (get (a :: b :: r) 1%nat) with (Some b).
    destruct (GC b Ob) as (_ & _ & _ & _ & B1 & B2 & B3 & B4 & B5 & B6 & B7 & B8 & B9 & B10).
    rewrite B1, B2, B3. cbn [read_ctrl].
    destruct (Z.even b) eqn:Eb; cbn [negb andb].
    + destruct r as [|y r]; [reflexivity|].
      cbn [length Nat.ltb Nat.leb Nat.eqb andb].
      change (get (a :: b :: y :: r) 2%nat) with (Some y).
      inversion Or' as [|? ? Oy _]; subst.
      destruct (GC y Oy) as (_ & _ & _ & _ & _ & _ & _ & _ & _ & _ & Y7 & _ & Y9 & Y10).
      rewrite ?andb_false_r. eexists _, _. split; [reflexivity|]. split; [|reflexivity].
      repeat split; assumption.
    + destruct (Z.even (b / 2)) eqn:Eb2; cbn [negb andb].
      * destruct r as [|y r]; [reflexivity|].
        cbn [length Nat.ltb Nat.leb Nat.eqb andb].
        change (get (a :: b :: y :: r) 2%nat) with (Some y).
        inversion Or' as [|? ? Oy _]; subst.
        destruct (GC y Oy) as (_ & _ & _ & _ & _ & _ & _ & _ & _ & _ & Y7 & _ & Y9 & Y10).
        rewrite ?andb_false_r. eexists _, _. split; [reflexivity|]. split; [|reflexivity].
        repeat split; assumption.
      * eexists _, _. split; [reflexivity|]. split; [|reflexivity].
        repeat split; assumption.
  - destruct r as [|x r]; [reflexivity|].
    cbn [length Nat.ltb Nat.leb l_sapi l_cr l_tei].
    change (get (a :: b :: x :: r) 2%nat) with (Some x).
    inversion Or' as [|? ? Ox Or'']; subst.
    destruct (GC b Ob) as (_ & _ & _ & T & _).
    destruct (GC x Ox) as (_ & _ & _ & _ & B1 & B2 & B3 & B4 & B5 & B6 & B7 & B8 & B9 & B10).
    rewrite B1, B2, B3. cbn [read_ctrl].
    destruct (Z.even x) eqn:Eb; cbn [negb andb].
    + destruct r as [|y r]; [reflexivity|].
      cbn [length Nat.ltb Nat.leb Nat.eqb andb].
      change (get (a :: b :: x :: y :: r) 3%nat) with (Some y).
      inversion Or'' as [|? ? Oy _]; subst.
      destruct (GC y Oy) as (_ & _ & _ & _ & _ & _ & _ & _ & _ & _ & Y7 & _ & Y9 & Y10).
      rewrite ?andb_false_r. eexists _, _. split; [reflexivity|]. split; [|reflexivity].
      repeat split; assumption.
    + destruct (Z.even (x / 2)) eqn:Eb2; cbn [negb andb].
      * destruct r as [|y r]; [reflexivity|].
        cbn [length Nat.ltb Nat.leb Nat.eqb andb].
        change (get (a :: b :: x :: y :: r) 3%nat) with (Some y).
        inversion Or'' as [|? ? Oy _]; subst.
        destruct (GC y Oy) as (_ & _ & _ & _ & _ & _ & _ & _ & _ & _ & Y7 & _ & Y9 & Y10).
        rewrite ?andb_false_r. eexists _, _. split; [reflexivity|]. split; [|reflexivity].
        repeat split; assumption.
      * eexists _, _. split; [reflexivity|]. split; [|reflexivity].
        repeat split; assumption.
Qed.

Lemma read_ctrl_ok l k p : octets l -> read_ctrl l = Some (k, p) -> ctrl_ok k /\ octets p.
Proof.
  intros Ho. destruct l as [|c r]; [discriminate|]. inversion Ho as [|? ? Oc Or]; subst. cbn [read_ctrl].
  unfold octet in Oc.
  destruct (Z.even c).
  - destruct r as [|d r]; [discriminate|]. inversion Or as [|? ? Od Or']; subst. unfold octet in Od.
    intros E; injection E as <- <-. split; [|assumption]. cbn [ctrl_ok].
    assert (0 <= c / 2 < 128) by (split; [apply Z.div_pos; lia|apply Z.div_lt_upper_bound; lia]).
    assert (0 <= d / 2 < 128) by (split; [apply Z.div_pos; lia|apply Z.div_lt_upper_bound; lia]).
    assert (0 <= d mod 2 < 2) by (apply Z.mod_pos_bound; lia). auto.
  - destruct (Z.even (c / 2)).
    + destruct r as [|d r]; [discriminate|]. inversion Or as [|? ? Od Or']; subst. unfold octet in Od.
      intros E; injection E as <- <-. split; [|assumption]. cbn [ctrl_ok].
      assert (0 <= d / 2 < 128) by (split; [apply Z.div_pos; lia|apply Z.div_lt_upper_bound; lia]).
      assert (0 <= d mod 2 < 2) by (apply Z.mod_pos_bound; lia).
      assert (0 <= (c / 4) mod 4 < 4) by (apply Z.mod_pos_bound; lia). auto.
    + intros E; injection E as <- <-. split; [|assumption]. cbn [ctrl_ok].
      assert (0 <= c / 32 < 8) by (split; [apply Z.div_pos; lia|apply Z.div_lt_upper_bound; lia]).
      assert (0 <= (c / 16) mod 2 < 2) by (apply Z.mod_pos_bound; lia).
      assert (0 <= (c / 4) mod 4 < 4) by (apply Z.mod_pos_bound; lia). lia.
Qed.

Lemma read_frame_ok m h p : octets m -> read_frame m = Some (h, p) -> hdr_ok h /\ octets p.
Proof.
  intros Ho. destruct m as [|a r]; [discriminate|]. inversion Ho as [|? ? Oa Or]; subst.
  cbn [read_frame]. unfold octet in Oa.
  assert (0 <= a / 4 < 64) by (split; [apply Z.div_pos; lia|apply Z.div_lt_upper_bound; lia]).
  assert (0 <= (a / 2) mod 2 < 2) by (apply Z.mod_pos_bound; lia).
  destruct (Z.odd a).
  - destruct (read_ctrl r) as [[k q]|] eqn:E; [|discriminate].
    destruct (read_ctrl_ok _ _ _ Or E). intros X; injection X as <- <-. split; [|assumption].
    unfold hdr_ok; cbn [h_sapi h_cr h_tei h_ctrl]. split; [assumption|split; [assumption|split; [lia|assumption]]].
  - destruct r as [|b r]; [discriminate|]. inversion Or as [|? ? Ob Or']; subst. unfold octet in Ob.
    destruct (read_ctrl r) as [[k q]|] eqn:E; [|discriminate].
    destruct (read_ctrl_ok _ _ _ Or' E). intros X; injection X as <- <-. split; [|assumption].
    unfold hdr_ok; cbn [h_sapi h_cr h_tei h_ctrl].
    assert (0 <= b / 2 < 128) by (split; [apply Z.div_pos; lia|apply Z.div_lt_upper_bound; lia]).
    split; [assumption|split; [assumption|split; [lia|assumption]]].
Qed.

(** * tables *)
Section Tables.
Variable f : tei_ent -> tei_ent.
Hypothesis Hf : forall e, tei (f e) = tei e.

Lemma find_upd_tei t t' l :
  find (fun e => tei e =? t') (upd_tei t f l) =
  if t' =? t then option_map f (find (fun e => tei e =? t) l) else find (fun e => tei e =? t') l.
Proof.
  induction l as [|e l IH]; cbn [upd_tei find]; [now destruct (t' =? t)|].
  destruct (Z.eqb_spec (tei e) t) as [Et|Et].
  - cbn [find]. rewrite Hf. destruct (Z.eqb_spec t' t) as [->|N].
    + rewrite Et, Z.eqb_refl. reflexivity.
    + destruct (Z.eqb_spec (tei e) t'); [lia|reflexivity].
  - cbn [find]. rewrite IH. destruct (Z.eqb_spec t' t) as [->|N].
    + destruct (Z.eqb_spec (tei e) t); [lia|reflexivity].
    + reflexivity.
Qed.
Lemma map_tei_upd t l : map tei (upd_tei t f l) = map tei l.
Proof.
  induction l as [|e l IH]; cbn [upd_tei map]; [reflexivity|].
  destruct (tei e =? t); cbn [map]; [rewrite Hf; reflexivity|rewrite IH; reflexivity].
Qed.
Lemma in_upd_tei t l e : NoDup (map tei l) -> In e (upd_tei t f l) ->
  (In e l /\ tei e <> t) \/ (exists e0, In e0 l /\ tei e0 = t /\ e = f e0).
Proof.
  induction l as [|x l IH]; cbn [upd_tei map]; [intros _ []|].
  intros N. inversion N as [|? ? Nx Nl]; subst.
  destruct (Z.eqb_spec (tei x) t) as [Et|Et]; intros [E|E].
  - right. exists x. cbn; auto.
  - left. split; [now right|]. intros X. apply Nx. rewrite Et, <- X. now apply in_map.
  - subst. left. split; [now left|assumption].
  - destruct (IH Nl E) as [[A B]|(e0 & A & B & C)]; [left|right].
    + split; [now right|assumption].
    + exists e0. split; [now right|auto].
Qed.
Lemma in_upd_tei_other t l e : In e l -> tei e <> t -> In e (upd_tei t f l).
Proof.
  induction l as [|x l IH]; [intros []|]. cbn [upd_tei].
  intros [->|H] N.
  - destruct (Z.eqb_spec (tei e) t); [contradiction|now left].
  - destruct (tei x =? t); right; auto.
Qed.
Lemma find_map_tei t l :
  find (fun e => tei e =? t) (map f l) = option_map f (find (fun e => tei e =? t) l).
Proof.
  induction l as [|e l IH]; cbn [map find]; [reflexivity|]. rewrite Hf, IH.
  now destruct (tei e =? t).
Qed.
End Tables.

Lemma find_tei_some t l e : find (fun e => tei e =? t) l = Some e -> In e l /\ tei e = t.
Proof. intros H. apply find_some in H. rewrite Z.eqb_eq in H. exact H. Qed.
Lemma find_sap_some s l x : find (fun x => sapi x =? s) l = Some x -> In x l /\ sapi x = s.
Proof. intros H. apply find_some in H. rewrite Z.eqb_eq in H. exact H. Qed.

Lemma find_tei_nodup l e : NoDup (map tei l) -> In e l -> find (fun x => tei x =? tei e) l = Some e.
Proof.
  induction l as [|x l IH]; [intros _ []|]. cbn [map find]. intros N.
  inversion N as [|? ? Nx Nl]; subst. intros [->|H].
  - now rewrite Z.eqb_refl.
  - destruct (Z.eqb_spec (tei x) (tei e)) as [E|E]; [|auto].
    exfalso. apply Nx. rewrite E. now apply in_map.
Qed.
Lemma find_sap_nodup l e : NoDup (map sapi l) -> In e l -> find (fun x => sapi x =? sapi e) l = Some e.
Proof.
  induction l as [|x l IH]; [intros _ []|]. cbn [map find]. intros N.
  inversion N as [|? ? Nx Nl]; subst. intros [->|H].
  - now rewrite Z.eqb_refl.
  - destruct (Z.eqb_spec (sapi x) (sapi e)) as [E|E]; [|auto].
    exfalso. apply Nx. rewrite E. now apply in_map.
Qed.

Lemma NoDup_map_filter {A B} (g : A -> B) p l : NoDup (map g l) -> NoDup (map g (filter p l)).
Proof.
  induction l as [|x l IH]; cbn [map filter]; [auto|].
  intros N. inversion N as [|? ? Nx Nl]; subst. destruct (p x); [|auto].
  cbn [map]. constructor; [|auto]. intros H. apply Nx. apply in_map_iff in H.
  destruct H as (y & E & H). apply filter_In in H. rewrite <- E. now apply in_map.
Qed.

Lemma find_sap_filter id s l : NoDup (map sapi l) ->
  find (fun x => sapi x =? s) (filter (fun x => negb (Nat.eqb (sid x) id)) l) =
  match find (fun x => sapi x =? s) l with
  | Some x => if Nat.eqb (sid x) id then None else Some x
  | None => None
  end.
Proof.
  induction l as [|x l IH]; [reflexivity|]. cbn [map filter find]. intros N.
  inversion N as [|? ? Nx Nl]; subst.
  destruct (Nat.eqb (sid x) id) eqn:E; cbn [negb].
  - rewrite IH by assumption. destruct (Z.eqb_spec (sapi x) s) as [Es|Es]; [|reflexivity].
    rewrite E. destruct (find (fun x => sapi x =? s) l) as [y|] eqn:F; [|reflexivity].
    apply find_sap_some in F. destruct F as [F1 F2]. exfalso. apply Nx. rewrite Es, <- F2. now apply in_map.
  - cbn [find]. destruct (sapi x =? s); [now rewrite E|]. apply IH; assumption.
Qed.

Record Inv (li : inst) : Prop := mkInv {
  inv_tei : NoDup (map tei (tei_list li));
  inv_sap : forall e, In e (tei_list li) -> NoDup (map sapi (sap_list e));
  inv_k : length (pk (prof li)) = 64%nat;
  inv_dl : forall e x, In e (tei_list li) -> In x (sap_list e) ->
           dl_tei x = tei e /\ dl_sapi x = sapi x /\ (sid x < next_id li)%nat;
  inv_id : forall e x e' x', In e (tei_list li) -> In x (sap_list e) ->
           In e' (tei_list li) -> In x' (sap_list e') -> sid x = sid x' -> e = e' /\ x = x' }.

Definition lookup (li : inst) (t s : Z) : option nat :=
  match teip_from_tei li t with
  | Some e => match lapd_sap_find e s with Some x => Some (sid x) | None => None end
  | None => None
  end.
Definition is_some {A} (o : option A) : bool := match o with Some _ => true | None => false end.

Record refines (li : inst) (a : table) : Prop := mkRef {
  ref_inv : Inv li;
  ref_tei : forall t, assigned a t = is_some (teip_from_tei li t);
  ref_link : forall t s, link_at a t s = lookup li t s;
  ref_next : next_link a = next_id li;
  ref_n201 : n201 a = pn201 (prof li);
  ref_limit : forall e x, In e (tei_list li) -> In x (sap_list e) -> limit a (sid x) = dl_maxf x }.

Lemma sap_by_id_in li id : (exists e x, In e (tei_list li) /\ In x (sap_list e) /\ sid x = id) <->
  exists e x, sap_by_id li id = Some (e, x) /\ In e (tei_list li) /\ In x (sap_list e) /\ sid x = id.
Proof.
  split; [|intros (e & x & _ & H); now exists e, x].
  unfold sap_by_id. induction (tei_list li) as [|e l IH]; [intros (e & x & [] & _)|].
  intros (e' & x' & Hin & Hx & Hid). cbn [fold_right].
  destruct (find (fun x => Nat.eqb (sid x) id) (sap_list e)) as [y|] eqn:F.
  - apply find_some in F. destruct F as [F1 F2]. apply Nat.eqb_eq in F2.
    exists e, y. cbn [In]. auto.
  - destruct Hin as [->|Hin].
    + exfalso. apply (find_none _ _ F) in Hx. rewrite Hid, Nat.eqb_refl in Hx. discriminate.
    + destruct IH as (e2 & x2 & A & B & C & D); [now exists e', x'|].
      exists e2, x2. cbn [In]. auto.
Qed.

Lemma lookup_in li t s id : lookup li t s = Some id ->
  exists e x, In e (tei_list li) /\ In x (sap_list e) /\ sid x = id /\ tei e = t /\ sapi x = s.
Proof.
  unfold lookup, teip_from_tei, lapd_sap_find.
  destruct (find _ (tei_list li)) as [e|] eqn:E; [|discriminate].
  destruct (find _ (sap_list e)) as [x|] eqn:F; [|discriminate].
  intros H; injection H as <-. apply find_tei_some in E. apply find_sap_some in F.
  exists e, x. tauto.
Qed.
Lemma in_lookup li e x : Inv li -> In e (tei_list li) -> In x (sap_list e) -> lookup li (tei e) (sapi x) = Some (sid x).
Proof.
  intros I He Hx. unfold lookup, teip_from_tei, lapd_sap_find.
  rewrite (find_tei_nodup _ _ (inv_tei _ I) He).
  rewrite (find_sap_nodup _ _ (inv_sap _ I _ He) Hx). reflexivity.
Qed.

(** allocation of an unused TEI *)
Lemma tei_alloc_refines li a t : refines li a -> teip_from_tei li t = None ->
  refines (fst (lapd_tei_alloc li t)) (assign t a).
Proof.
  intros [I Rt Rl Rn R2 Rm] Hn. unfold lapd_tei_alloc; cbn [fst].
  assert (Nt : ~ In t (map tei (tei_list li))).
  { intros H. apply in_map_iff in H. destruct H as (e & <- & He).
    unfold teip_from_tei in Hn. apply (find_none _ _ Hn) in He. rewrite Z.eqb_refl in He. discriminate. }
  constructor.
  - constructor; cbn [tei_list prof next_id].
    + cbn [map]. constructor; [exact Nt|apply I].
    + intros e [<-|He]; [constructor|now apply I].
    + apply I.
    + intros e x [<-|He] Hx; [destruct Hx|]. now apply I.
    + intros e x e' x' [<-|He] Hx [<-|He'] Hx'; try destruct Hx; try destruct Hx'. now apply I.
  - intros t'. cbn [assigned assign]. rewrite Rt. unfold teip_from_tei; cbn [tei_list find tei].
    rewrite (Z.eqb_sym t t'). destruct (t' =? t); reflexivity.
  - intros t' s. cbn [link_at assign]. rewrite Rl. unfold lookup, teip_from_tei; cbn [tei_list find tei].
    destruct (Z.eqb_spec t t') as [<-|]; [|reflexivity].
    unfold teip_from_tei in Hn. rewrite Hn. reflexivity.
  - exact Rn.
  - exact R2.
  - cbn [tei_list]. intros e x [<-|He] Hx; [destruct Hx|]. now apply (Rm e).
Qed.

Lemma table_ext_refines li a b : refines li a ->
  (forall t, assigned a t = assigned b t) -> (forall t s, link_at a t s = link_at b t s) ->
  next_link a = next_link b -> n201 a = n201 b -> (forall i, limit a i = limit b i) -> refines li b.
Proof.
  intros [I Rt Rl Rn R2 Rm] A B C D E. constructor; [exact I|..].
  - intros t. rewrite <- A. apply Rt.
  - intros t s. rewrite <- B. apply Rl.
  - now rewrite <- C.
  - now rewrite <- D.
  - intros e x He Hx. rewrite <- E. now apply (Rm e).
Qed.

Lemma land63_lt s : (Z.to_nat (Z.land s 63) < 64)%nat.
Proof.
  change 63 with (Z.ones 6). rewrite Z.land_ones by lia.
  assert (H := Z.mod_pos_bound s (2 ^ 6) ltac:(reflexivity)). change (2 ^ 6) with 64 in *. lia.
Qed.

(** a new SAP under an assigned TEI *)
Lemma sap_alloc_refines li a t s : refines li a -> assigned a t = true -> link_at a t s = None ->
  exists li' x, lapd_sap_alloc li t s = Some (li', x) /\ sid x = next_link a /\
    refines li' (open_link t s a) /\
    nth_error (pk (prof li)) (Z.to_nat (Z.land s 63)) = Some (dl_k x) /\ dl_maxf x = pn201 (prof li) /\
    dl_n200 x = pn200 (prof li) /\ dl_n200_est_rel x = pn200 (prof li) /\
    dl_t200_sec x = pt200_sec (prof li) /\ dl_t200_usec x = pt200_usec (prof li) /\
    dl_t203_sec x = pt203_sec (prof li) /\ dl_t203_usec x = pt203_usec (prof li) /\
    dl_network x = network_side li /\ dl_tei x = t /\ dl_sapi x = s.
Proof.
  intros [I Rt Rl Rn R2 Rm] Ha Hl.
  assert (K : exists k, nth_error (pk (prof li)) (Z.to_nat (Z.land s 63)) = Some k).
  { destruct (nth_error (pk (prof li)) (Z.to_nat (Z.land s 63))) as [k|] eqn:E; [now exists k|].
    apply nth_error_None in E. rewrite (inv_k _ I) in E. assert (H := land63_lt s). lia. }
  destruct K as [k K]. unfold lapd_sap_alloc, get. rewrite K.
  set (x := mkSap (next_id li) s k (pn201 (prof li)) (pn200 (prof li)) (pn200 (prof li))
     (pt200_sec (prof li)) (pt200_usec (prof li)) (pt203_sec (prof li)) (pt203_usec (prof li)) s t (network_side li)).
  eexists _, x. split; [reflexivity|]. split; [now rewrite Rn|].
  rewrite Rt in Ha.
  destruct (teip_from_tei li t) as [e0|] eqn:E0; [|discriminate]. clear Ha.
  rewrite Rl in Hl. unfold lookup in Hl. rewrite E0 in Hl.
  destruct (lapd_sap_find e0 s) as [y|] eqn:F0; [discriminate|]. clear Hl.
  assert (Hf : forall e, tei (mkTei (tei e) (tstate e) (x :: sap_list e)) = tei e) by reflexivity.
  split; [|cbn [dl_k dl_maxf dl_n200 dl_n200_est_rel dl_t200_sec dl_t200_usec dl_t203_sec dl_t203_usec dl_network dl_tei dl_sapi x]; repeat split; auto].
  assert (InF : forall e, In e (upd_tei t (fun e => mkTei (tei e) (tstate e) (x :: sap_list e)) (tei_list li)) ->
     (In e (tei_list li) /\ tei e <> t) \/ e = mkTei (tei e0) (tstate e0) (x :: sap_list e0)).
  { intros e He. destruct (in_upd_tei _ t _ e (inv_tei _ I) He) as [H|(e1 & H1 & H2 & ->)]; [now left|right].
    assert (H := find_tei_nodup _ _ (inv_tei _ I) H1). rewrite H2 in H. unfold teip_from_tei in E0.
    rewrite H in E0. injection E0 as ->. reflexivity. }
  destruct (find_tei_some _ _ _ E0) as [In0 T0].
  constructor.
  - constructor; cbn [tei_list prof next_id].
    + rewrite map_tei_upd by exact Hf. apply I.
    + intros e He. destruct (InF e He) as [[H _]| ->]; [now apply I|].
      cbn [sap_list map]. constructor; [|now apply I].
      cbn [sapi x]. intros H. apply in_map_iff in H. destruct H as (y & Ey & Hy).
      unfold lapd_sap_find in F0. apply (find_none _ _ F0) in Hy. rewrite Ey, Z.eqb_refl in Hy. discriminate.
    + apply I.
    + intros e y He Hy. destruct (InF e He) as [[H _]| ->].
      * destruct (inv_dl _ I e y H Hy) as (A & B & C). auto with arith.
      * cbn [sap_list] in Hy. destruct Hy as [<-|Hy].
        -- cbn [tei x dl_tei dl_sapi sapi sid]. repeat split; auto.
        -- destruct (inv_dl _ I e0 y In0 Hy) as (A & B & C). cbn [tei]. auto with arith.
    + assert (Old : forall e y, In e (tei_list li) -> In y (sap_list e) -> sid y <> sid x).
      { intros e y He Hy. destruct (inv_dl _ I e y He Hy) as (_ & _ & L). cbn [sid x]. lia. }
      intros e y e' y' He Hy He' Hy' Eid.
      destruct (InF e He) as [[H H2]| ->]; destruct (InF e' He') as [[H' H2']| ->]; cbn [sap_list] in *.
      * now apply I.
      * destruct Hy' as [<-|Hy']; [destruct (Old _ _ H Hy Eid)|].
        destruct (inv_id _ I _ _ _ _ H Hy In0 Hy' Eid) as [-> _]. contradiction.
      * destruct Hy as [<-|Hy]; [destruct (Old _ _ H' Hy' (eq_sym Eid))|].
        destruct (inv_id _ I _ _ _ _ In0 Hy H' Hy' Eid) as [-> _]. contradiction.
      * destruct Hy as [<-|Hy]; destruct Hy' as [<-|Hy']; auto.
        -- destruct (Old _ _ In0 Hy' (eq_sym Eid)).
        -- destruct (Old _ _ In0 Hy Eid).
        -- destruct (inv_id _ I _ _ _ _ In0 Hy In0 Hy' Eid). auto.
  - intros t'. cbn [assigned open_link]. rewrite Rt. unfold teip_from_tei in *; cbn [tei_list].
    rewrite find_upd_tei by exact Hf. destruct (Z.eqb_spec t' t) as [->|]; [|reflexivity]. rewrite E0. reflexivity.
  - intros t' s'. cbn [link_at open_link]. rewrite Rl, Rn. unfold lookup, teip_from_tei in *; cbn [tei_list].
    rewrite find_upd_tei by exact Hf. destruct (Z.eqb_spec t' t) as [->|]; cbn [andb]; [|reflexivity].
    rewrite E0. cbn [option_map]. unfold lapd_sap_find; cbn [sap_list find].
    change (sapi x) with s. rewrite (Z.eqb_sym s s'). destruct (Z.eqb_spec s' s) as [->|]; reflexivity.
  - cbn [next_link open_link next_id]. now rewrite Rn.
  - exact R2.
  - cbn [tei_list limit open_link]. rewrite Rn.
    assert (Old : forall e y, In e (tei_list li) -> In y (sap_list e) ->
      (if (sid y =? next_id li)%nat then n201 a else limit a (sid y)) = dl_maxf y).
    { intros e y He Hy. destruct (inv_dl _ I e y He Hy) as (_ & _ & L).
      destruct (Nat.eqb_spec (sid y) (next_id li)); [lia|]. now apply (Rm e). }
    intros e y He Hy. destruct (InF e He) as [[H _]| ->]; [now apply (Old e)|].
    cbn [sap_list] in Hy. destruct Hy as [<-|Hy]; [|now apply (Old e0)].
    cbn [x sid dl_maxf]. now rewrite Nat.eqb_refl.
Qed.

Lemma sap_free_refines li a id : refines li a -> refines (lapd_sap_free li id) (close_link id a).
Proof.
  intros [I Rt Rl Rn R2 Rm]. unfold lapd_sap_free.
  set (g := fun e => mkTei (tei e) (tstate e) (filter (fun x => negb (Nat.eqb (sid x) id)) (sap_list e))).
  assert (Hg : forall e, tei (g e) = tei e) by reflexivity.
  constructor.
  - constructor; cbn [tei_list prof next_id].
    + rewrite map_map. rewrite (map_ext _ _ Hg). apply I.
    + intros e He. apply in_map_iff in He. destruct He as (e0 & <- & He0).
      cbn [g sap_list]. apply NoDup_map_filter. now apply I.
    + apply I.
    + intros e x He Hx. apply in_map_iff in He. destruct He as (e0 & <- & He0).
      cbn [g sap_list tei] in *. apply filter_In in Hx. destruct Hx as [Hx _]. now apply I.
    + intros e x e' x' He Hx He' Hx' E. apply in_map_iff in He, He'.
      destruct He as (e0 & <- & He0). destruct He' as (e1 & <- & He1).
      cbn [g sap_list] in Hx, Hx'. apply filter_In in Hx, Hx'. destruct Hx as [Hx _], Hx' as [Hx' _].
      destruct (inv_id _ I _ _ _ _ He0 Hx He1 Hx' E) as [-> ->]. auto.
  - intros t. cbn [assigned close_link]. rewrite Rt. unfold teip_from_tei; cbn [tei_list].
    rewrite find_map_tei by exact Hg. now destruct (find _ (tei_list li)).
  - intros t s. cbn [link_at close_link]. rewrite Rl. unfold lookup, teip_from_tei; cbn [tei_list].
    rewrite find_map_tei by exact Hg. destruct (find _ (tei_list li)) as [e|] eqn:E; cbn [option_map]; [|reflexivity].
    apply find_tei_some in E. destruct E as [E _].
    unfold lapd_sap_find; cbn [g sap_list]. rewrite find_sap_filter by (now apply I).
    destruct (find _ (sap_list e)) as [x|]; [|reflexivity]. now destruct (Nat.eqb (sid x) id).
  - exact Rn.
  - exact R2.
  - cbn [tei_list limit close_link]. intros e x He Hx. apply in_map_iff in He. destruct He as (e0 & <- & He0).
    cbn [g sap_list] in Hx. apply filter_In in Hx. now apply (Rm e0).
Qed.

(** state NONE -> ASSIGNED touches no table *)
Lemma set_state_refines li a t : refines li a ->
  refines (mkInst (network_side li) (prof li)
     (upd_tei t (fun e => mkTei (tei e) TEI_ASSIGNED (sap_list e)) (tei_list li)) (next_id li)) a.
Proof.
  intros [I Rt Rl Rn R2 Rm].
  set (g := fun e => mkTei (tei e) TEI_ASSIGNED (sap_list e)).
  assert (Hg : forall e, tei (g e) = tei e) by reflexivity.
  assert (InG : forall e, In e (upd_tei t g (tei_list li)) -> exists e0, In e0 (tei_list li) /\ tei e = tei e0 /\ sap_list e = sap_list e0 /\ (e = e0 /\ tei e0 <> t \/ e = g e0 /\ tei e0 = t)).
  { intros e He. destruct (in_upd_tei g t _ e (inv_tei _ I) He) as [[H1 H2]|(e0 & H & H2 & ->)].
    - exists e. auto 8.
    - exists e0. auto 8. }
  constructor.
  - constructor; cbn [tei_list prof next_id].
    + rewrite map_tei_upd by exact Hg. apply I.
    + intros e He. destruct (InG e He) as (e0 & H & _ & S & _). rewrite S. now apply I.
    + apply I.
    + intros e x He Hx. destruct (InG e He) as (e0 & H & T & S & _). rewrite T. rewrite S in Hx. now apply I.
    + intros e x e' x' He Hx He' Hx' E. destruct (InG e He) as (e0 & H & _ & S & D).
      destruct (InG e' He') as (e1 & H' & _ & S' & D'). rewrite S in Hx. rewrite S' in Hx'.
      destruct (inv_id _ I _ _ _ _ H Hx H' Hx' E) as [-> ->].
      split; [|reflexivity]. destruct D as [[-> N]|[-> N]]; destruct D' as [[-> N']|[-> N']]; try reflexivity; contradiction.
  - intros t'. rewrite Rt. unfold teip_from_tei; cbn [tei_list]. rewrite find_upd_tei by exact Hg.
    destruct (Z.eqb_spec t' t) as [->|]; [|reflexivity]. now destruct (find _ (tei_list li)).
  - intros t' s. rewrite Rl. unfold lookup, teip_from_tei; cbn [tei_list]. rewrite find_upd_tei by exact Hg.
    destruct (Z.eqb_spec t' t) as [->|]; [|reflexivity]. now destruct (find _ (tei_list li)).
  - exact Rn.
  - exact R2.
  - cbn [tei_list]. intros e x He Hx. destruct (InG e He) as (e0 & H & _ & S & _). rewrite S in Hx. now apply (Rm e0).
Qed.
