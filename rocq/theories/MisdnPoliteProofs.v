(** The mISDN driver model with a kernel that refuses nothing and an application that updates the
    line after it configured timeslots. *)
From Coq Require Import List Arith Lia Bool ZArith.
From Verif Require Import Base E1Model MisdnModel MisdnSpec MisdnProofs MisdnRunProofs.
Import ListNotations.
Open Scope Z_scope.

Lemma rev8_ok a : reversed a (rev8 a).
Proof.
  unfold reversed, rev8. cbn [fold_left Z.sub]. rewrite Z.add_0_l.
  assert (K : forall b0 b1 b2 b3 b4 b5 b6 b7 : bool, let r := (if b0 then 2 ^ 7 else 0) + (if b1 then 2 ^ 6 else 0) + (if b2 then 2 ^ 5 else 0) + (if b3 then 2 ^ 4 else 0) + (if b4 then 2 ^ 3 else 0) + (if b5 then 2 ^ 2 else 0) + (if b6 then 2 ^ 1 else 0) + (if b7 then 2 ^ 0 else 0) in
    (0 <=? r) && (r <? 256) && Bool.eqb (Z.testbit r 0) b7 && Bool.eqb (Z.testbit r 1) b6 && Bool.eqb (Z.testbit r 2) b5 && Bool.eqb (Z.testbit r 3) b4 && Bool.eqb (Z.testbit r 4) b3 && Bool.eqb (Z.testbit r 5) b2 && Bool.eqb (Z.testbit r 6) b1 && Bool.eqb (Z.testbit r 7) b0 = true).
  { intros [] [] [] [] [] [] [] []; vm_compute; reflexivity. }
  specialize (K (Z.testbit a 0) (Z.testbit a 1) (Z.testbit a 2) (Z.testbit a 3) (Z.testbit a 4) (Z.testbit a 5) (Z.testbit a 6) (Z.testbit a 7)). cbv zeta in K. revert K.
  match goal with |- context [0 <=? ?x] => set (r := x) end. intros K. change (0 <= r < 256 /\ forall i, 0 <= i < 8 -> Z.testbit r i = Z.testbit a (7 - i)).
  repeat (apply andb_true_iff in K as [K ?]). repeat match goal with H : Bool.eqb _ _ = true |- _ => apply Bool.eqb_prop in H end. split; [lia|].
  intros i I. assert (i = 0 \/ i = 1 \/ i = 2 \/ i = 3 \/ i = 4 \/ i = 5 \/ i = 6 \/ i = 7) as C by lia.
  repeat (destruct C as [-> | C]; [assumption|]). now subst i.
Qed.
Lemma rev8_list o : Forall2 reversed o (map rev8 o).
Proof. induction o; constructor; auto using rev8_ok. Qed.

Definition inslot (t : nat) : Prop := (1 <= t <= 31)%nat.
Lemma slots_in t : In t slots <-> inslot t.
Proof. unfold slots, inslot. rewrite in_seq. lia. Qed.
Lemma contents_app u a : forall ty b, contents u ty (a ++ b) <-> contents u ty a /\ contents u (fold_left becomes a ty) b.
Proof. induction a as [|e r IH]; intros ty b; cbn [app contents fold_left]; [tauto|]. rewrite IH. tauto. Qed.

Section Polite.
Variable k : kern.
Variable NU : Prop.
Hypothesis OB : obliging k.

(** a timeslot and its history; [d]: the application has configured and not yet updated *)
Record PG (u : bool) (t : nat) (d : bool) (x : mts) (E : list eff) : Prop := {
  p_cur : m_cur x <> m_type x -> inslot t -> d = true /\ forall i, queue i (m_q x) = [];
  p_out : ~ inslot t -> m_cur x = TS_NONE;
  p_reg : m_reg x = negb (type_eqb (m_cur x) TS_NONE);
  p_lapd : m_lapd x = type_eqb (m_cur x) TS_SIGN && u;
  p_type : fold_left becomes E TS_NONE = m_type x;
  p_cont : contents u TS_NONE E;
  p_ask : full k -> m_cur x = m_type x -> m_type x = TS_RAW \/ m_type x = TS_HDLC -> queue 0 (m_q x) <> [] -> m_wr x = true \/ m_unc x = true;
  p_asks : NU -> m_cur x = m_type x -> m_type x = TS_SIGN -> forall i, queue i (m_q x) <> [] -> m_wr x = true \/ m_tmr x = true
}.
(** an operation that keeps this *)
Definition PK (u : bool) (t : nat) (d d' : bool) (z z' : loc) : Prop :=
  exists es, les z' = les z ++ es /\ forall E, Good u t (lx z) E -> PG u t d (lx z) E -> PG u t d' (lx z') (E ++ es).
Lemma pk_trans u t d d1 d2 a b c : Kept u t a b -> PK u t d d1 a b -> PK u t d1 d2 b c -> PK u t d d2 a c.
Proof.
  intros [e0 K] (e & A & A') (f & B & B'). exists (e ++ f). split; [now rewrite B, A, app_assoc|]. intros E G P. rewrite app_assoc. apply B'; [|now apply A'].
  assert (e0 = e). { pose proof (kp_les _ _ _ _ _ K) as L. rewrite A in L. now apply app_inv_head in L. } subst e0. now apply (kp_good _ _ _ _ _ K).
Qed.
Lemma pk_refl u t d z : PK u t d d z z.
Proof. exists []. split; [now rewrite app_nil_r|]. intros E G P. now rewrite app_nil_r. Qed.
(** the state alone *)
Lemma pk_put u t d z x : m_type x = m_type (lx z) -> m_cur x = m_cur (lx z) -> m_reg x = m_reg (lx z) -> m_lapd x = m_lapd (lx z) -> m_q x = m_q (lx z) ->
  (m_wr x = true \/ m_unc x = true \/ (m_wr (lx z) = false /\ m_unc (lx z) = false)) -> (m_wr x = true \/ m_tmr x = true \/ (m_wr (lx z) = false /\ m_tmr (lx z) = false)) -> PK u t d d z (put z x).
Proof.
  intros A B C D Q W W'. exists []. split; [now rewrite app_nil_r|]. intros E G [P1 P2 P3 P4 P5 P6 P7 P8]. rewrite app_nil_r. cbn [put lx].
  split; rewrite ?A, ?B, ?C, ?D, ?Q; auto.
  - intros F X Y Z. specialize (P7 F X Y Z). intuition congruence.
  - intros F X Y i Z. specialize (P8 F X Y i Z). intuition congruence.
Qed.
Lemma pk_want u t d z : PK u t d d z (want_write z).
Proof. unfold want_write. destruct (m_type (lx z)); try apply pk_refl; apply pk_put; auto. Qed.
(** an effect alone *)
Lemma pk_emit u t d z e : (forall ty, becomes ty e = ty) -> (forall E, Good u t (lx z) E -> PG u t d (lx z) E -> content u (m_type (lx z)) e) -> PK u t d d z (emit z e).
Proof.
  intros B C. exists [e]. split; [easy|]. intros E G P. specialize (C E G P). destruct P as [P1 P2 P3 P4 P5 P6 P7 P8]. cbn [emit lx]. split; auto.
  - rewrite fold_left_app. cbn. now rewrite B.
  - apply contents_app. split; [easy|]. rewrite P5. cbn. auto.
Qed.
(** the socket of a timeslot that is up *)
Lemma pg_open u t d x E : Good u t x E -> PG u t d x E -> m_cur x <> TS_NONE -> exists f, m_fd x = Open f.
Proof. intros G P N. apply (sh_reg _ (g_shape _ _ _ _ G)). rewrite (p_reg _ _ _ _ _ P). now destruct (type_eqb_spec (m_cur x) TS_NONE). Qed.

(** operations with the type as it was when the line was updated *)
Definition Live (u : bool) (t : nat) (d : bool) (z : loc) (ty : ts_type) : Prop := m_type (lx z) = ty /\ m_cur (lx z) = ty /\ ty <> TS_NONE.
Lemma pk_lapd u t z m : m_lapd (lx z) = true -> PK u t false false z (lapd_write m z).
Proof.
  intros L. apply pk_emit; [intros; now destruct (m_fd (lx z))|]. intros E G P. pose proof (p_lapd _ _ _ _ _ P) as PL. rewrite L in PL. symmetry in PL. apply andb_true_iff in PL as [C U]. destruct (type_eqb_spec (m_cur (lx z)) TS_SIGN) as [CU|]; [|discriminate].
  destruct (m_fd (lx z)); try easy. cbn. split; [|easy]. destruct (type_eqb_spec (m_cur (lx z)) (m_type (lx z))) as [Q|Q]; [congruence|].
  destruct (le_gt_dec 1 t) as [A|A]; [destruct (le_gt_dec t 31) as [B|B]|].
  - destruct (p_cur _ _ _ _ _ P Q) as [X _]; [split; lia|discriminate].
  - rewrite (p_out _ _ _ _ _ P) in CU; [discriminate|]. unfold inslot. lia.
  - rewrite (p_out _ _ _ _ _ P) in CU; [discriminate|]. unfold inslot. lia.
Qed.
Lemma pk_sa u t d z b : PK u t d d z (sa_write b z).
Proof. apply pk_emit; [intros; now destruct (m_fd (lx z))|]. intros E G P. now destruct (m_fd (lx z)). Qed.
Lemma pk_next u t d z : PK u t d d z (next z).
Proof. exists []. split; [now rewrite app_nil_r|]. intros E G P. now rewrite app_nil_r. Qed.
Lemma pk_block u t d z l : Live u t d z TS_TRAU -> PK u t d d z (block_write k l z).
Proof.
  intros (A & B & C). unfold block_write. eapply pk_trans; [apply kept_next|apply pk_next|]. apply pk_emit; [intros; now destruct (m_fd (lx z))|].
  intros E G P. destruct (pg_open _ _ _ _ _ G P) as (f & F); [cbn; now rewrite B|]. cbn [next lx] in *. now rewrite F.
Qed.
Lemma pg_one u t d x x' E es : PG u t d x E -> m_type x' = m_type x -> m_cur x' = m_cur x -> m_reg x' = m_reg x -> m_lapd x' = m_lapd x -> fold_left becomes es (m_type x) = m_type x -> contents u (m_type x) es ->
  (d = true -> (forall i, queue i (m_q x) = []) -> forall i, queue i (m_q x') = []) ->
  (full k -> m_cur x = m_type x -> m_type x = TS_RAW \/ m_type x = TS_HDLC -> (queue 0 (m_q x) <> [] -> m_wr x = true \/ m_unc x = true) -> queue 0 (m_q x') <> [] -> m_wr x' = true \/ m_unc x' = true) ->
  (NU -> m_cur x = m_type x -> m_type x = TS_SIGN -> (forall i, queue i (m_q x) <> [] -> m_wr x = true \/ m_tmr x = true) -> forall i, queue i (m_q x') <> [] -> m_wr x' = true \/ m_tmr x' = true) ->
  PG u t d x' (E ++ es).
Proof.
  intros [P1 P2 P3 P4 P5 P6 P7 P8] A B C D F H Q R R'. split; rewrite ?A, ?B, ?C, ?D; [|assumption|assumption|assumption| | | |].
  - intros X Y. destruct (P1 X Y) as [P9 P10]. split; auto.
  - now rewrite fold_left_app, P5.
  - apply contents_app. rewrite P5. auto.
  - intros X Y Z. apply R; [easy..|]. now apply P7.
  - intros X Y Z. apply R'; [easy..|]. now apply P8.
Qed.
Lemma pk_cnf u t d z ty : Live u t d z ty -> ty = TS_RAW \/ ty = TS_HDLC -> PK u t d d z (emit (put z (w_wr (w_unc (lx z) false) true)) ECnf).
Proof.
  intros (A & B & C) T. exists [ECnf]. split; [easy|]. intros E G P. apply (pg_one u t d (lx z)); cbn [emit put lx w_wr w_unc m_type m_cur m_reg m_lapd m_q m_wr m_unc m_tmr]; auto.
  cbn. now rewrite A.
Qed.
Lemma pk_chan u t d z tei sapi c : m_type (lx z) = TS_SIGN -> PK u t d d z (tell_chan tei sapi c z).
Proof.
  intros T. unfold tell_chan. destruct (lookup tei sapi (m_q (lx z))) as [a|] eqn:L; [|apply pk_refl]. exists [EChan (l_id a) c]. split; [easy|]. intros E G P. apply (pg_one u t d (lx z)); cbn [emit put lx w_q m_type m_cur m_reg m_lapd m_q m_wr m_unc m_tmr]; auto.
  - cbn. auto.
  - intros _ H i. now rewrite set_chan_queue.
  - intros _ _ _ H. now rewrite set_chan_queue.
  - intros _ _ _ H i. rewrite set_chan_queue. apply H.
Qed.
Lemma pk_timer u t d z : m_type (lx z) = TS_SIGN -> PK u t d d z (want_write (put z (w_q (lx z) (m_q (lx z)) false))).
Proof.
  intros T. unfold want_write. cbn [put lx w_q m_type]. rewrite T. exists []. split; [cbn; now rewrite app_nil_r|]. intros E G P. apply (pg_one u t d (lx z)); cbn [emit put lx w_q w_wr m_type m_cur m_reg m_lapd m_q m_wr m_unc m_tmr]; auto. easy.
Qed.
Lemma pk_link u t d z i tei sapi : PK u t d d z (link i tei sapi z).
Proof.
  unfold link. destruct (_ && _); [|apply pk_refl]. eexists. split; [reflexivity|]. intros E G P. apply (pg_one u t d (lx z)); cbn [emit put lx w_q m_type m_cur m_reg m_lapd m_q m_wr m_unc m_tmr]; auto; try easy.
  - intros _ H j. now rewrite snoc_queue.
  - intros _ _ _ H. now rewrite snoc_queue.
  - intros _ _ _ H j. rewrite snoc_queue by easy. apply H.
Qed.
Lemma pk_unlink u t d z i : (NU -> False) -> PK u t d d z (unlink i z).
Proof.
  intros N. unfold unlink. destruct (type_eqb_spec (m_type (lx z)) TS_SIGN) as [T|T]; cbn [andb]; [|apply pk_refl]. destruct (has _ _); [|apply pk_refl]. eexists. split; [reflexivity|]. intros E G P. apply (pg_one u t d (lx z)); cbn [emit put lx w_q m_type m_cur m_reg m_lapd m_q m_wr m_unc m_tmr]; auto; try easy.
  - intros _ H j. rewrite filter_queue. destruct (Nat.eqb j i); auto.
  - intros _ _ [X|X]; congruence.
Qed.
Lemma pk_send u t z i m : PK u t false false z (send i m z).
Proof.
  unfold send. destruct (has i (m_q (lx z))) eqn:H; [|apply pk_refl]. cbn [negb].
  destruct (m_type (lx z)) eqn:TY; try apply pk_refl.
  - exists [EAcc i m]. split; [unfold want_write; cbn [emit put lx w_q m_type]; rewrite TY; now destruct (m_tmr (lx z))|].
    intros E G P. assert (LX : lx (if m_tmr (lx z) then emit (put z (w_q (lx z) (append i m (m_q (lx z))) (m_tmr (lx z)))) (EAcc i m) else want_write (emit (put z (w_q (lx z) (append i m (m_q (lx z))) (m_tmr (lx z)))) (EAcc i m))) = mkT (m_type (lx z)) (m_cur (lx z)) (m_fd (lx z)) (m_reg (lx z)) (if m_tmr (lx z) then m_wr (lx z) else true) (m_unc (lx z)) (m_lapd (lx z)) (append i m (m_q (lx z))) (m_tmr (lx z))).
    { unfold want_write. cbn [emit put lx w_q m_type]. rewrite TY. destruct (m_tmr (lx z)) eqn:TM; unfold w_q, w_wr; cbn; rewrite ?TY, ?TM; reflexivity. }
    rewrite LX. apply (pg_one u t false (lx z)); cbn [m_type m_cur m_reg m_lapd m_q m_wr m_unc m_tmr]; auto.
    + easy.
    + discriminate.
    + intros _ _ [X|X]; congruence.
    + intros _ _ _ Q j. destruct (m_tmr (lx z)); auto.
  - exists [EAcc i m]. split; [unfold want_write; rewrite TY; reflexivity|]. intros E G P. unfold want_write. rewrite TY. apply (pg_one u t false (lx z)); cbn [emit put lx w_q w_wr m_type m_cur m_reg m_lapd m_q m_wr m_unc m_tmr]; auto; easy.
  - exists [EAcc i m]. split; [unfold want_write; rewrite TY; reflexivity|]. intros E G P. unfold want_write. rewrite TY. apply (pg_one u t false (lx z)); cbn [emit put lx w_q w_wr m_type m_cur m_reg m_lapd m_q m_wr m_unc m_tmr]; auto; easy.
Qed.
Lemma pk_config u t d ty z z' : config ty z = Ok z' -> PK u t d true z z'.
Proof.
  unfold config. assert (M : PK u t d true z z). { exists []. split; [now rewrite app_nil_r|]. intros E G P. rewrite app_nil_r. destruct P as [P1 P2 P3 P4 P5 P6 P7 P8]. split; auto. intros X Y. split; [easy|]. now apply P1. }
  destruct (type_eqb_spec (m_type (lx z)) ty) as [|NE]; [now intros [= <-]|]. destruct (_ && _) eqn:L; [discriminate|]. intros [= <-].
  exists [EConf ty]. split; [easy|]. intros E G [P1 P2 P3 P4 P5 P6 P7 P8]. cbn [emit put lx]. assert (Q : forall i, queue i (queues0 ty) = []) by (intros i; destruct ty; cbn; try easy; now destruct i).
  split; cbn [w_type m_type m_cur m_reg m_lapd m_q m_wr m_unc m_tmr]; auto.
  - now rewrite fold_left_app.
  - apply contents_app. split; [easy|]. now cbn.
Qed.
Lemma pk_data u t d z ty f : Shape (lx z) -> m_fd (lx z) = Open f -> Live u t d z ty -> ty = TS_RAW \/ ty = TS_HDLC -> PK u t d d z (data_write k (type_eqb ty TS_RAW) z).
Proof.
  intros S F (A & B & C) T. assert (Q : exists ms, m_q (lx z) = [mkLk 0 0 0 0 ms]) by (pose proof (sh_q _ S) as Q; rewrite A in Q; destruct T as [-> | ->]; exact Q). destruct Q as (ms & Q).
  assert (SM : m_unc (lx z) = true \/ ms = [] -> PK u t d d z (put z (w_wr (lx z) false))).
  { intros H. exists []. split; [now rewrite app_nil_r|]. intros E G P. apply (pg_one u t d (lx z)); cbn [emit put lx w_q w_wr m_type m_cur m_reg m_lapd m_q m_wr m_unc m_tmr]; auto; try easy.
    - intros _ _ _ X Y. rewrite Q in Y. cbn in Y. destruct H as [H|H]; [auto|subst; easy].
    - intros _ _ X. exfalso. rewrite A in X. destruct T; congruence. }
  unfold data_write. cbn [put lx w_wr m_unc].
  destruct (m_unc (lx z)) eqn:U; [apply SM; auto|]. unfold tx_ts. cbn [put lx w_wr m_type m_q m_tmr].
  assert (TX : forall X Y Z, match m_type (lx z) with TS_NONE => X | TS_TRAU => Y | TS_I460 => Z | _ => match take (m_q (lx z)) with Some (a, m, q) => (put (put z (w_wr (lx z) false)) (w_q (w_wr (lx z) false) q (m_tmr (lx z))), Some (Msg (l_id a), m)) | None => (put z (w_wr (lx z) false), None) end end = match ms with m :: r => (put (put z (w_wr (lx z) false)) (w_q (w_wr (lx z) false) [mkLk 0 0 0 0 r] (m_tmr (lx z))), Some (Msg 0, m)) | [] => (put z (w_wr (lx z) false), None) end).
  { intros X Y Z. rewrite A, Q. cbn [take l_q l_id l_tei l_sapi l_chan]. destruct T as [-> | ->]; now destruct ms. }
  cbn [put lx] in TX. rewrite TX. clear TX. destruct ms as [|m r]; [apply SM; auto|].
  unfold out_data. cbn [put lx w_q w_wr m_fd ln]. rewrite F.
  set (W := k_write k (ln z)). assert (WF : full k -> W = true) by (intros X; apply X). clearbody W.
  exists [EData f (Msg 0) m (if type_eqb ty TS_RAW then map rev8 m else m) W]. split; [now destruct W|]. intros E G P.
  assert (CO : contents u (m_type (lx z)) [EData f (Msg 0) m (if type_eqb ty TS_RAW then map rev8 m else m) W]).
  { cbn [contents content]. split; [|easy]. split; [eauto|]. rewrite A. destruct T as [-> | ->]; cbn; [left|right]; split; auto using rev8_list. }
  apply (pg_one u t d (lx z)); auto; try (destruct W; reflexivity).
  - intros _ X. specialize (X 0%nat). rewrite Q in X. discriminate.
  - intros X _ _ _ _. rewrite (WF X). now right.
  - intros _ _ X. exfalso. rewrite A in X. destruct T; congruence.
Qed.
Lemma pk_sign u t d z f : m_fd (lx z) = Open f -> NoDup (ids (m_q (lx z))) -> m_type (lx z) = TS_SIGN -> m_lapd (lx z) = u -> exists z', sign_write k u z = Ok z' /\ PK u t d d z z'.
Proof.
  intros F N A L. unfold sign_write. cbn [put lx w_wr m_type m_q m_lapd m_fd m_tmr]. rewrite A.
  destruct (take (m_q (lx z))) as [[[a m] q]|] eqn:T.
  - assert (FIN : forall z' e, les z' = les z ++ [e] -> (forall ty, becomes ty e = ty) -> content u TS_SIGN e -> lx z' = w_q (w_wr (lx z) false) q true -> PK u t d d z z').
    { intros z' e X Y Z V. exists [e]. split; [easy|]. intros E G P. destruct (take_spec _ _ _ _ N T) as (T1 & T2 & T3 & _). rewrite V. apply (pg_one u t d (lx z)); cbn [w_q w_wr m_type m_cur m_reg m_lapd m_q m_wr m_unc m_tmr]; auto.
      - cbn. now rewrite Y.
      - cbn [contents]. rewrite A. now split.
      - intros _ H. specialize (H (l_id a)). rewrite T2 in H. discriminate.
      - intros _ _ [X'|X']; congruence. }
    destruct u.
    + cbn [put lx w_q w_wr m_lapd]. rewrite L. eexists. split; [reflexivity|]. eapply FIN; [reflexivity|easy|now cbn|reflexivity].
    + cbn [put lx w_q w_wr m_fd m_q]. rewrite F. eexists. split; [reflexivity|]. eapply FIN; [reflexivity|easy|now cbn|reflexivity].
  - eexists. split; [reflexivity|]. exists []. split; [now rewrite app_nil_r|]. intros E G P. pose proof (take_none _ T) as TN.
    apply (pg_one u t d (lx z)); cbn [put lx w_q w_wr m_type m_cur m_reg m_lapd m_q m_wr m_unc m_tmr]; auto; easy.
Qed.
(** an update leaves every timeslot as configured *)
Lemma updated_pg u dev t z z' o es d E : obliging k -> inslot t -> updated k u dev t z z' o es -> Good u t (lx z) E -> PG u t d (lx z) E -> o = None /\ m_type (lx z') = m_type (lx z) /\ PG u t false (lx z') (E ++ es).
Proof.
  intros OB' IS U G P. assert (DE : contents u (m_type (lx z)) (down_es (lx z)) /\ fold_left becomes (down_es (lx z)) (m_type (lx z)) = m_type (lx z)).
  { unfold down_es. destruct (m_fd (lx z)); try easy. now destruct (m_reg (lx z)). }
  assert (UE : forall f, contents u (m_type (lx z)) (up_es u dev t f (m_type (lx z))) /\ fold_left becomes (up_es u dev t f (m_type (lx z))) (m_type (lx z)) = m_type (lx z)).
  { intros f. unfold up_es. destruct (group_of u (m_type (lx z))); cbn; auto 10. }
  destruct U as [C|C T|rc C T R K|rc p n wr m C T R PP N M K|n C T N].
  - split; [easy|]. split; [easy|]. rewrite app_nil_r. destruct P as [P1 P2 P3 P4 P5 P6 P7 P8]. split; auto. now intros X.
  - split; [easy|]. split; [easy|]. destruct P as [P1 P2 P3 P4 P5 P6 P7 P8]. split; cbn [lx down_x m_type m_cur m_reg m_lapd m_q m_wr m_unc m_tmr]; auto; rewrite ?T; try easy.
    + rewrite fold_left_app, P5. rewrite (proj2 DE). easy.
    + apply contents_app. rewrite P5. easy.
    + intros _ _ [X|X]; discriminate.
  - exfalso. destruct (OB' (ln z)) as (_ & X & _). congruence.
  - exfalso. destruct (OB' m) as (_ & _ & X1 & X2 & X3). intuition congruence.
  - split; [easy|]. split; [easy|]. assert (QE : forall i, queue i (m_q (lx z)) = []) by (now apply P). destruct P as [P1 P2 P3 P4 P5 P6 P7 P8]. split; cbn [lx up_x down_x m_type m_cur m_reg m_lapd m_q m_wr m_unc m_tmr]; auto; try easy.
    + now destruct (type_eqb_spec (m_type (lx z)) TS_NONE).
    + rewrite !fold_left_app, P5, (proj2 DE). apply UE.
    + rewrite !contents_app. rewrite P5, (proj2 DE). repeat split; [easy|apply DE|apply UE].
Qed.

(** ** the line *)
Definition Pol (d : bool) (s : st) : Prop := Inv s /\ forall t, PG (ul s) t d (tsl s t) (proj t (out s)).
Definition grows (d d' : bool) : Prop := d = true -> d' = true.
Lemma pg_mono u t d d' x E : grows d d' -> PG u t d x E -> PG u t d' x E.
Proof. intros M [P1 P2 P3 P4 P5 P6 P7 P8]. split; auto. intros X Y. destruct (P1 X Y). auto. Qed.
Lemma leave_pol d d' s t z : Pol d s -> grows d d' -> Kept (ul s) t (enter s t) z -> PK (ul s) t d d' (enter s t) z -> Pol d' (leave s t z).
Proof.
  intros [I P] M K (es & L & X). split; [now apply leave_inv|]. intros t'. unfold leave. cbn [ul tsl out]. cbn [enter les app lx] in *. rewrite L, proj_app. unfold upd. destruct (Nat.eqb_spec t' t) as [->|NE].
  - rewrite proj_own. apply X; [apply I|apply P].
  - rewrite proj_other, app_nil_r by congruence. apply (pg_mono _ _ d); auto.
Qed.
Lemma say_pol d s es : Pol d s -> forallb plain es = true -> Pol d (say s es).
Proof.
  intros [I P] F. split; [now apply say_inv|]. intros t. unfold say. cbn [ul tsl out]. rewrite proj_app. replace (proj t es) with (@nil eff); [rewrite app_nil_r; apply P|].
  clear -F. induction es as [|e r IH]; [easy|]. cbn [forallb] in F. apply andb_true_iff in F as [F F']. destruct e as [|[]| | | | |]; try discriminate; cbn; auto.
Qed.
Lemma leave_type s t z t' : m_type (lx z) = m_type (tsl s t) -> m_type (tsl (leave s t z) t') = m_type (tsl s t').
Proof. intros H. unfold leave, upd. cbn [tsl]. destruct (Nat.eqb_spec t' t) as [->|]; auto. Qed.
Lemma loop_pol ts : forall d s, Forall inslot ts -> Inv s -> (forall t, inslot t -> PG (ul s) t (if in_dec Nat.eq_dec t ts then d else false) (tsl s t) (proj t (out s))) -> (forall t, ~ inslot t -> PG (ul s) t false (tsl s t) (proj t (out s))) ->
  Pol false (fst (update_loop k ts s)) /\ snd (update_loop k ts s) = 0 /\ forall t, m_type (tsl (fst (update_loop k ts s)) t) = m_type (tsl s t).
Proof.
  induction ts as [|t r IH]; intros d s F I P P'; cbn [update_loop].
  - cbn [fst snd]. split; [|easy]. split; [easy|]. intros t. destruct (le_gt_dec 1 t) as [A|A]; [destruct (le_gt_dec t 31) as [B|B]|]; [apply (P t); split; lia|apply P'; unfold inslot; lia..].
  - inversion F as [|? ? F1 F2]; subst. destruct (update_spec k (ul s) (port s) t (enter s t)) as (es & U); [apply (i_good s I t)|].
    pose proof (updated_keep _ _ _ _ (enter s t) _ _ _ (g_shape _ _ _ _ (i_good s I t)) U) as K. destruct (update_ts k (ul s) (port s) t (enter s t)) as [z o]. cbn [fst snd] in *.
    destruct (updated_pg _ _ _ (enter s t) _ _ _ (if in_dec Nat.eq_dec t (t :: r) then d else false) (proj t (out s)) OB F1 U (i_good s I t) (P t F1)) as (-> & T & G).
    assert (I' : Inv (leave s t z)) by (apply leave_inv; [easy|now exists es]).
    destruct (IH d (leave s t z) F2 I') as (H1 & H2 & H3).
    + intros t' S'. unfold leave. cbn [ul tsl out]. pose proof (kp_les _ _ _ _ _ K) as L. cbn [enter les app] in L. rewrite L, proj_app. unfold upd. destruct (Nat.eqb_spec t' t) as [->|NE].
      * rewrite proj_own. apply (pg_mono _ _ false); [intros X; discriminate|exact G].
      * rewrite proj_other, app_nil_r by congruence. specialize (P t' S'). destruct (in_dec Nat.eq_dec t' (t :: r)) as [[->|X]|X]; [easy|..]; destruct (in_dec Nat.eq_dec t' r); auto; try easy. elim X. now right.
    + intros t' S'. unfold leave. cbn [ul tsl out]. pose proof (kp_les _ _ _ _ _ K) as L. cbn [enter les app] in L. rewrite L, proj_app. unfold upd. destruct (Nat.eqb_spec t' t) as [->|NE]; [easy|].
      rewrite proj_other, app_nil_r by congruence. now apply P'.
    + split; [easy|]. split; [easy|]. intros t'. rewrite H3. now apply leave_type.
Qed.
Lemma update_pol d s : Pol d s -> Pol false (fst (line_update k s)) /\ snd (line_update k s) = 0 /\ forall t, m_type (tsl (fst (line_update k s)) t) = m_type (tsl s t).
Proof.
  intros P. unfold line_update. set (s1 := mkS _ _ _ _ _ _ _ _ _). destruct (OB (tick (say s [LUpdate]))) as (KC & _). rewrite KC.
  assert (P1 : Pol d s1). { destruct (say_pol d s [LUpdate] P eq_refl) as [I Q]. split; [|exact Q]. apply (tick_inv (say s [LUpdate])); [easy|cbn; lia]. }
  assert (T1 : forall t, tsl s1 t = tsl s t) by reflexivity.
  pose proof (dummy_inv k s1 (proj1 P1)) as I2.
  assert (D : snd (dummy_up k s1) = None /\ tsl (fst (dummy_up k s1)) = tsl s1 /\ ul (fst (dummy_up k s1)) = ul s1 /\ (forall t, proj t (out (fst (dummy_up k s1))) = proj t (out s1))).
  { unfold dummy_up. destruct (OB (tick s1)) as (_ & K2 & _). destruct (OB (S (tick s1))) as (_ & _ & K3 & _). rewrite K2, K3. destruct (_ && _); destruct (dummy s1); cbn [negb fst snd tsl ul out]; repeat split; auto; intros t; rewrite proj_app; cbn; now rewrite app_nil_r. }
  destruct (dummy_up k s1) as [s2 o]. cbn [fst snd] in *. destruct D as (-> & D2 & D3 & D4).
  assert (P2 : forall t, PG (ul s2) t d (tsl s2 t) (proj t (out s2))). { intros t. rewrite D2, D3, D4. apply P1. }
  destruct (loop_pol slots d s2) as (H1 & H2 & H3); auto.
  - apply Forall_forall. intros t. apply slots_in.
  - intros t S'. destruct (in_dec Nat.eq_dec t slots) as [X|X]; [apply P2|]. elim X. now apply slots_in.
  - intros t S'. specialize (P2 t). destruct P2 as [Q1 Q2 Q3 Q4 Q5 Q6 Q7 Q8]. split; auto. now intros _ X.
  - split; [easy|]. split; [easy|]. intros t. now rewrite H3, D2.
Qed.
(** the flag after a command, and when it may be given *)
Definition after (d : bool) (c : cmd) : bool := match c with CConfig _ _ => true | CUpdate => false | _ => d end.
Definition fit (d : bool) (c : cmd) : Prop := (match c with CSend _ _ _ => d = false | _ => True end) /\ (NU -> match c with CUnlink _ _ => False | _ => True end).
Lemma exec_pol d s c : Pol d s -> fit d c -> match exec k s c with Ok s' => Pol (after d c) s' /\ forall t, avoids t c = true -> m_type (tsl s' t) = m_type (tsl s t) | Bad r => r = LinksLeft end.
Proof.
  intros P [F1 F2]. destruct c as [t ty|p| |t i tei sapi|t i|t i m|b]; cbn [exec after].
  - assert (Q : Pol true s) by (destruct P as [I P]; split; [easy|]; intros t'; apply (pg_mono _ _ d); [easy|apply P]).
    destruct (valid t); [|easy]. unfold onr. destruct (config ty (enter s t)) as [z|r] eqn:C.
    + split; [apply (leave_pol d true); auto; [easy|eapply kept_config; eauto|eapply pk_config; eauto]|]. intros t' A. cbn [avoids] in A. unfold leave, upd. cbn [tsl]. rewrite (Nat.eqb_sym t' t). destruct (Nat.eqb t t'); easy.
    + unfold config in C. destruct (type_eqb _ _); [discriminate|]. destruct (_ && _); congruence.
  - split; [|easy]. destruct P as [I P]. split; [now destruct I|exact P].
  - pose proof (update_pol d s P) as (U1 & U2 & U3). destruct (line_update k s) as [s1 rc]. split; [now apply say_pol|]. intros t _. exact (U3 t).
  - destruct (valid t); [|easy]. split; [apply (leave_pol d d); auto; [easy|apply kept_link|apply pk_link]|]. intros t' _. apply leave_type. unfold link. now destruct (_ && _).
  - destruct (valid t); [|easy]. split; [apply (leave_pol d d); auto; [easy|apply kept_unlink|apply pk_unlink; auto]|]. intros t' _. apply leave_type. unfold unlink. now destruct (_ && _).
  - subst d. destruct (valid t); [|easy]. split; [apply (leave_pol false false); auto; [easy|apply kept_send|apply pk_send]|]. intros t' _. apply leave_type. unfold send. destruct (negb _); [easy|]. cbn [enter lx]. destruct (m_type (tsl s t)) eqn:T; try easy; unfold want_write; cbn [enter emit put lx w_q m_type]; rewrite T; try easy. destruct (m_tmr _); cbn; easy.
  - destruct (ul s) eqn:U; [easy|]. split; [apply (leave_pol d d); auto; [easy|apply kept_sa|apply pk_sa]|]. intros t' _. now apply leave_type.
Qed.
Lemma execs_pol cs : forall d s, Pol d s -> settled d cs = true -> (NU -> forallb (fun c => match c with CUnlink _ _ => false | _ => true end) cs = true) ->
  match execs k cs s with Ok s' => Pol false s' /\ forall t, forallb (avoids t) cs = true -> m_type (tsl s' t) = m_type (tsl s t) | Bad r => r = LinksLeft end.
Proof.
  induction cs as [|c r IH]; intros d s P S N; cbn [execs].
  - split; [|easy]. cbn in S. now destruct d.
  - assert (F : fit d c /\ settled (after d c) r = true).
    { unfold fit. cbn [settled] in S. destruct c; cbn [after]; try (split; [split; [easy|]|exact S]; try easy).
      - intros X. specialize (N X). cbn in N. easy.
      - apply andb_true_iff in S as [S S']. split; [|easy]. split; [now destruct d|easy]. }
    destruct F as [F S']. pose proof (exec_pol d s c P F) as E. destruct (exec k s c) as [s1|]; [|exact E]. destruct E as [P1 T1].
    assert (N' : NU -> forallb (fun c => match c with CUnlink _ _ => false | _ => true end) r = true) by (intros X; specialize (N X); cbn in N; now apply andb_true_iff in N).
    specialize (IH (after d c) s1 P1 S' N'). destruct (execs k r s1) as [s2|]; [|exact IH]. destruct IH as [P2 T2]. split; [easy|]. intros t A. cbn [forallb] in A. apply andb_true_iff in A as [A A']. now rewrite T2, T1.
Qed.
Lemma mph_pol d s i : Pol d s -> Pol d (mph_info s i) /\ tsl (mph_info s i) = tsl s /\ ul (mph_info s i) = ul s.
Proof.
  intros [I P]. assert (X : tsl (mph_info s i) = tsl s /\ ul (mph_info s i) = ul s /\ forall t, proj t (out (mph_info s i)) = proj t (out s)).
  { unfold mph_info. destruct (_ =? 256); [repeat split; intros t; cbn [say out]; rewrite proj_app; cbn; now rewrite app_nil_r|].
    repeat (destruct (_ =? _); [cbv zeta; destruct (negb _ && _); [|destruct (_ && negb _)]; (split; [easy|]; split; [easy|]; intros t; cbn [say out]; rewrite !proj_app; cbn; now rewrite !app_nil_r)|]). easy. }
  destruct X as (X1 & X2 & X3). split; [|easy]. split; [now apply mph_inv|]. intros t. rewrite X1, X2, X3. apply P.
Qed.
Lemma ul_leave s t z : ul (leave s t z) = ul s. Proof. reflexivity. Qed.
Lemma pol_reg s t : Pol false s -> m_reg (tsl s t) = true -> inslot t /\ m_type (tsl s t) <> TS_NONE.
Proof.
  intros [I P] R. specialize (P t). pose proof (p_reg _ _ _ _ _ P) as PR. rewrite R in PR. destruct (type_eqb_spec (m_cur (tsl s t)) TS_NONE) as [|N]; [discriminate|].
  assert (IS : inslot t). { destruct (le_gt_dec 1 t) as [A|A]; [destruct (le_gt_dec t 31) as [B|B]|]; [split; lia|elim N; apply (p_out _ _ _ _ _ P); unfold inslot; lia..]. }
  split; [easy|]. destruct (type_eqb_spec (m_cur (tsl s t)) (m_type (tsl s t))) as [E|E]; [congruence|]. destruct (p_cur _ _ _ _ _ P E IS). discriminate.
Qed.
Lemma pol_live s t : Pol false s -> inslot t -> m_type (tsl s t) <> TS_NONE -> Live (ul s) t false (enter s t) (m_type (tsl s t)) /\ Shape (tsl s t) /\ (exists f, m_fd (tsl s t) = Open f) /\ m_reg (tsl s t) = true /\ m_lapd (tsl s t) = type_eqb (m_type (tsl s t)) TS_SIGN && ul s.
Proof.
  intros [I P] IS N. specialize (P t). pose proof (i_good s I t) as G. assert (C : m_cur (tsl s t) = m_type (tsl s t)). { destruct (type_eqb_spec (m_cur (tsl s t)) (m_type (tsl s t))) as [E|E]; [easy|]. destruct (p_cur _ _ _ _ _ P E IS). discriminate. }
  split; [now split|]. split; [apply G|]. split; [apply (pg_open _ _ _ _ _ G P); congruence|]. rewrite (p_reg _ _ _ _ _ P), (p_lapd _ _ _ _ _ P), C. split; [now destruct (type_eqb_spec (m_type (tsl s t)) TS_NONE)|easy].
Qed.
Lemma emit_pol d s t e : Pol d s -> idle e = true -> writes e = None -> (forall ty, becomes ty e = ty) -> content (ul s) (m_type (tsl s t)) e -> Pol d (on s t (fun z => emit z e)) /\ forall t', m_type (tsl (on s t (fun z => emit z e)) t') = m_type (tsl s t').
Proof. intros P X Y Z C. split; [|intros t'; now apply leave_type]. apply (leave_pol d d); auto; [easy|apply kept_idle; [easy|congruence]|]. apply pk_emit; auto. Qed.
Definition cmds_ok (t : nat) (act : list cmd) : Prop := settled false act = true /\ forallb (avoids t) act = true /\ (NU -> forallb (fun c => match c with CUnlink _ _ => false | _ => true end) act = true).
Lemma act_pol s t act : Pol false s -> cmds_ok t act -> match execs k act s with Ok s' => Pol false s' /\ m_type (tsl s' t) = m_type (tsl s t) | Bad r => r = LinksLeft end.
Proof. intros P (A & B & C). pose proof (execs_pol act false s P A C) as H. destruct (execs k act s); [|exact H]. destruct H as [H1 H2]. auto. Qed.
Lemma event_pol s t tei sapi up act : Pol false s -> m_type (tsl s t) = TS_SIGN -> cmds_ok t act -> match event k s t tei sapi up act with Ok s' => Pol false s' /\ m_type (tsl s' t) = m_type (tsl s t) | Bad r => r = LinksLeft end.
Proof.
  intros P T C. unfold event. destruct (lookup _ _ _) as [a|]; [|easy]. destruct (emit_pol false s t (EUp (l_id a) up)) as [P1 T1]; auto. rewrite <- (T1 t). now apply act_pol.
Qed.
Lemma cb_pol s t r w act : Pol false s -> m_reg (tsl s t) = true -> cmds_ok t act -> match fd_cb k s t r w act with Ok s' => Pol false s' | Bad r => r = LinksLeft end.
Proof.
  intros P R C. destruct (pol_reg s t P R) as [IS TN]. destruct (pol_live s t P IS TN) as (LV & SH & (f & FD) & _ & LA).
  assert (SQ : forall (rf : st -> rd -> res st) (wf : st -> res st), (forall r, match rf s r with Ok s' => Pol false s' /\ m_type (tsl s' t) = m_type (tsl s t) | Bad r => r = LinksLeft end) -> (forall s1, Pol false s1 -> m_type (tsl s1 t) = m_type (tsl s t) -> match wf s1 with Ok s' => Pol false s' | Bad r => r = LinksLeft end) ->
    match (match (match r with Some r => rf s r | None => Ok s end) with Ok s0 => if w then wf s0 else Ok s0 | Bad r => Bad r end) with Ok s' => Pol false s' | Bad r => r = LinksLeft end).
  { intros rf wf RF WF. destruct r as [r|].
    - specialize (RF r). destruct (rf s r) as [s1|]; [|exact RF]. destruct RF as [P1 T1]. destruct w; [now apply WF|exact P1].
    - destruct w; [now apply WF|exact P]. }
  unfold fd_cb. destruct (m_type (tsl s t)) eqn:TY; try exact P; [apply (SQ (fun s r => sign_read k s t r act) (fun s => onr s t (sign_write k (ul s))))|apply (SQ (fun s r => trau_read k s t r act) (fun s => Ok s))|apply (SQ (fun s r => data_read k s t true r act) (fun s => Ok (on s t (data_write k true))))|apply (SQ (fun s r => data_read k s t false r act) (fun s => Ok (on s t (data_write k false))))]; clear SQ r.
  - intros [|c tei sapi|c tei sapi|tei sapi|tei sapi o|o| |i|]; cbn [sign_read]; try easy.
    + assert (K : m_type (tsl (on s t (tell_chan tei sapi c)) t) = m_type (tsl s t)) by (apply leave_type; unfold tell_chan; now destruct (lookup _ _ _)).
      split; [|now rewrite K]. apply (leave_pol false false); auto; [easy|apply kept_chan; exact TY|apply pk_chan; exact TY].
    + assert (K : m_type (tsl (on s t (tell_chan tei sapi c)) t) = m_type (tsl s t)) by (apply leave_type; unfold tell_chan; now destruct (lookup _ _ _)).
      assert (P1 : Pol false (on s t (tell_chan tei sapi c))). { apply (leave_pol false false); auto; [easy|apply kept_chan; exact TY|apply pk_chan; exact TY]. }
      assert (K2 : m_type (tsl (on s t (tell_chan tei sapi c)) t) = TS_SIGN) by congruence. pose proof (event_pol _ t tei sapi true act P1 K2 C) as EV. now rewrite K2 in EV.
    + pose proof (event_pol s t tei sapi false act P TY C) as EV. now rewrite TY in EV.
    + destruct (ul s) eqn:U; [easy|]. destruct (emit_pol false s t (ERx tei sapi o)) as [P1 T1]; auto; [cbn; auto|]. rewrite <- TY, <- (T1 t). now apply act_pol.
    + destruct (ul s) eqn:U; cbn [negb].
      * rewrite LA. cbn [type_eqb andb]. destruct (emit_pol false s t (ELapdRx o)) as [P1 T1]; auto; [cbn; auto|]. rewrite <- TY, <- (T1 t). now apply act_pol.
      * destruct (emit_pol false s t ELeak) as [P1 T1]; auto; [now cbn|]. split; [easy|]. now rewrite T1.
    + destruct (mph_pol false s i P) as (P1 & T1 & _). rewrite <- TY, <- T1. now apply act_pol.
  - intros s1 P1 T1. assert (N1 : m_type (tsl s1 t) <> TS_NONE) by congruence. destruct (pol_live s1 t P1 IS N1) as (LV1 & SH1 & (f1 & FD1) & _ & LA1). rewrite T1 in LA1. cbn [type_eqb andb] in LA1.
    destruct (pk_sign (ul s1) t false (enter s1 t) f1) as (z' & SW & PKW); auto; [apply SH1|]. unfold onr. rewrite SW. apply (leave_pol false false); auto; [easy|eapply kept_sign; eauto].
  - intros [|c tei sapi|c tei sapi|tei sapi|tei sapi o|o| |i|]; cbn [trau_read]; try easy.
    + destruct (emit_pol false s t ELeak) as [P1 T1]; auto; [now cbn|]. split; [easy|]. now rewrite T1.
    + set (g := fun z => _). assert (P1 : Pol false (on s t g)). { apply (leave_pol false false); auto; [easy|subst g; eapply kept_trans; [apply kept_block|now apply kept_idle]|]. subst g. eapply pk_trans; [apply kept_block|apply pk_block; exact LV|]. apply pk_emit; [easy|]. intros E _ _. unfold block_write. cbn [emit next lx enter]. rewrite TY. cbn. auto. }
      assert (T1 : m_type (tsl (on s t g) t) = m_type (tsl s t)) by (now apply leave_type). rewrite <- TY, <- T1. now apply act_pol.
  - easy.
  - intros [|c tei sapi|c tei sapi|tei sapi|tei sapi o|o| |i|]; cbn [data_read]; try easy.
    + destruct (emit_pol false s t ELeak) as [P1 T1]; auto; [now cbn|]. split; [easy|]. now rewrite T1.
    + destruct (emit_pol false s t (ERx 0 0 (map rev8 o))) as [P1 T1]; auto; [rewrite TY; cbn; auto|]. rewrite <- TY, <- (T1 t). now apply act_pol.
    + split; [|now rewrite <- TY; apply leave_type]. apply (leave_pol false false); auto; [easy|apply kept_cnf|eapply pk_cnf; [exact LV|auto]].
  - intros s1 P1 T1. assert (N1 : m_type (tsl s1 t) <> TS_NONE) by congruence. destruct (pol_live s1 t P1 IS N1) as (LV1 & SH1 & (f1 & FD1) & _ & LA1). rewrite T1 in LV1.
    apply (leave_pol false false); auto; [easy|apply kept_data|]. change true with (type_eqb TS_RAW TS_RAW). eapply pk_data; eauto.
  - intros [|c tei sapi|c tei sapi|tei sapi|tei sapi o|o| |i|]; cbn [data_read]; try easy.
    + destruct (emit_pol false s t ELeak) as [P1 T1]; auto; [now cbn|]. split; [easy|]. now rewrite T1.
    + destruct (emit_pol false s t (ERx 0 0 o)) as [P1 T1]; auto; [rewrite TY; cbn; auto|]. rewrite <- TY, <- (T1 t). now apply act_pol.
    + split; [|now rewrite <- TY; apply leave_type]. apply (leave_pol false false); auto; [easy|apply kept_cnf|eapply pk_cnf; [exact LV|auto]].
    + destruct (mph_pol false s i P) as (P1 & T1 & _). rewrite <- TY, <- T1. now apply act_pol.
  - intros s1 P1 T1. assert (N1 : m_type (tsl s1 t) <> TS_NONE) by congruence. destruct (pol_live s1 t P1 IS N1) as (LV1 & SH1 & (f1 & FD1) & _ & LA1). rewrite T1 in LV1.
    apply (leave_pol false false); auto; [easy|apply kept_data|]. change false with (type_eqb TS_HDLC TS_RAW). eapply pk_data; eauto.
Qed.
Lemma step_pol s v : Pol false s -> polite v = true -> (NU -> keeps_links v = true) -> match step k s v with Ok s' => Pol false s' | Bad r => r = LinksLeft end.
Proof.
  intros P V N. destruct v as [cs|t r w act|t|t m]; cbn [step polite keeps_links] in *.
  - pose proof (execs_pol cs false s P V N) as H. destruct (execs k cs s); [apply H|exact H].
  - destruct (m_reg (tsl s t)) eqn:R; [|exact P]. apply andb_true_iff in V as [V1 V2]. apply cb_pol; auto. split; auto.
  - destruct (m_tmr (tsl s t)) eqn:TM; [|exact P]. pose proof (i_good s (proj1 P) t) as G. destruct (sh_tmr _ (g_shape _ _ _ _ G) TM) as [TY _]. apply (leave_pol false false); auto; [easy|apply kept_timer|now apply pk_timer].
  - destruct (m_lapd (tsl s t)) eqn:L; [|exact P]. apply (leave_pol false false); auto; [easy|apply kept_lapd|now apply pk_lapd].
Qed.
Lemma run_pol vs : forall s, Pol false s -> forallb polite vs = true -> (NU -> forallb keeps_links vs = true) -> match run k s vs with Ok s' => Pol false s' | Bad r => r = LinksLeft end.
Proof.
  induction vs as [|v r IH]; intros s P V N; cbn [run]; [exact P|]. cbn [forallb] in *. apply andb_true_iff in V as [V V'].
  assert (NV : NU -> keeps_links v = true) by (intros X; specialize (N X); now apply andb_true_iff in N). assert (NR : NU -> forallb keeps_links r = true) by (intros X; specialize (N X); now apply andb_true_iff in N).
  pose proof (step_pol s v P V NV) as H. destruct (step k s v) as [s1|]; [|exact H]. now apply IH.
Qed.
Lemma init_pol u p : Pol false (st_init u p).
Proof. split; [apply init_inv|]. intros t. split; cbn; auto; try easy. Qed.
End Polite.
