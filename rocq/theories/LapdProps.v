(** C33-C36: LAPD frames, TEI and SAP tables, TEI management *)
From Coq Require Import List Arith Lia Bool ZArith.
From Verif Require Import Base LapdSpec LapdModel LapdProofs.
Import ListNotations.
Open Scope Z_scope.

(** * C33 *)

(** the frame handed to layer 1 is the Q.921 frame of the context's fields *)
Theorem C33_encoder_layout : forall short c h hr payload,
  ctx_is c h -> hdr_ok h -> (4 <= hr)%nat ->
  encode_frame short c hr payload = Some (Some (q921 short h payload)).
Proof. exact encode_frame_q921. Qed.

(** the receiver reads every octet string as Q.921 says *)
Theorem C33_parser_layout : forall m, octets m ->
  match read_frame m with
  | None => parse_header m = Some (inl tt)
  | Some (h, p) => exists c i, parse_header m = Some (inr (c, i)) /\ ctx_is c h /\ msgb_pull m i = Some p
  end.
Proof. exact parse_header_read. Qed.

Lemma q921_octets short h p : hdr_ok h -> octets p -> octets (q921 short h p).
Proof.
  intros (Hs & Hc & Ht & Hk) Hp. unfold q921, long_addr, short_addr, octets, octet in *.
  apply Forall_app. split; [|apply Forall_app; split].
  - destruct (short && _); repeat constructor; lia.
  - destruct (h_ctrl h) as [ns nr pf|s nr pf|u pf]; cbn [ctrl_octets ctrl_ok] in *; repeat constructor; try lia.
    + assert (0 <= u / 4 < 8) by (split; [apply Z.div_pos; lia|apply Z.div_lt_upper_bound; lia]).
      assert (0 <= u mod 4 < 4) by (apply Z.mod_pos_bound; lia). lia.
    + assert (0 <= u / 4 < 8) by (split; [apply Z.div_pos; lia|apply Z.div_lt_upper_bound; lia]).
      assert (0 <= u mod 4 < 4) by (apply Z.mod_pos_bound; lia). lia.
  - exact Hp.
Qed.

(** round trip, at the level of the header functions: any format, any field
    values, one- and two-octet addresses *)
Theorem C33_roundtrip : forall short c h hr payload,
  ctx_is c h -> hdr_ok h -> octets payload -> (4 <= hr)%nat ->
  exists f c' i, encode_frame short c hr payload = Some (Some f) /\
    parse_header f = Some (inr (c', i)) /\ ctx_is c' h /\ msgb_pull f i = Some payload.
Proof.
  intros short c h hr p Hc Hh Hp Hr.
  exists (q921 short h p).
  assert (P := parse_header_read _ (q921_octets short h p Hh Hp)).
  rewrite (read_frame_q921 short h p Hh) in P. destruct P as (c' & i & P1 & P2 & P3).
  exists c', i. split; [now apply encode_frame_q921|]. auto.
Qed.

(** canonical frames: the extension bit of the second address octet is set and the
    reserved bits of a supervisory control field are zero *)
Definition canonical_ctrl (l : list Z) : bool :=
  match l with c :: _ => negb (Z.odd c && Z.even (c / 2)) || (c <? 16) | [] => true end.
Definition canonical (m : list Z) : bool :=
  match m with
  | a :: r => if Z.odd a then canonical_ctrl r
              else match r with b :: r' => Z.odd b && canonical_ctrl r' | [] => true end
  | [] => true
  end.

Lemma canonical_ctrl_read l k p : octets l -> canonical_ctrl l = true -> read_ctrl l = Some (k, p) ->
  ctrl_octets k ++ p = l.
Proof.
  intros Ho Hc. destruct l as [|c r]; [discriminate|]. inversion Ho as [|? ? Oc Or]; subst.
  cbn [read_ctrl canonical_ctrl] in *.
  assert (T : forall d, octet d -> d / 2 * 2 + d mod 2 = d).
  { intros d _. rewrite Z.mul_comm. symmetry. apply Z.div_mod. lia. }
  assert (H := Zall 256 (fun c => if Z.even c then c / 2 * 2 =? c else
      if Z.even (c / 2) then (negb (c <? 16)) || ((c / 4) mod 4 * 4 + 1 =? c)
      else (let u := c / 32 * 4 + (c / 4) mod 4 in u / 4 * 32 + (c / 16) mod 2 * 16 + u mod 4 * 4 + 3 =? c)) eq_refl c Oc).
  cbv beta zeta in H. rewrite <- Z.negb_even in Hc.
  destruct (Z.even c).
  - destruct r as [|d r]; [discriminate|]. inversion Or as [|? ? Od Or']; subst.
    intros E; injection E as <- <-. apply Z.eqb_eq in H. cbn [ctrl_octets app]. now rewrite H, T.
  - destruct (Z.even (c / 2)).
    + destruct r as [|d r]; [discriminate|]. inversion Or as [|? ? Od Or']; subst.
      intros E; injection E as <- <-. cbn [negb andb orb] in Hc. rewrite Hc in H. cbn [negb orb] in H.
      apply Z.eqb_eq in H. cbn [ctrl_octets app]. now rewrite H, T.
    + intros E; injection E as <- <-. apply Z.eqb_eq in H. cbn [ctrl_octets app]. now rewrite H.
Qed.

(** the other direction: what a canonical frame was read as, sent again, is the
    same octets; so two canonical frames of the same address length never read alike *)
Theorem C33_reencode : forall m h p, octets m -> canonical m = true -> read_frame m = Some (h, p) ->
  hdr_ok h /\ exists short, q921 short h p = m.
Proof.
  intros m h p Ho Hc Hr. destruct (read_frame_ok m h p Ho Hr) as [Hh _]. split; [exact Hh|].
  destruct m as [|a r]; [discriminate|]. inversion Ho as [|? ? Oa Or]; subst.
  assert (H := Zall 256 (fun a => a / 4 * 4 + (a / 2) mod 2 * 2 + a mod 2 =? a) eq_refl a Oa).
  cbv beta in H. apply Z.eqb_eq in H. rewrite (Zmod_odd a) in H.
  cbn [read_frame canonical] in *. destruct (Z.odd a).
  - destruct (read_ctrl r) as [[k q]|] eqn:E; [|discriminate]. injection Hr as <- <-.
    exists true. unfold q921, short_addr; cbn [h_sapi h_cr h_tei h_ctrl andb Z.eqb app].
    rewrite (canonical_ctrl_read r k q Or Hc E). now rewrite H.
  - destruct r as [|b r]; [discriminate|]. inversion Or as [|? ? Ob Or']; subst.
    apply andb_prop in Hc. destruct Hc as [Hb Hc].
    destruct (read_ctrl r) as [[k q]|] eqn:E; [|discriminate]. injection Hr as <- <-.
    exists false. unfold q921, long_addr; cbn [h_sapi h_cr h_tei h_ctrl andb app].
    rewrite (canonical_ctrl_read r k q Or' Hc E). rewrite Z.add_0_r in H. rewrite H.
    f_equal. f_equal. rewrite <- (Z.mul_comm 2). rewrite (Z.div_mod b 2) at 2 by lia.
    rewrite Zmod_odd, Hb. reflexivity.
Qed.

(** a concrete case: RR response, SAPI 62, TEI 25, N(R)=77, F=1; SABME; an I frame *)
Example C33_witness :
  q921 false (mkHdr 62 1 25 (CS 0 77 1)) [] = [250; 51; 1; 155] /\
  q921 false (mkHdr 0 0 1 (CU 15 1)) [] = [0; 3; 127] /\
  q921 true (mkHdr 0 0 0 (CI 3 4 0)) [7; 8] = [1; 6; 8; 7; 8] /\
  hdr_ok (mkHdr 62 1 25 (CS 0 77 1)).
Proof. repeat split; try reflexivity; cbn; lia. Qed.

(** an address the API accepts but the field cannot hold is not refused: TEI 130 is
    sent as TEI 2 *)
Theorem C33_wide_tei_refuted : exists c1 c2, l_tei c1 = 130 /\ l_tei c2 = 2 /\
  forall p, encode_frame false c1 4 p = encode_frame false c2 4 p.
Proof.
  exists (mkLctx 0 0 130 FORM_U 0 0 0 0), (mkLctx 0 0 2 FORM_U 0 0 0 0).
  repeat split.
Qed.

(** * histories *)
Fixpoint run (li : inst) (ops : list op) : option (inst * list (list out * ret)) :=
  match ops with
  | [] => Some (li, [])
  | o :: r => do x <- step li o; let '(li, outs, rc) := x in
              do y <- run li r; Some (fst y, (outs, rc) :: snd y)
  end.

(** the effect of each step on the table: a frame, sap start, sap stop (nothing
    until the core confirms), assignment by hand, release reported by the core *)
Definition table_step (a : table) (o : op) : table :=
  match o with
  | Receive m => on_frame m a
  | SapStart t s => on_start t s a
  | TeiAlloc t => assign t a
  | SetProfile p => set_n201 (pn201 p) a
  | CoreDl id DL_REL _ _ => close_link id a
  | _ => a
  end.

(** what a step must respect: messages are octets; lapd_tei_alloc is only called
    for a TEI not yet assigned; the core calls back only for a data link that
    exists, with headroom for the header *)
Definition op_ok (a : table) (o : op) : Prop :=
  match o with
  | Receive m => octets m
  | TeiAlloc t => assigned a t = false
  | SetProfile p => length (pk p) = 64%nat
  | CoreTx id _ hr _ => (4 <= hr)%nat /\ exists t s, link_at a t s = Some id
  | CoreDl id _ _ _ => exists t s, link_at a t s = Some id
  | _ => True
  end.
Fixpoint hist_ok (a : table) (ops : list op) : Prop :=
  match ops with [] => True | o :: r => op_ok a o /\ hist_ok (table_step a o) r end.
Definition table_after (a : table) (ops : list op) : table := fold_left table_step ops a.

(** what the receiver does with a message, given the table *)
Definition received (a : table) (m : list Z) (o : list out) (r : ret) : Prop :=
  match read_frame m with
  | None => o = [] /\ r = Rc EINVAL ERR_BAD_LEN
  | Some (h, p) =>
    if h_tei h =? 127 then
      match p with
      | _ :: _ :: _ :: mt :: ai :: _ =>
        r = Rc 0 ERR_NONE /\
        o = (if mt =? 1 then [TxFrame (identity_assigned (ai / 2))] else []) ++ [MsgFreed]
      | _ => o = [MsgFreed] /\ r = Rc EINVAL ERR_NONE
      end
    else if assigned a (h_tei h) then
      exists id c, link_at (on_frame m a) (h_tei h) (h_sapi h) = Some id /\ ctx_is c h /\
        if limit (on_frame m a) id <? Z.of_nat (length p)
        then o = [MsgFreed] /\ r = Rc EINVAL ERR_BAD_LEN
        else o = [CoreFrame id c (limit (on_frame m a) id) p] /\ r = RcCore
    else o = [MsgFreed] /\ r = Rc EINVAL ERR_UNKNOWN_TEI
  end.

Lemma existing_tei_assign li a t : refines li a -> teip_from_tei li t <> None -> refines li (assign t a).
Proof.
  intros R H. apply (table_ext_refines li a); auto.
  intros t'. cbn [assigned assign]. destruct (Z.eqb_spec t' t) as [->|]; [|reflexivity].
  rewrite (ref_tei _ _ R). now destruct (teip_from_tei li t).
Qed.

Lemma tei_receive_refines li a d : octets d -> refines li a ->
  exists li' o rc, lapd_tei_receive li d = Some (li', o, rc) /\
   match d with
   | _ :: _ :: _ :: mt :: ai :: _ =>
     rc = 0 /\ o = (if mt =? 1 then [TxFrame (identity_assigned (ai / 2))] else []) /\
     refines li' (if mt =? 1 then assign (ai / 2) a else a)
   | _ => o = [] /\ rc = EINVAL /\ li' = li
   end.
Proof.
  intros Ho R. unfold lapd_tei_receive.
  destruct d as [|d0 [|d1 [|d2 [|mt [|ai r]]]]]; try (eexists _, _, _; split; [reflexivity|auto]; fail).
  cbn [length Nat.ltb Nat.leb]. cbn [get nth_error].
  assert (Oa : octet ai).
  { unfold octets in Ho. rewrite Forall_forall in Ho. apply Ho. cbn; auto 6. }
  destruct (mt =? 1); [|eexists _, _, _; split; [reflexivity|auto]].
  assert (A : Z.shiftr ai 1 = ai / 2) by (rewrite Z.shiftr_div_pow2 by lia; reflexivity).
  rewrite A.
  assert (B : Z.lor (Z.shiftl (ai / 2) 1) 1 mod 256 = ai / 2 * 2 + 1).
  { apply Z.eqb_eq. exact (Zall 256 (fun ai => Z.lor (Z.shiftl (ai / 2) 1) 1 mod 256 =? ai / 2 * 2 + 1) eq_refl ai Oa). }
  rewrite B.
  eexists _, _, _. split; [reflexivity|]. split; [reflexivity|]. split; [reflexivity|].
  destruct (teip_from_tei li (ai / 2)) as [e|] eqn:E.
  - apply set_state_refines. apply existing_tei_assign; [exact R|congruence].
  - apply set_state_refines. now apply tei_alloc_refines.
Qed.

Lemma lookup_link li a t s : refines li a ->
  link_at a t s = match teip_from_tei li t with
                  | Some e => match lapd_sap_find e s with Some x => Some (sid x) | None => None end
                  | None => None end.
Proof. intros R. apply (ref_link _ _ R). Qed.

Lemma receive_refines li a m : octets m -> refines li a ->
  exists li' o r, lapd_receive li m = Some (li', o, r) /\ refines li' (on_frame m a) /\ received a m o r.
Proof.
  intros Ho R. assert (P := parse_header_read m Ho).
  unfold lapd_receive, received. remember (on_frame m a) as b eqn:Eb. unfold on_frame in Eb.
  destruct (read_frame m) as [[h p]|] eqn:Ef; [|rewrite P; eexists _, _, _; subst b; auto].
  destruct P as (c & i & -> & C & ->). assert (C' := C). destruct C' as (Cs & _ & Ct & _).
  rewrite Ct, Cs. destruct (read_frame_ok m h p Ho Ef) as [_ Op].
  destruct (h_tei h =? 127) eqn:E127.
  - destruct (tei_receive_refines li a p Op R) as (li' & o & rc & -> & H).
    eexists _, _, _. split; [reflexivity|].
    destruct p as [|d0 [|d1 [|d2 [|mt [|ai p]]]]];
      try (destruct H as (-> & -> & ->); subst b; split; [exact R|split; reflexivity]; fail).
    destruct H as (-> & -> & H). subst b. split; [exact H|split; reflexivity].
  - assert (At := ref_tei _ _ R (h_tei h)).
    assert (Lk := lookup_link li a (h_tei h) (h_sapi h) R).
    destruct (teip_from_tei li (h_tei h)) as [e|] eqn:Et; cbn [is_some] in At; rewrite At in *;
      [|subst b; eexists _, _, _; split; [reflexivity|split; [exact R|split; reflexivity]]].
    assert (Te : tei e = h_tei h /\ In e (tei_list li)).
    { unfold teip_from_tei in Et. apply find_tei_some in Et. tauto. }
    destruct Te as [Te Ie].
    destruct (lapd_sap_find e (h_sapi h)) as [x|] eqn:Fx; rewrite Lk in Eb.
    + assert (Lm : limit a (sid x) = dl_maxf x).
      { unfold lapd_sap_find in Fx. apply find_sap_some in Fx. apply (ref_limit _ _ R e); tauto. }
      subst b. rewrite <- Lm.
      destruct (limit a (sid x) <? Z.of_nat (length p)) eqn:El.
      * eexists _, _, _. split; [reflexivity|]. split; [exact R|].
        exists (sid x), c. split; [exact Lk|]. split; [exact C|]. rewrite El. auto.
      * eexists _, _, _. split; [reflexivity|]. split; [exact R|].
        exists (sid x), c. split; [exact Lk|]. split; [exact C|]. rewrite El. auto.
    + destruct (sap_alloc_refines li a (h_tei h) (h_sapi h) R At Lk) as (li' & x & Ea & Ex & R' & _ & Em & _).
      rewrite Te, Ea.
      assert (Lx : link_at b (h_tei h) (h_sapi h) = Some (sid x)).
      { subst b. cbn [link_at open_link]. now rewrite !Z.eqb_refl, Ex. }
      assert (Lm : limit b (sid x) = dl_maxf x).
      { subst b. cbn [limit open_link]. rewrite Ex, Nat.eqb_refl, Em. apply (ref_n201 _ _ R). }
      rewrite <- Lm. rewrite <- Eb in R'.
      destruct (limit b (sid x) <? Z.of_nat (length p)) eqn:El;
        (eexists _, _, _; split; [reflexivity|]; split; [exact R'|];
         exists (sid x), c; split; [exact Lx|]; split; [exact C|]; rewrite El; auto).
Qed.

(** results of the other API calls, given the table *)
Definition start_result (a : table) (t s : Z) (o : list out) (r : ret) : Prop :=
  match link_at a t s with
  | Some _ => o = [] /\ r = Rc EEXIST ERR_NONE
  | None => o = [CoreReq (next_link a) DL_EST []] /\ r = RcCore
  end.
Definition stop_result (a : table) (t s : Z) (o : list out) (r : ret) : Prop :=
  match link_at a t s with
  | Some id => o = [CoreReq id DL_REL []] /\ r = RcCore
  | None => o = [] /\ r = Rc ENODEV ERR_NONE
  end.
Definition transmit_result (a : table) (t s : Z) (m : list Z) (o : list out) (r : ret) : Prop :=
  r = RcVoid /\
  match link_at a t s with
  | Some id => o = [CoreReq id DL_DATA m]
  | None => o = [MsgFreed]
  end.

Lemma start_refines li a t s : refines li a ->
  exists li' o r, lapd_sap_start li t s = Some (li', o, r) /\ refines li' (on_start t s a) /\ start_result a t s o r.
Proof.
  intros R. unfold lapd_sap_start, start_result, on_start.
  assert (Lk := lookup_link li a t s R).
  destruct (teip_from_tei li t) as [e|] eqn:Et.
  - destruct (lapd_sap_find e s) as [x|]; rewrite Lk.
    + eexists _, _, _. auto.
    + assert (R1 := existing_tei_assign li a t R ltac:(congruence)).
      assert (Te : tei e = t) by (unfold teip_from_tei in Et; apply find_tei_some in Et; tauto).
      destruct (sap_alloc_refines li (assign t a) t s R1) as (li' & x & Ea & Ex & R' & _).
      { cbn [assigned assign]. now rewrite Z.eqb_refl. }
      { exact Lk. }
      rewrite Te, Ea. eexists _, _, _. split; [reflexivity|]. split; [exact R'|].
      rewrite Ex. auto.
  - assert (R1 := tei_alloc_refines li a t R Et). unfold lapd_tei_alloc in *; cbn [fst] in R1.
    cbn [lapd_sap_find sap_list find tei]. rewrite Lk.
    destruct (sap_alloc_refines _ (assign t a) t s R1) as (li' & x & Ea & Ex & R' & _).
    { cbn [assigned assign]. now rewrite Z.eqb_refl. }
    { exact Lk. }
    rewrite Ea. eexists _, _, _. split; [reflexivity|]. split; [exact R'|]. rewrite Ex. auto.
Qed.

Lemma stop_refines li a t s : refines li a ->
  exists o r, lapd_sap_stop li t s = Some (li, o, r) /\ stop_result a t s o r.
Proof.
  intros R. unfold lapd_sap_stop, stop_result. rewrite (lookup_link li a t s R).
  destruct (teip_from_tei li t) as [e|]; [|eexists _, _; auto].
  destruct (lapd_sap_find e s); eexists _, _; auto.
Qed.
Lemma transmit_refines li a t s m : refines li a ->
  exists o r, lapd_transmit li t s m = Some (li, o, r) /\ transmit_result a t s m o r.
Proof.
  intros R. unfold lapd_transmit, transmit_result. rewrite (lookup_link li a t s R).
  destruct (teip_from_tei li t) as [e|]; [|eexists _, _; auto].
  destruct (lapd_sap_find e s); eexists _, _; auto.
Qed.

Lemma live_by_id li a id t s : refines li a -> link_at a t s = Some id -> exists y, sap_by_id li id = Some y.
Proof.
  intros R H. rewrite (ref_link _ _ R) in H. apply lookup_in in H. destruct H as (e & x & A & B & C & _).
  destruct (proj1 (sap_by_id_in li id)) as (e' & x' & E & _); [now exists e, x|]. eexists; exact E.
Qed.

Lemma encode_frame_total short c hr p : (4 <= hr)%nat -> exists r, encode_frame short c hr p = Some r.
Proof.
  intros H. unfold encode_frame, msgb_push.
  destruct (l_format c); [eexists; reflexivity|..]; cbn [length];
    rewrite (proj2 (Nat.leb_le _ hr)) by lia;
    destruct (short && _); cbn [length]; rewrite (proj2 (Nat.leb_le _ (hr - _))) by lia; eexists; reflexivity.
Qed.

Lemma step_refines li a o : refines li a -> op_ok a o ->
  exists li' outs r, step li o = Some (li', outs, r) /\ refines li' (table_step a o).
Proof.
  intros R. destruct o as [m|t s|t s|t s m|t|p|id c hr m|id pr t s]; cbn [op_ok step table_step].
  - intros Ho. destruct (receive_refines li a m Ho R) as (li' & o & r & E & R' & _). eauto 6.
  - intros _. destruct (start_refines li a t s R) as (li' & o & r & E & R' & _). eauto 6.
  - intros _. destruct (stop_refines li a t s R) as (o & r & E & _). eauto 6.
  - intros _. destruct (transmit_refines li a t s m R) as (o & r & E & _). eauto 6.
  - intros Ha. eexists _, _, _. split; [reflexivity|]. apply tei_alloc_refines; [exact R|].
    rewrite (ref_tei _ _ R) in Ha. now destruct (teip_from_tei li t).
  - intros Hp. eexists _, _, _. split; [reflexivity|]. destruct R as [I Rt Rl Rn R2 Rm].
    constructor; auto. destruct I; constructor; auto.
  - intros (Hr & t & s & L). unfold send_ph_data_req.
    destruct (live_by_id li a id t s R L) as [y ->].
    destruct (encode_frame_total (short_address (prof li)) c hr m Hr) as [x ->].
    destruct x; eexists _, _, _; split; [reflexivity|exact R|reflexivity|exact R].
  - intros (t' & s' & L). unfold send_dlsap. destruct (live_by_id li a id t' s' R L) as [y ->].
    destruct pr; eexists _, _, _; (split; [reflexivity|]); try exact R. now apply sap_free_refines.
Qed.

Lemma run_refines ops : forall li a, refines li a -> hist_ok a ops ->
  exists li' log, run li ops = Some (li', log) /\ refines li' (table_after a ops).
Proof.
  induction ops as [|o ops IH]; intros li a R H.
  - eexists _, _. split; [reflexivity|exact R].
  - destruct H as [Ho H]. destruct (step_refines li a o R Ho) as (li1 & outs & r & E & R1).
    destruct (IH li1 _ R1 H) as (li' & log & E' & R').
    exists li', ((outs, r) :: log). split; [|exact R'].
    cbn [run]. rewrite E, E'. reflexivity.
Qed.

Lemma alloc2_refines n p : length (pk p) = 64%nat -> refines (lapd_instance_alloc2 n p) (empty_table (pn201 p)).
Proof.
  intros H. constructor; try reflexivity; [|intros e x []].
  constructor; try exact H; cbn; try (intros; contradiction). constructor.
Qed.

(** * C35: through every admissible history the instance behaves as the abstract
    table, no step is undefined, and a data link serves exactly one (TEI, SAPI) *)
Theorem C35_histories_refine_table : forall network p ops,
  length (pk p) = 64%nat -> hist_ok (empty_table (pn201 p)) ops ->
  let a := table_after (empty_table (pn201 p)) ops in
  exists li log, run (lapd_instance_alloc2 network p) ops = Some (li, log) /\
    (forall t s, exists li' o r, lapd_sap_start li t s = Some (li', o, r) /\ start_result a t s o r) /\
    (forall t s, exists o r, lapd_sap_stop li t s = Some (li, o, r) /\ stop_result a t s o r) /\
    (forall t s m, exists o r, lapd_transmit li t s m = Some (li, o, r) /\ transmit_result a t s m o r) /\
    (forall m, octets m -> exists li' o r, lapd_receive li m = Some (li', o, r) /\ received a m o r).
Proof.
  intros n p ops Hp Ho a.
  destruct (run_refines ops _ _ (alloc2_refines n p Hp) Ho) as (li & log & E & R).
  exists li, log. split; [exact E|]. fold a in R. split; [|split; [|split]].
  - intros t s. destruct (start_refines li a t s R) as (li' & o & r & H & _ & H'). eauto.
  - intros t s. destruct (stop_refines li a t s R) as (o & r & H & H'). eauto.
  - intros t s m. destruct (transmit_refines li a t s m R) as (o & r & H & H'). eauto.
  - intros m Hm. destruct (receive_refines li a m Hm R) as (li' & o & r & H & _ & H'). eauto.
Qed.

(** the entries themselves: one per TEI, one per SAPI in a TEI, each data link
    initialised with its own address *)
Theorem C35_unique_entries : forall network p ops li log,
  length (pk p) = 64%nat -> hist_ok (empty_table (pn201 p)) ops ->
  run (lapd_instance_alloc2 network p) ops = Some (li, log) ->
  NoDup (map tei (tei_list li)) /\
  (forall e, In e (tei_list li) -> NoDup (map sapi (sap_list e))) /\
  (forall e x, In e (tei_list li) -> In x (sap_list e) -> dl_tei x = tei e /\ dl_sapi x = sapi x).
Proof.
  intros n p ops li log Hp Ho E.
  destruct (run_refines ops _ _ (alloc2_refines n p Hp) Ho) as (li' & log' & E' & R).
  rewrite E in E'. injection E' as <- <-. destruct R as [I _ _ _ _ _].
  split; [apply I|]. split; [apply I|]. intros e x He Hx.
  destruct (inv_dl _ I e x He Hx) as (A & B & _). auto.
Qed.

(** in the table: no two addresses share a data link; a link is found under an
    assigned TEI only; releasing a link makes its address free and touches no
    other address *)
Theorem C35_links_exclusive : forall p ops, length (pk p) = 64%nat -> hist_ok (empty_table (pn201 p)) ops ->
  let a := table_after (empty_table (pn201 p)) ops in
  (forall t s t' s' id, link_at a t s = Some id -> link_at a t' s' = Some id -> t = t' /\ s = s') /\
  (forall t s id, link_at a t s = Some id -> assigned a t = true).
Proof.
  intros p ops Hp Ho a.
  destruct (run_refines ops _ _ (alloc2_refines true p Hp) Ho) as (li & log & E & R). fold a in R.
  split.
  - intros t s t' s' id H H'. rewrite (ref_link _ _ R) in H, H'. apply lookup_in in H, H'.
    destruct H as (e & x & A & B & C & D & F), H' as (e' & x' & A' & B' & C' & D' & F').
    assert (K := inv_id _ (ref_inv _ _ R) e x e' x' A B A' B' ltac:(congruence)).
    destruct K as [-> ->]. split; congruence.
  - intros t s id H. rewrite (ref_tei _ _ R). rewrite (ref_link _ _ R) in H. unfold lookup in H.
    now destruct (teip_from_tei li t).
Qed.
Theorem C35_release_exact : forall p ops t s id, length (pk p) = 64%nat -> hist_ok (empty_table (pn201 p)) ops ->
  let a := table_after (empty_table (pn201 p)) ops in
  link_at a t s = Some id ->
  link_at (close_link id a) t s = None /\
  (forall t' s', (t', s') <> (t, s) -> link_at (close_link id a) t' s' = link_at a t' s') /\
  (forall t', assigned (close_link id a) t' = assigned a t').
Proof.
  intros p ops t s id Hp Ho a L. destruct (C35_links_exclusive p ops Hp Ho) as [X _]. fold a in X.
  cbn [close_link link_at assigned]. rewrite L, Nat.eqb_refl. split; [reflexivity|]. split; [|reflexivity].
  intros t' s' N. destruct (link_at a t' s') as [i|] eqn:L'; [|reflexivity].
  destruct (Nat.eqb_spec i id) as [->|]; [|reflexivity].
  destruct (X _ _ _ _ _ L L') as [-> ->]. now elim N.
Qed.

(** a started link has the parameters of the profile for its SAPI *)
Theorem C35_link_parameters : forall network p ops li log t s,
  length (pk p) = 64%nat -> hist_ok (empty_table (pn201 p)) ops ->
  run (lapd_instance_alloc2 network p) ops = Some (li, log) ->
  link_at (table_after (empty_table (pn201 p)) ops) t s = None -> 0 <= s < 64 ->
  exists li' id e x, lapd_sap_start li t s = Some (li', [CoreReq id DL_EST []], RcCore) /\
    In e (tei_list li') /\ In x (sap_list e) /\ sid x = id /\ tei e = t /\ sapi x = s /\
    nth_error (pk (prof li)) (Z.to_nat s) = Some (dl_k x) /\
    dl_maxf x = pn201 (prof li) /\ dl_n200 x = pn200 (prof li) /\ dl_n200_est_rel x = pn200 (prof li) /\
    (dl_t200_sec x, dl_t200_usec x) = (pt200_sec (prof li), pt200_usec (prof li)) /\
    (dl_t203_sec x, dl_t203_usec x) = (pt203_sec (prof li), pt203_usec (prof li)) /\
    dl_network x = network_side li.
Proof.
  intros n p ops li log t s Hp Ho E L Hs.
  destruct (run_refines ops _ _ (alloc2_refines n p Hp) Ho) as (li0 & log0 & E' & R).
  rewrite E in E'. injection E' as <- <-.
  set (a := table_after (empty_table (pn201 p)) ops) in *.
  assert (Z.land s 63 = s).
  { change 63 with (Z.ones 6). rewrite Z.land_ones by lia. apply Z.mod_small. change (2 ^ 6) with 64. lia. }
  assert (Fin : forall l0 li', refines l0 (assign t a) -> forall x, sid x = next_link a ->
     lapd_sap_alloc l0 t s = Some (li', x) -> refines li' (open_link t s (assign t a)) ->
     exists e, In e (tei_list li') /\ In x (sap_list e) /\ tei e = t /\ sapi x = s).
  { intros l0 li' R0 x Ex Ea R'. assert (L' := ref_link _ _ R' t s). cbn [link_at open_link] in L'.
    rewrite !Z.eqb_refl in L'. cbn [andb] in L'. symmetry in L'. apply lookup_in in L'.
    destruct L' as (e & y & A & B & C & D & F). exists e. split; [exact A|].
    unfold lapd_sap_alloc in Ea. destruct (get (pk (prof l0)) (Z.to_nat (Z.land s 63))) as [k|]; [|discriminate].
    injection Ea as <- <-. cbn [tei_list] in A.
    apply in_upd_tei in A; [|apply R0].
    destruct A as [[A1 A2]|(e0 & A1 & A2 & ->)]; [contradiction|]. cbn [sap_list tei sapi]. auto using in_eq. }
  unfold lapd_sap_start. assert (Lk := lookup_link li a t s R). rewrite L in Lk.
  destruct (teip_from_tei li t) as [e|] eqn:Et.
  - destruct (lapd_sap_find e s) as [x|]; [discriminate|].
    assert (R1 := existing_tei_assign li a t R ltac:(congruence)).
    assert (Te : tei e = t) by (unfold teip_from_tei in Et; apply find_tei_some in Et; tauto).
    destruct (sap_alloc_refines li (assign t a) t s R1) as (li' & x & Ea & Ex & R' & P1 & P2 & P3 & P4 & P5 & P6 & P7 & P8 & P9 & _).
    { cbn [assigned assign]. now rewrite Z.eqb_refl. }
    { exact L. }
    destruct (Fin li li' R1 x Ex Ea R') as (e' & A & B & C & D).
    rewrite Te, Ea. rewrite H in P1. eexists _, (sid x), e', x.
    repeat split; auto; congruence.
  - assert (R1 := tei_alloc_refines li a t R Et). unfold lapd_tei_alloc in *; cbn [fst] in R1.
    cbn [lapd_sap_find sap_list find tei].
    destruct (sap_alloc_refines _ (assign t a) t s R1) as (li' & x & Ea & Ex & R' & P1 & P2 & P3 & P4 & P5 & P6 & P7 & P8 & P9 & _).
    { cbn [assigned assign]. now rewrite Z.eqb_refl. }
    { exact L. }
    destruct (Fin _ li' R1 x Ex Ea R') as (e' & A & B & C & D).
    rewrite Ea. rewrite H in P1. cbn [prof network_side] in *. eexists _, (sid x), e', x.
    repeat split; auto; congruence.
Qed.

(** what the predefined profiles ask for: window on SAPI 0 and on the other SAPIs, N200, N201,
    T200 and T203 in milliseconds, one octet addresses for TEI 0 *)
Definition profile_is (p : profile) (k0 k n200 n201 t200 t203 : Z) (short : bool) : Prop :=
  (forall s, 0 <= s < 64 -> nth_error (pk p) (Z.to_nat s) = Some (if s =? 0 then k0 else k)) /\
  pn200 p = n200 /\ pn201 p = n201 /\ pt200_sec p * 1000000 + pt200_usec p = t200 * 1000 /\ pt203_sec p * 1000000 + pt203_usec p = t203 * 1000 /\
  0 <= pt200_usec p < 1000000 /\ 0 <= pt203_usec p < 1000000 /\ short_address p = short.
Theorem C35_standard_profiles :
  profile_is lapd_profile_isdn 7 7 3 260 1000 10000 false /\
  profile_is lapd_profile_abis 2 1 3 260 240 10000 false /\
  profile_is lapd_profile_abis_ericsson 2 1 50 260 300 10000 false /\
  profile_is lapd_profile_sat 15 15 5 260 2400 20000 true.
Proof.
  assert (K : forall a b s, 0 <= s < 64 -> nth_error (LAPD_SET_K a b) (Z.to_nat s) = Some (if s =? 0 then a else b)).
  { intros a b s Hs. unfold LAPD_SET_K. destruct (Z.eqb_spec s 0) as [->|N]; [reflexivity|]. replace (Z.to_nat s) with (S (Z.to_nat (s - 1))) by lia. cbn [nth_error]. apply nth_error_repeat. lia. }
  split; [|split; [|split]]; (split; [intros s Hs; apply K, Hs|cbn; lia || (repeat split; cbn; lia || reflexivity)]).
Qed.

(** without the restriction on lapd_tei_alloc the tables may hold duplicates, and
    the links of the earlier entry become unreachable *)
Theorem C35_duplicate_tei_alloc_refuted : exists li log,
  run (lapd_instance_alloc2 true lapd_profile_abis) [SapStart 25 62; TeiAlloc 25] = Some (li, log) /\
  ~ NoDup (map tei (tei_list li)) /\
  lapd_sap_stop li 25 62 = Some (li, [], Rc ENODEV ERR_NONE).
Proof.
  eexists _, _. split; [reflexivity|]. split; [|reflexivity].
  cbn. intros N. inversion N as [|? ? Nx _]; subst. apply Nx. now left.
Qed.

Definition C35_demo : list op :=
  [ SapStart 25 62;
    Receive (q921 false (mkHdr 63 1 127 (CU 0 0)) [15; 0; 7; 1; 51]);   (* identity request for TEI 25 *)
    Receive (q921 false (mkHdr 63 1 127 (CU 0 0)) [15; 0; 7; 1; 3]);    (* for TEI 1: new *)
    Receive (q921 false (mkHdr 0 0 1 (CU 15 1)) []);                     (* SABME on SAPI 0: SAP allocated *)
    CoreTx 1 (mkLctx 0 0 1 FORM_U 0 0 1 12) 56 [];                       (* the core answers UA *)
    CoreDl 0 DL_REL 25 62 ].                                             (* the first link is released *)
Example C35_witness : hist_ok (empty_table 260) C35_demo /\
  match run (lapd_instance_alloc2 true lapd_profile_abis) C35_demo with
  | Some (li, log) => map tei (tei_list li) = [1; 25] /\
      nth_error log 4 = Some ([TxFrame [0; 3; 115]], Rc 0 ERR_NONE) /\
      nth_error log 5 = Some ([RxPrim DL_REL 25 62], Rc 0 ERR_NONE)
  | None => False
  end.
Proof.
  split.
  - cbn. unfold octets, octet. repeat split; try lia; try (repeat constructor; lia).
    + now exists 1, 0.
    + now exists 25, 62.
  - vm_compute. auto.
Qed.

(** * C34: no octet string makes the receiver read outside it; it is dispatched or
    refused, for whatever instance state a history reaches *)
Theorem C34_receive_total : forall network p ops li log m,
  length (pk p) = 64%nat -> hist_ok (empty_table (pn201 p)) ops ->
  run (lapd_instance_alloc2 network p) ops = Some (li, log) -> octets m ->
  exists li' o r, lapd_receive li m = Some (li', o, r) /\
    ((exists id c n pl, o = [CoreFrame id c n pl] /\ r = RcCore /\ Z.of_nat (length pl) <= n) \/
     (exists e, o = [] /\ r = Rc EINVAL e) \/ (exists e, o = [MsgFreed] /\ r = Rc EINVAL e) \/
     (o = [MsgFreed] /\ r = Rc 0 ERR_NONE) \/ (exists f, o = [TxFrame f; MsgFreed] /\ r = Rc 0 ERR_NONE)).
Proof.
  intros n p ops li log m Hp Ho E Hm.
  destruct (run_refines ops _ _ (alloc2_refines n p Hp) Ho) as (li0 & log0 & E' & R).
  rewrite E in E'. injection E' as <- <-.
  destruct (receive_refines li _ m Hm R) as (li' & o & r & Er & _ & H).
  exists li', o, r. split; [exact Er|]. unfold received in H.
  destruct (read_frame m) as [[h pl]|]; [|destruct H as [-> ->]; eauto].
  destruct (h_tei h =? 127).
  - destruct pl as [|d0 [|d1 [|d2 [|mt [|ai q]]]]]; try (destruct H as [-> ->]; eauto 8; fail).
    destruct H as [-> ->]. destruct (mt =? 1); cbn [app]; eauto 9.
  - destruct (assigned _ (h_tei h)); [|destruct H as [-> ->]; eauto 8].
    destruct H as (id & c & _ & _ & H).
    destruct (Z.ltb_spec (limit (on_frame m (table_after (empty_table (pn201 p)) ops)) id) (Z.of_nat (length pl)));
      destruct H as [-> ->]; [eauto 8|left; eauto 8].
Qed.

(** the predefined profiles are usable *)
Theorem C34_profiles : Forall (fun p => length (pk p) = 64%nat /\ pn201 p = 260)
  [lapd_profile_isdn; lapd_profile_abis; lapd_profile_abis_ericsson; lapd_profile_sat].
Proof. repeat constructor. Qed.

(** the caller cannot tell from the return value and the error code whether the
    message was freed: a frame without complete header is not, an over-long one is *)
Theorem C34_ownership_refuted : exists li m1 m2 li1 li2 e,
  octets m1 /\ octets m2 /\
  lapd_receive li m1 = Some (li1, [], Rc EINVAL e) /\
  lapd_receive li m2 = Some (li2, [MsgFreed], Rc EINVAL e).
Proof.
  exists (fst (lapd_tei_alloc (lapd_instance_alloc2 true lapd_profile_abis) 0)), [1], (1 :: 3 :: repeat 0 261).
  eexists _, _, _. split; [repeat constructor; lia|]. split.
  - constructor; [unfold octet; lia|]. constructor; [unfold octet; lia|].
    apply Forall_forall. intros x Hx. apply repeat_spec in Hx. subst. unfold octet; lia.
  - split; vm_compute; reflexivity.
Qed.

(** * C33 end to end: the frame one side sends reaches the peer's data link for that
    TEI and SAPI with the same header fields and payload *)
Theorem C33_peer_receives : forall network p ops li log c h hr payload short,
  length (pk p) = 64%nat -> hist_ok (empty_table (pn201 p)) ops ->
  run (lapd_instance_alloc2 network p) ops = Some (li, log) ->
  let a := table_after (empty_table (pn201 p)) ops in
  assigned a (h_tei h) = true -> h_tei h <> 127 ->
  ctx_is c h -> hdr_ok h -> octets payload -> (4 <= hr)%nat ->
  (forall id, link_at a (h_tei h) (h_sapi h) = Some id -> Z.of_nat (length payload) <= limit a id) ->
  Z.of_nat (length payload) <= n201 a ->
  exists f li' id c' n, encode_frame short c hr payload = Some (Some f) /\
    lapd_receive li f = Some (li', [CoreFrame id c' n payload], RcCore) /\ ctx_is c' h /\
    (link_at a (h_tei h) (h_sapi h) = Some id \/ link_at a (h_tei h) (h_sapi h) = None /\ id = next_link a).
Proof.
  intros n p ops li log c h hr pl short Hp Ho E a Ha N127 Hc Hh Hpl Hr Hl Hn.
  destruct (run_refines ops _ _ (alloc2_refines n p Hp) Ho) as (li0 & log0 & E' & R).
  rewrite E in E'. injection E' as <- <-. fold a in R.
  exists (q921 short h pl).
  destruct (receive_refines li a _ (q921_octets short h pl Hh Hpl) R) as (li' & o & r & Er & _ & H).
  unfold received, on_frame in H. rewrite (read_frame_q921 short h pl Hh) in H.
  rewrite (proj2 (Z.eqb_neq _ _) N127), Ha in H.
  destruct H as (id & c' & L & C & H).
  exists li', id, c', (limit (match link_at a (h_tei h) (h_sapi h) with Some _ => a | None => open_link (h_tei h) (h_sapi h) a end) id).
  split; [now apply encode_frame_q921|].
  destruct (link_at a (h_tei h) (h_sapi h)) as [j|] eqn:Lj.
  - assert (Ej : j = id) by congruence. subst j. specialize (Hl _ eq_refl).
    rewrite (proj2 (Z.ltb_ge _ _) Hl) in H. destruct H as [-> ->]. auto.
  - cbn [link_at open_link] in L. rewrite !Z.eqb_refl in L. cbn [andb] in L. injection L as <-.
    cbn [limit open_link] in *. rewrite Nat.eqb_refl in *.
    rewrite (proj2 (Z.ltb_ge _ _) Hn) in H. destruct H as [-> ->]. auto.
Qed.

(** * C36 TEI management: every identity request, in any state, is answered by
    exactly one identity-assigned message for the requested TEI, which is assigned
    afterwards; nothing else changes *)
Theorem C36_identity_request : forall network p ops li log h entity ri1 ri2 ai rest m,
  length (pk p) = 64%nat -> hist_ok (empty_table (pn201 p)) ops ->
  run (lapd_instance_alloc2 network p) ops = Some (li, log) ->
  octets m -> read_frame m = Some (h, entity :: ri1 :: ri2 :: 1 :: ai :: rest) -> h_tei h = 127 ->
  exists li', lapd_receive li m = Some (li', [TxFrame (identity_assigned (ai / 2)); MsgFreed], Rc 0 ERR_NONE) /\
    (forall t, teip_from_tei li' t <> None <-> t = ai / 2 \/ teip_from_tei li t <> None) /\
    (forall t s, lookup li' t s = lookup li t s).
Proof.
  intros n p ops li log h en r1 r2 ai rest m Hp Ho E Hm Hf H127.
  destruct (run_refines ops _ _ (alloc2_refines n p Hp) Ho) as (li0 & log0 & E' & R).
  rewrite E in E'. injection E' as <- <-.
  destruct (receive_refines li _ m Hm R) as (li' & o & r & Er & R' & H).
  unfold received, on_frame in *. rewrite Hf, H127 in *. cbn [Z.eqb Pos.eqb] in *.
  destruct H as [-> ->]. exists li'. split; [exact Er|]. split.
  - intros t. assert (A := ref_tei _ _ R' t). assert (B := ref_tei _ _ R t). cbn [assigned assign] in A.
    destruct (Z.eqb_spec t (ai / 2)) as [Et|Nt]; cbn [orb] in A.
    + destruct (teip_from_tei li' t); [split; [auto|discriminate]|discriminate].
    + rewrite B in A. destruct (teip_from_tei li t), (teip_from_tei li' t); try discriminate A.
      * split; [intros _; now right|discriminate].
      * split; [tauto|intros [X|X]; contradiction].
  - intros t s. rewrite <- (ref_link _ _ R'), <- (ref_link _ _ R). reflexivity.
Qed.

(** and nothing else of the TEI management procedures is answered or acted on *)
Theorem C36_other_messages : forall network p ops li log h d0 d1 d2 mt ai rest m,
  length (pk p) = 64%nat -> hist_ok (empty_table (pn201 p)) ops ->
  run (lapd_instance_alloc2 network p) ops = Some (li, log) ->
  octets m -> read_frame m = Some (h, d0 :: d1 :: d2 :: mt :: ai :: rest) -> h_tei h = 127 -> mt <> 1 ->
  lapd_receive li m = Some (li, [MsgFreed], Rc 0 ERR_NONE).
Proof.
  intros n p ops li log h d0 d1 d2 mt ai rest m Hp Ho E Hm Hf H127 Hmt.
  assert (P := parse_header_read m Hm). rewrite Hf in P. destruct P as (c & i & P1 & (Cs & _ & Ct & _) & P3).
  unfold lapd_receive. rewrite P1, P3, Ct, H127. cbn [Z.eqb Pos.eqb].
  unfold lapd_tei_receive. cbn [length Nat.ltb Nat.leb get nth_error].
  rewrite (proj2 (Z.eqb_neq _ _) Hmt). reflexivity.
Qed.

(** the reply, octet by octet *)
Example C36_reply_octets : identity_assigned 25 = [0xfe; 0xff; 0x03; 0x0f; 0; 0; 0x02; 51].
Proof. reflexivity. Qed.
Example C36_witness : read_frame [0xfc; 0xff; 0x03; 0x0f; 0x12; 0x34; 0x01; 51] = Some (mkHdr 63 0 127 (CU 0 0), [15; 18; 52; 1; 51]).
Proof. reflexivity. Qed.

(** refuted: the reference number Ri of the request is not echoed, so two terminals
    requesting at the same time get indistinguishable answers *)
Theorem C36_ri_not_echoed_refuted : forall li ri1 ri2 ai, octets [ri1; ri2; ai] ->
  match lapd_receive li [0xfc; 0xff; 0x03; 0x0f; ri1; ri2; 0x01; ai] with
  | Some (_, TxFrame f :: _, _) => nth_error f 4 = Some 0 /\ nth_error f 5 = Some 0
  | _ => False
  end.
Proof.
  intros li r1 r2 ai _. cbn. destruct (teip_from_tei li (Z.shiftr ai 1)); auto.
Qed.
(** refuted: "only an unused TEI is assigned": a TEI in use is assigned again, and
    Ai = 127 ("any TEI") is answered with the broadcast TEI itself *)
Theorem C36_only_unused_refuted : exists li log,
  run (lapd_instance_alloc2 true lapd_profile_abis) [SapStart 25 62] = Some (li, log) /\
  (exists li', lapd_receive li [0xfc; 0xff; 0x03; 0x0f; 1; 2; 0x01; 51]
     = Some (li', [TxFrame (identity_assigned 25); MsgFreed], Rc 0 ERR_NONE)) /\
  (exists li', lapd_receive li [0xfc; 0xff; 0x03; 0x0f; 1; 2; 0x01; 255]
     = Some (li', [TxFrame (identity_assigned 127); MsgFreed], Rc 0 ERR_NONE)).
Proof.
  eexists _, _. split; [reflexivity|]. split; eexists; reflexivity.
Qed.

(** the deprecated constructor passes the transmit callback and its data the wrong
    way round: layer 1 output calls the data pointer *)
Theorem C35_deprecated_alloc_refuted : forall A (tx txd rx rxd : A), tx <> txd ->
  transmit_cb (alloc2_cbs tx txd rx rxd) = tx /\
  transmit_cb (alloc_cbs tx txd rx rxd) = txd /\ transmit_cb (alloc_cbs tx txd rx rxd) <> tx.
Proof. intros. cbn. auto. Qed.

Print Assumptions C33_peer_receives.
Print Assumptions C33_reencode.
Print Assumptions C34_receive_total.
Print Assumptions C35_histories_refine_table.
Print Assumptions C35_link_parameters.
Print Assumptions C36_identity_request.
