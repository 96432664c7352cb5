(** C75: signalling links over this library's LAPD, end to end. *)
From Coq Require Import List Arith Lia Bool ZArith.
From Verif Require Import Base LapdSpec LapdModel LapdProofs LapdProps SigModel SigSpec SigProofs.
From Verif Require E1Model.
Import ListNotations.
Open Scope Z_scope.

(** * whatever the line loses, repeats or reorders and whatever links come and go: what an
    application gets on a link was sent by the other application on a link of the same TEI and
    SAPI, octet for octet *)
Theorem C75_no_crosstalk : forall y w k t s m, hist 128 y ->
  In (Deliver k t s m) (log (this w y)) -> exists k', In (Sent k' t s m) (log (this (negb w) y)).
Proof. intros y w k t s m H I. destruct (hist_sys y H w) as (a & S). exact (si_del _ _ _ S k t s m I). Qed.

(** * no lawful event reaches undefined behaviour, in either timeslot *)
Theorem C75_safe : forall y w e, hist 128 y -> lawful 128 y w e -> exists y', sys_step y w e = Some y' /\ hist 128 y'.
Proof.
  intros y w e H LW. destruct (sys_advance y w e (hist_sys y H) LW) as (y' & E & _). exists y'. split; [exact E|]. exact (hist1 128 y w e y' H LW E).
Qed.

Lemma lookup_answers t tei sapi : answers (E1Model.t_links t) tei sapi (E1Model.e1inp_lookup_sign_link t tei sapi).
Proof.
  unfold E1Model.e1inp_lookup_sign_link, answers. induction (E1Model.t_links t) as [|c r IH]; cbn [find].
  - intros z [].
  - assert (D : ((E1Model.lk_sapi c =? sapi) && (E1Model.lk_tei c =? tei) = true /\ E1Model.lk_tei c = tei /\ E1Model.lk_sapi c = sapi) \/
      ((E1Model.lk_sapi c =? sapi) && (E1Model.lk_tei c =? tei) = false /\ ~ (E1Model.lk_tei c = tei /\ E1Model.lk_sapi c = sapi))).
    { destruct (Z.eqb_spec (E1Model.lk_sapi c) sapi), (Z.eqb_spec (E1Model.lk_tei c) tei); cbn; [left|right..]; split; auto; tauto. }
    destruct D as [[-> D] | [-> D]].
    + split; [exact D|]. exists [], r. split; [reflexivity|]. intros z [].
    + destruct (find _ r) as [l|].
      * destruct IH as (A & pre & post & -> & P). split; [exact A|]. exists (c :: pre), post. split; [reflexivity|]. intros z [<-|I]; [exact D|auto].
      * intros z [<-|I]; [exact D|auto].
Qed.
(** the specification leaves no choice *)
Lemma answers_fun ls t s o o' : answers ls t s o -> answers ls t s o' -> o = o'.
Proof.
  assert (W : forall l pre post l' pre' post', pre ++ l :: post = pre' ++ l' :: post' -> (E1Model.lk_tei l = t /\ E1Model.lk_sapi l = s) -> (E1Model.lk_tei l' = t /\ E1Model.lk_sapi l' = s) ->
     (forall z, In z pre -> ~ (E1Model.lk_tei z = t /\ E1Model.lk_sapi z = s)) -> (forall z, In z pre' -> ~ (E1Model.lk_tei z = t /\ E1Model.lk_sapi z = s)) -> l = l').
  { intros l pre. induction pre as [|c pre IH]; intros post l' [|c' pre'] post' E A B P Q; cbn [app] in E; injection E as E1 E2; subst.
    - reflexivity.
    - exfalso. apply (Q c'); [now left|exact A].
    - exfalso. apply (P l'); [now left|exact B].
    - apply (IH post l' pre' post'); auto; intros z I; [apply P|apply Q]; now right. }
  unfold answers. destruct o as [l|], o' as [l'|]; auto.
  - intros (A & pre & post & -> & P) (B & pre' & post' & E & Q). f_equal. eauto.
  - intros (A & pre & post & -> & P) N. exfalso. apply (N l); [|exact A]. apply in_or_app. right. now left.
  - intros N (A & pre & post & -> & P). exfalso. apply (N l'); [|exact A]. apply in_or_app. right. now left.
Qed.
Lemma event_about t g tei sapi : E1Model.t_type t = E1Model.TS_SIGN -> event t g tei sapi = Some (about g (E1Model.e1inp_lookup_sign_link t tei sapi)).
Proof. intros T. unfold event. rewrite T. now destruct (E1Model.e1inp_lookup_sign_link t tei sapi). Qed.

(** * what the data link core indicates for a data link is told to the application exactly once:
    establishment and release as a signal about the link that answers to the address, data to
    that link; without such a link nothing, and the data is freed.  Release ends that data link
    and no other *)
Theorem C75_indications : forall y w id p ind t s m, hist 128 y -> lawful 128 y w (CoreDl id p ind t s m) ->
  exists y' o, sys_step y w (CoreDl id p ind t s m) = Some y' /\ answers (E1Model.t_links (ts (this w y))) t s o /\
    ts (this w y') = ts (this w y) /\ this (negb w) y' = this (negb w) y /\
    log (this w y') = log (this w y) ++ match p with
      | DL_EST => about TEI_UP o
      | DL_REL => about TEI_DN o
      | DL_DATA => if ind then match o with Some l => if handler (this w y) then [Deliver (E1Model.lk_id l) t s m] else [Lost m] | None => [Lost m] end else []
      | DL_OTHER => [] end /\
    (forall id' t' s', serves (this w y') id' t' s' <-> serves (this w y) id' t' s' /\ ~ (p = DL_REL /\ id' = id)).
Proof.
  intros y w id p ind t s m H LW. destruct (hist_sys y H w) as (a & S). set (x := this w y) in *. destruct LW as (_ & _ & SV & _). fold x in SV.
  assert (SV' := proj1 (serves_link x a id t s (si_ref _ _ _ S)) SV). destruct (live_by_id _ a id _ _ (si_ref _ _ _ S) SV') as [sp SP].
  exists (if w then mkSys (near y) (say (set_li x (match p with DL_REL => lapd_sap_free (li x) id | _ => li x end)) (match p with
      | DL_EST => about TEI_UP (E1Model.e1inp_lookup_sign_link (ts x) t s)
      | DL_REL => about TEI_DN (E1Model.e1inp_lookup_sign_link (ts x) t s)
      | DL_DATA => if ind then match E1Model.e1inp_lookup_sign_link (ts x) t s with Some l => if handler x then [Deliver (E1Model.lk_id l) t s m] else [Lost m] | None => [Lost m] end else []
      | DL_OTHER => [] end)) else mkSys (say (set_li x (match p with DL_REL => lapd_sap_free (li x) id | _ => li x end)) (match p with
      | DL_EST => about TEI_UP (E1Model.e1inp_lookup_sign_link (ts x) t s)
      | DL_REL => about TEI_DN (E1Model.e1inp_lookup_sign_link (ts x) t s)
      | DL_DATA => if ind then match E1Model.e1inp_lookup_sign_link (ts x) t s with Some l => if handler x then [Deliver (E1Model.lk_id l) t s m] else [Lost m] | None => [Lost m] end else []
      | DL_OTHER => [] end)) (far y)), (E1Model.e1inp_lookup_sign_link (ts x) t s).
  split; [|split; [apply lookup_answers|]].
  - unfold sys_step. fold x. cbn [SigModel.step]. unfold send_dlsap. rewrite SP. destruct p; cbn [dlsap_up].
    + rewrite (event_about _ _ _ _ (si_ty _ _ _ S)). reflexivity.
    + rewrite (event_about _ _ _ _ (si_ty _ _ _ S)). reflexivity.
    + destruct ind; [|reflexivity]. unfold rx_ts, E1Model.e1inp_rx_ts. rewrite (si_ty _ _ _ S). destruct (E1Model.e1inp_lookup_sign_link (ts x) t s) as [l|] eqn:F; [|reflexivity].
      destruct (lookup_in_links _ _ _ _ F) as (_ & A & B). destruct (handler x); [rewrite A, B|]; reflexivity.
    + reflexivity.
  - assert (D : forall z, ts z = ts x -> forall id' t' s', li z = (match p with DL_REL => lapd_sap_free (li x) id | _ => li x end) -> serves z id' t' s' <-> serves x id' t' s' /\ ~ (p = DL_REL /\ id' = id)).
    { intros z _ id' t' s' E. unfold serves. rewrite E. destruct p; try (split; [intros G; split; [exact G|intros [Z _]; discriminate Z]|tauto]).
      cbn [lapd_sap_free tei_list]. split.
      - intros (e & d & E1 & E2 & E3). apply in_map_iff in E1 as (e0 & <- & E1). cbn [sap_list] in E2. apply filter_In in E2 as [E2 E4]. split; [exists e0, d; auto|]. intros [_ ->]. destruct E3 as (E3 & _). rewrite E3, Nat.eqb_refl in E4. discriminate E4.
      - intros ((e & d & E1 & E2 & E3) & N). eexists _, d. split; [apply in_map; exact E1|]. split; [cbn [sap_list]; apply filter_In; split; [exact E2|]|exact E3]. destruct E3 as (E3 & _). rewrite E3. apply negb_true_iff, Nat.eqb_neq. intros ->. apply N. auto. }
    destruct w; cbn [this negb near far]; (split; [reflexivity|]); (split; [reflexivity|]); (split; [reflexivity|]); intros id' t' s'; apply D; reflexivity.
Qed.

Lemma keeps_frame a m t s id : link_at a t s = Some id -> link_at (on_frame m a) t s = Some id.
Proof.
  intros H. unfold on_frame. destruct (read_frame m) as [[h p]|]; [|exact H]. destruct (h_tei h =? 127).
  - destruct p as [|? [|? [|? [|mt [|ai p]]]]]; try exact H. destruct (mt =? 1); exact H.
  - destruct (assigned a (h_tei h)); [|exact H]. destruct (link_at a (h_tei h) (h_sapi h)) eqn:E; [exact H|]. cbn [link_at open_link].
    destruct (Z.eqb_spec t (h_tei h)) as [->|], (Z.eqb_spec s (h_sapi h)) as [->|]; cbn [andb]; congruence.
Qed.
(** * a frame from the line, any octets at all: TEI management is answered here; a frame of a
    known TEI goes to the data link of its address (made if there is none), unless it is longer
    than that data link takes; no data link is lost; a frame of an unknown TEI makes a signal about the link that
    answers to its address and -EIO; a frame too short for its header leaves no trace *)
Theorem C75_frames : forall y w m, hist 128 y -> octets m -> let x := this w y in
  exists x' news o, step x (Frame m) = Some x' /\ ts x' = ts x /\ log x' = log x ++ news /\ (forall id t s, serves x id t s -> serves x' id t s) /\
  match read_frame m with
  | None => news = [Ret 0] /\ li x' = li x
  | Some (h, p) =>
    answers (E1Model.t_links (ts x)) (h_tei h) (h_sapi h) o /\
    if h_tei h =? 127 then (news = [Ret 0] \/ exists t, 0 <= t < 128 /\ news = [Air (identity_assigned t); Ret 0] /\ known x' t)
    else (~ known x (h_tei h) /\ news = about TEI_UNKNOWN o ++ [Ret (-5)] /\ li x' = li x) \/
         (known x (h_tei h) /\ exists e d c, In e (tei_list (li x')) /\ In d (sap_list e) /\ dl_tei d = h_tei h /\ dl_sapi d = h_sapi h /\ ctx_is c h /\
            news = (if dl_maxf d <? Z.of_nat (length p) then [] else [Up (sid d) c p]) ++ [Ret 0])
  end.
Proof.
  intros y w m H O x. destruct (hist_sys y H w) as (a & S). fold x in S. destruct (receive_refines (li x) a m O (si_ref _ _ _ S)) as (l & os & r & E & R & Q).
  assert (KEEP : forall z, li z = l -> forall id t s, serves x id t s -> serves z id t s).
  { intros z Hz id t s SV. apply (serves_link x a) in SV; [|exact (si_ref _ _ _ S)]. apply (serves_link z (on_frame m a)); [rewrite Hz; exact R|]. now apply keeps_frame. }
  cbn [SigModel.step]. unfold rx_ts_lapd. rewrite E. unfold received in Q.
  destruct (read_frame m) as [[h p]|] eqn:RF.
  2:{ destruct Q as [-> ->]. cbn [flat_map]. eexists _, _, None. split; [reflexivity|]. split; [reflexivity|]. split; [cbn [say set_li log]; now rewrite app_nil_r|]. split; [apply KEEP; reflexivity|]. split; [reflexivity|].
      unfold lapd_receive in E. pose proof (parse_header_read m O) as P. rewrite RF in P. rewrite P in E. injection E as <-. reflexivity. }
  destruct (address_read m h p O RF) as [-> ->]. set (x1 := say (set_li x l) (flat_map see os)).
  assert (KN : forall t, known x t <-> assigned a t = true).
  { intros t. rewrite (ref_tei _ _ (si_ref _ _ _ S)). unfold known, teip_from_tei. split.
    - intros (e & I & <-). destruct (find _ _) eqn:F; [reflexivity|]. apply (find_none _ _ F) in I. rewrite Z.eqb_refl in I. discriminate I.
    - destruct (find _ _) as [e|] eqn:F; [|discriminate]. intros _. apply find_some in F as [I F]. exists e. split; [exact I|now apply Z.eqb_eq]. }
  destruct (Z.eqb_spec (h_tei h) 127) as [T|T].
  - assert (QO : (exists z, r = Rc z ERR_NONE) /\ (os = [MsgFreed] \/ exists ai, 0 <= ai < 256 /\ os = [TxFrame (identity_assigned (ai / 2)); MsgFreed] /\ assigned (on_frame m a) (ai / 2) = true)).
    { destruct (read_frame_ok m h p O RF) as [_ Op]. unfold on_frame. rewrite RF, T. cbn [Z.eqb Pos.eqb]. destruct p as [|d0 [|d1 [|d2 [|mt [|ai p]]]]]; try (destruct Q as [-> ->]; split; [eauto|now left]). destruct Q as [-> ->]. split; [eauto|]. destruct (mt =? 1); [right|now left]. exists ai. split; [|split; [reflexivity|cbn [assigned assign]; now rewrite Z.eqb_refl]].
      unfold octets in Op. rewrite Forall_forall in Op. apply (Op ai). cbn. auto 6. }
    destruct QO as ((z & ->) & QO). eexists _, _, _. split; [reflexivity|]. split; [reflexivity|]. split; [unfold x1; cbn [say set_li log]; rewrite <- app_assoc; reflexivity|]. split; [apply KEEP; reflexivity|]. split; [apply lookup_answers|].
    destruct QO as [-> | (ai & A & -> & AS)]; [now left|]. right. exists (ai / 2). split; [Z.div_mod_to_equations; lia|]. split; [reflexivity|].
    rewrite (ref_tei _ _ R) in AS. unfold known, teip_from_tei in *. change (li (say x1 [Ret 0])) with l. destruct (find _ _) as [e|] eqn:F; [|discriminate]. apply find_some in F as [I F]. exists e. split; [exact I|now apply Z.eqb_eq].
  - destruct (assigned a (h_tei h)) eqn:AS.
    + destruct Q as (id & c & LK & C & Q). exists (say x1 [Ret 0]), (flat_map see os ++ [Ret 0]), (E1Model.e1inp_lookup_sign_link (ts x) (h_tei h) (h_sapi h)).
      split; [destruct (_ <? _); destruct Q as [_ ->]; reflexivity|]. split; [reflexivity|]. split; [unfold x1; cbn [say set_li log]; now rewrite <- app_assoc|]. split; [apply KEEP; reflexivity|]. split; [apply lookup_answers|].
      right. split; [now apply KN|]. rewrite (ref_link _ _ R) in LK. destruct (lookup_in _ _ _ _ LK) as (e & d & A1 & A2 & A3 & A4 & A5). exists e, d, c. destruct (inv_dl _ (ref_inv _ _ R) e d A1 A2) as (P1 & P2 & _).
      split; [exact A1|]. split; [exact A2|]. split; [congruence|]. split; [congruence|]. split; [exact C|]. rewrite <- (ref_limit _ _ R e d A1 A2), A3. destruct (_ <? _); destruct Q as [-> _]; reflexivity.
    + destruct Q as [-> ->]. assert (LL : l = li x).
      { unfold lapd_receive in E. pose proof (parse_header_read m O) as P. rewrite RF in P. destruct P as (c & i & P1 & P2 & P3). rewrite P1, P3 in E. destruct P2 as (_ & _ & P2 & _). rewrite P2 in E. rewrite (proj2 (Z.eqb_neq _ _) T) in E.
        pose proof (ref_tei _ _ (si_ref _ _ _ S) (h_tei h)) as B. rewrite AS in B. destruct (teip_from_tei (li x) (h_tei h)); [discriminate B|]. injection E as <-. reflexivity. }
      change (EINVAL <? 0) with true. cbv iota. rewrite (event_about (ts x1) _ _ _ (si_ty _ _ _ S)). eexists _, _, _. split; [reflexivity|]. split; [reflexivity|]. split; [unfold x1; cbn [say set_li log flat_map see]; rewrite app_nil_r; reflexivity|]. split; [apply KEEP; reflexivity|]. split; [apply lookup_answers|].
      left. split; [rewrite KN; congruence|]. split; [reflexivity|]. unfold x1. exact LL.
Qed.

(** * the driver can send: the first waiting message of the first link that has one goes to the
    data link of the link's address; without such a data link it is freed, and nobody is told *)
Theorem C75_down : forall y w, hist 128 y -> let x := this w y in
  exists x', step x Writable = Some x' /\ li x' = li x /\
  match (if E1Model.t_wr (ts x) then E1Model.dequeue (E1Model.t_links (ts x)) else None) with
  | None => log x' = log x
  | Some (l, m, _) => exists o, log x' = log x ++ [Down (E1Model.lk_tei l) (E1Model.lk_sapi l) m o] /\
      match o with Some id => serves x id (E1Model.lk_tei l) (E1Model.lk_sapi l) | None => forall id, ~ serves x id (E1Model.lk_tei l) (E1Model.lk_sapi l) end
  end.
Proof.
  intros y w H x. destruct (hist_sys y H w) as (a & S). fold x in S. cbn [SigModel.step]. unfold E1Model.ts_write_ready.
  destruct (E1Model.t_wr (ts x)); cbn [negb]; [|eexists; split; [reflexivity|split; reflexivity]].
  rewrite (si_ty _ _ _ S). unfold E1Model.e1inp_tx_ts. cbn [E1Model.t_type E1Model.t_links]. rewrite ?(si_ty _ _ _ S). destruct (E1Model.dequeue (E1Model.t_links (ts x))) as [[[l m] ls]|]; [|eexists; split; [reflexivity|split; reflexivity]].
  cbn [E1Model.t_timer]. assert (T : exists tm, E1Model.osmo_timer_schedule (E1Model.t_timer (ts x)) = Some tm) by (pose proof (si_tm _ _ _ S); unfold E1Model.osmo_timer_schedule; destruct (E1Model.t_timer (ts x)); [eexists; reflexivity..|congruence]).
  destruct T as (tm & ->). destruct (transmit_refines (li x) a (E1Model.lk_tei l) (E1Model.lk_sapi l) m (si_ref _ _ _ S)) as (o & r & E & Q). rewrite E. destruct Q as [-> Q].
  eexists. split; [reflexivity|]. split; [reflexivity|]. eexists. split; [reflexivity|].
  destruct (link_at a (E1Model.lk_tei l) (E1Model.lk_sapi l)) as [id|] eqn:K; subst o; cbn.
  - now apply (serves_link x a); [exact (si_ref _ _ _ S)|].
  - intros id SV. apply (serves_link x a) in SV; [congruence|exact (si_ref _ _ _ S)].
Qed.

(** *** a message all the way *)
Lemma dequeue_sent ls k m : (forall l, In l ls -> E1Model.lk_q l = []) -> (exists l, In l ls /\ E1Model.lk_id l = k) -> NoDup (map E1Model.lk_id ls) ->
  exists l r, E1Model.dequeue (map (fun l => if Nat.eqb (E1Model.lk_id l) k then E1Model.mkLink (E1Model.lk_id l) (E1Model.lk_type l) (E1Model.lk_tei l) (E1Model.lk_sapi l) (E1Model.lk_q l ++ [m]) else l) ls) = Some (l, m, r) /\
    exists l0, In l0 ls /\ E1Model.lk_id l0 = k /\ E1Model.lk_tei l = E1Model.lk_tei l0 /\ E1Model.lk_sapi l = E1Model.lk_sapi l0.
Proof.
  induction ls as [|c ls IH]; intros Q (l0 & I & K) N; [destruct I|]. cbn [map] in *. apply NoDup_cons_iff in N as [N1 N2].
  destruct (Nat.eqb_spec (E1Model.lk_id c) k) as [Ec|Ec].
  - cbn [E1Model.dequeue E1Model.lk_q]. rewrite (Q c (or_introl eq_refl)). cbn [app]. eexists _, _. split; [reflexivity|]. exists c. cbn. auto.
  - cbn [E1Model.dequeue]. rewrite (Q c (or_introl eq_refl)). destruct I as [<-|I]; [congruence|]. destruct IH as (l & r & E & z & Z1 & Z2); [intros l Hl; apply Q; now right|eauto|exact N2|]. rewrite E. eexists _, _. split; [reflexivity|]. exists z. cbn [In]. tauto.
Qed.
Definition put (w : bool) (y : sys) (x : side) : sys := if w then mkSys (near y) x else mkSys x (far y).
Lemma this_put w y x : this w (put w y x) = x. Proof. now destruct w. Qed.
Lemma other_put w y x : this (negb w) (put w y x) = this (negb w) y. Proof. now destruct w. Qed.
Lemma step_put y w e x : SigModel.step (this w y) e = Some x -> sys_step y w e = Some (put w y x).
Proof. intros E. unfold sys_step. rewrite E. reflexivity. Qed.
(** * a message sent on a link arrives: both ends have a data link for the link's address, the
    message is not longer than the far one takes, no other message waits before it, and the core
    sends it in an I frame, which the line brings, and indicates it: the link of the far end that
    answers to the same address gets exactly the message *)
Theorem C75_carried : forall y w k t s m id cr ns nr pf hr e d lf,
  hist 128 y -> octets m ->
  (exists l, In l (E1Model.t_links (ts (this w y))) /\ E1Model.lk_id l = k /\ E1Model.lk_tei l = t /\ E1Model.lk_sapi l = s) ->
  (forall l, In l (E1Model.t_links (ts (this w y))) -> E1Model.lk_q l = []) -> E1Model.t_timer (ts (this w y)) = E1Model.TIdle ->
  serves (this w y) id t s -> t <> 127 ->
  In e (tei_list (li (this (negb w) y))) -> In d (sap_list e) -> dl_tei d = t -> dl_sapi d = s -> Z.of_nat (length m) <= dl_maxf d ->
  handler (this (negb w) y) = true -> answers (E1Model.t_links (ts (this (negb w) y))) t s (Some lf) ->
  0 <= cr < 2 -> 0 <= ns < 128 -> 0 <= nr < 128 -> 0 <= pf < 2 -> (4 <= hr)%nat ->
  exists f y', f = q921 (short_address (prof (li (this w y)))) (mkHdr s cr t (CI ns nr pf)) m /\
    runs 128 y [(w, Send k m); (w, Writable); (w, CoreTx id (mkLctx s cr t FORM_I ns nr pf 0) hr m); (negb w, Frame f); (negb w, CoreDl (sid d) DL_DATA true t s m)] y' /\
    log (this (negb w) y') = log (this (negb w) y) ++ [Up (sid d) (mkLctx s cr t FORM_I ns nr pf 0) m; Ret 0; Deliver (E1Model.lk_id lf) t s m].
Proof.
  intros y w k t s m id cr ns nr pf hr e d lf H O (l & LI & LK & LT & LS) QE TI SV N127 IE ID DT DS LEN HD AN C1 C2 C3 C4 HR.
  destruct (hist_sys y H w) as (a & S). destruct (hist_sys y H (negb w)) as (b & S'). set (x := this w y) in *. set (z := this (negb w) y) in *.
  assert (LK0 := proj1 (serves_link x a id t s (si_ref _ _ _ S)) SV). destruct (si_rng _ _ _ S _ _ _ LK0) as [RT RS].
  set (h := mkHdr s cr t (CI ns nr pf)). assert (HO : hdr_ok h) by (unfold hdr_ok, h, ctrl_ok; cbn; tauto).
  set (c := mkLctx s cr t FORM_I ns nr pf 0). assert (CX : ctx_is c h) by (unfold ctx_is, c, h; cbn; tauto).
  set (f := q921 (short_address (prof (li x))) h m). assert (OF : octets f) by now apply q921_octets. assert (RF : read_frame f = Some (h, m)) by now apply read_frame_q921.
  exists f.
  (* Send *)
  assert (HL : has_link x k) by (exists l; auto). destruct (find_link_some x k HL) as (l1 & F1 & I1 & K1).
  assert (l1 = l) as -> by (apply (nodup_id_eq (E1Model.t_links (ts x))); [exact (si_nd _ _ _ S)|easy|easy|congruence]).
  set (x1 := say (set_ts x (E1Model.ts_send (ts x) k m)) [Sent k t s m]).
  assert (E1 : SigModel.step x (Send k m) = Some x1) by (cbn [SigModel.step]; rewrite F1, LT, LS; reflexivity).
  assert (W1 : lawful 128 y w (Send k m)) by (split; [split; [exact HL|exact O]|split; exact Logic.I]).
  apply step_put in E1. pose proof (hist1 128 y w _ _ H W1 E1) as H1. set (y1 := put w y x1) in *.
  (* Writable *)
  destruct (C75_down y1 w H1) as (x2 & E2 & LI2 & D2). unfold y1 in E2, LI2, D2. rewrite this_put in E2, LI2, D2.
  destruct (dequeue_sent (E1Model.t_links (ts x)) k m QE (ex_intro _ l (conj LI LK)) (si_nd _ _ _ S)) as (lq & rq & DQ & l0 & L1 & L2 & L3 & L4).
  assert (l0 = l) as -> by (apply (nodup_id_eq (E1Model.t_links (ts x))); [exact (si_nd _ _ _ S)|easy|easy|congruence]).
  assert (WR : E1Model.t_wr (ts x1) = true) by (unfold x1; cbn [ts say set_ts E1Model.ts_send E1Model.t_wr]; rewrite TI; cbn; apply orb_true_r).
  rewrite WR in D2. unfold x1 at 1 in D2. cbn [ts say set_ts E1Model.ts_send E1Model.t_links] in D2. rewrite DQ in D2. rewrite L3, L4, LT, LS in D2. destruct D2 as (o & LG2 & O2).
  assert (SV1 : serves x1 id t s) by exact SV.
  assert (o = Some id) as ->.
  { destruct o as [i|]; [|destruct (O2 id SV1)]. f_equal. assert (O3 : serves x i t s) by exact O2. apply (serves_link x a) in O3; [congruence|exact (si_ref _ _ _ S)]. }
  assert (E2' : sys_step y1 w Writable = Some (put w y1 x2)) by (apply step_put; unfold y1; rewrite this_put; exact E2).
  assert (W2 : lawful 128 y1 w Writable) by (split; [exact Logic.I|split; exact Logic.I]).
  pose proof (hist1 128 y1 w _ _ H1 W2 E2') as H2. set (y2 := put w y1 x2) in *.
  assert (T2 : this w y2 = x2) by apply this_put. assert (T2' : this (negb w) y2 = z) by (unfold y2, y1; rewrite !other_put; reflexivity).
  (* CoreTx *)
  assert (LX : li x2 = li x) by exact LI2.
  assert (E3 : SigModel.step x2 (SigModel.CoreTx id c hr m) = Some (say (set_li x2 (li x2)) [Air f])).
  { cbn [SigModel.step]. unfold send_ph_data_req. rewrite LX. destruct (live_by_id _ a id _ _ (si_ref _ _ _ S) LK0) as [sp ->]. rewrite (encode_frame_q921 _ c h hr m CX HO HR). reflexivity. }
  assert (W3 : lawful 128 y2 w (SigModel.CoreTx id c hr m)).
  { split; [exact Logic.I|]. split; [exact Logic.I|]. rewrite T2. cbn [core_law]. split; [exact HR|]. split; [exact O|]. exists h. split; [exact CX|]. split; [exact C1|]. split; [cbn; tauto|].
    split; [unfold serves; rewrite LX; exact SV|]. cbn [h h_ctrl]. exists t, s. rewrite LG2. apply in_or_app. right. now left. }
  assert (E3' : sys_step y2 w (SigModel.CoreTx id c hr m) = Some (put w y2 (say (set_li x2 (li x2)) [Air f]))) by (apply step_put; rewrite T2; exact E3).
  pose proof (hist1 128 y2 w _ _ H2 W3 E3') as H3. set (y3 := put w y2 (say (set_li x2 (li x2)) [Air f])) in *.
  assert (T3 : this w y3 = say (set_li x2 (li x2)) [Air f]) by apply this_put. assert (T3' : this (negb w) y3 = z) by (unfold y3; rewrite other_put; exact T2').
  (* Frame *)
  assert (KD : link_at b t s = Some (sid d)) by (apply (serves_link z b); [exact (si_ref _ _ _ S')|]; exists e, d; auto).
  assert (AS : assigned b t = true).
  { rewrite (ref_tei _ _ (si_ref _ _ _ S')). rewrite (ref_link _ _ (si_ref _ _ _ S')) in KD. unfold LapdProofs.lookup in KD. destruct (teip_from_tei (li z) t); [reflexivity|discriminate KD]. }
  destruct (receive_refines (li z) b f OF (si_ref _ _ _ S')) as (lz & os & r & E4 & R4 & Q4). unfold received in Q4. rewrite RF in Q4.
  assert (OF' : on_frame f b = b) by (unfold on_frame; rewrite RF; cbn [h h_tei h_sapi]; rewrite (proj2 (Z.eqb_neq _ _) N127), AS, KD; reflexivity).
  cbn [h h_tei h_sapi] in Q4. rewrite (proj2 (Z.eqb_neq _ _) N127), AS, OF' in Q4. destruct Q4 as (i4 & c4 & K4 & CX4 & Q4). assert (i4 = sid d) as -> by congruence.
  rewrite (ref_limit _ _ (si_ref _ _ _ S') e d IE ID) in Q4. rewrite (proj2 (Z.ltb_ge _ _)) in Q4 by lia. destruct Q4 as [-> ->]. rewrite OF' in R4.
  assert (L4' : lapd_receive (li z) f = Some (li z, [CoreFrame (sid d) c (dl_maxf d) m], RcCore)).
  { unfold lapd_receive. pose proof (parse_header_read f OF) as P. rewrite RF in P. destruct P as (c5 & i5 & P1 & P2 & P3). rewrite P1, P3. 
    unfold lapd_receive in E4. rewrite P1, P3 in E4. destruct P2 as (Q1 & Q2 & Q3 & Q5 & Q6 & Q7 & Q8). cbn [h h_sapi h_cr h_tei] in Q1, Q2, Q3. rewrite Q3, Q1 in E4 |- *. rewrite (proj2 (Z.eqb_neq _ _) N127) in E4 |- *.
    rewrite (ref_link _ _ (si_ref _ _ _ S')) in KD. unfold LapdProofs.lookup in KD. destruct (teip_from_tei (li z) t) as [e5|]; [|discriminate KD]. destruct (lapd_sap_find e5 s) as [d5|]; [|discriminate KD].
    destruct (dl_maxf d5 <? _); [discriminate E4|]. injection E4 as Z1 Z2 Z3 Z4. rewrite Z2, Z4. f_equal. f_equal. f_equal. f_equal. f_equal.
    assert (PF : l_s_u c5 = 0 -> c5 = c). { intros SU. destruct c5 as [v1 v2 v3 v4 v5 v6 v7 v8]. cbn [l_sapi l_cr l_tei l_format l_n_send l_n_recv l_p_f l_s_u] in *. unfold c. congruence. }
    apply PF. clear - P1 Q5. unfold parse_header in P1. destruct (length f <? 2)%nat; [discriminate P1|]. destruct (get f 0) as [a0|]; [|discriminate P1].
    destruct (LAPD_ADDR_EA a0 =? 0); [destruct (length f <? 3)%nat; [discriminate P1|]; destruct (get f 1) as [b0|]; [|discriminate P1]|];
      (cbn [l_sapi l_cr l_tei] in P1; match type of P1 with context [get f ?i] => destruct (get f i) as [x0|]; [|discriminate P1] end;
       destruct (LAPD_CTRL_is_I x0); [repeat match type of P1 with context [if ?q then _ else _] => destruct q; [discriminate P1|] end; match type of P1 with context [get f ?i] => destruct (get f i) as [y0|]; [|discriminate P1] end; injection P1 as <- _; reflexivity|];
       destruct (LAPD_CTRL_is_S x0); [repeat match type of P1 with context [if ?q then _ else _] => destruct q; [discriminate P1|] end; match type of P1 with context [get f ?i] => destruct (get f i) as [y0|]; [|discriminate P1] end; injection P1 as <- _; discriminate Q5|];
       destruct (LAPD_CTRL_is_U x0); injection P1 as <- _; discriminate Q5). }
  set (z4 := say (say (set_li z (li z)) [Up (sid d) c m]) [Ret 0]).
  assert (E5 : SigModel.step z (Frame f) = Some z4) by (cbn [SigModel.step]; unfold rx_ts_lapd; rewrite L4'; reflexivity).
  assert (W4 : lawful 128 y3 (negb w) (Frame f)).
  { split; [exact Logic.I|]. split; [|exact Logic.I]. rewrite negb_involutive, T3. cbn [line_law]. apply in_wire. cbn [say log]. apply in_or_app. right. now left. }
  assert (E5' : sys_step y3 (negb w) (Frame f) = Some (put (negb w) y3 z4)) by (apply step_put; rewrite T3'; exact E5).
  pose proof (hist1 128 y3 (negb w) _ _ H3 W4 E5') as H4. set (y4 := put (negb w) y3 z4) in *. assert (T4 : this (negb w) y4 = z4) by apply this_put.
  (* CoreDl *)
  assert (W5 : lawful 128 y4 (negb w) (SigModel.CoreDl (sid d) DL_DATA true t s m)).
  { split; [exact Logic.I|]. split; [exact Logic.I|]. rewrite T4. cbn [core_law]. split; [exists e, d; auto|]. intros _ _. exists c. split; [|now left]. cbn [z4 say log]. apply in_or_app. left. apply in_or_app. right. now left. }
  destruct (C75_indications y4 (negb w) (sid d) DL_DATA true t s m H4 W5) as (y5 & o5 & E6 & A5 & _ & _ & LG5 & _). rewrite T4 in A5, LG5.
  assert (o5 = Some lf) as -> by (apply (answers_fun (E1Model.t_links (ts z)) t s); [exact A5|exact AN]).
  exists y5. split; [reflexivity|]. split.
  - cbn [runs]. split; [exact W1|]. exists y1. split; [exact E1|]. split; [exact W2|]. exists y2. split; [exact E2'|]. split; [exact W3|]. exists y3. split; [exact E3'|]. split; [exact W4|]. exists y4. split; [exact E5'|]. split; [exact W5|]. exists y5. split; [exact E6|reflexivity].
  - rewrite LG5. change (handler z4) with (handler z). rewrite HD. cbn [z4 say set_li log]. rewrite <- !app_assoc. reflexivity.
Qed.

Lemma hist_runs B evs : forall y y', hist B y -> runs B y evs y' -> hist B y'.
Proof.
  induction evs as [|[w e] r IH]; intros y y' H R; [cbn [runs] in R; now subst|]. cbn [runs] in R. destruct R as (LW & y1 & E & R). exact (IH y1 y' (hist1 B y w e y1 H LW E) R).
Qed.
(** *** concrete runs *)
Definition demo0 : sys := mkSys (side0 true lapd_profile_abis) (side0 false lapd_profile_abis).
Lemma demo0_hist B : hist B demo0.
Proof. apply hist0; reflexivity. Qed.
Fixpoint run_sys (y : sys) (evs : list (bool * ev)) : option sys :=
  match evs with [] => Some y | (w, e) :: r => do y1 <- sys_step y w e; run_sys y1 r end.
(** all events lawful in the states they happen in *)
Fixpoint laws (B : Z) (y : sys) (evs : list (bool * ev)) : Prop :=
  match evs with [] => True | (w, e) :: r => lawful B y w e /\ match sys_step y w e with Some y1 => laws B y1 r | None => False end end.
Lemma laws_runs B evs : forall y y', laws B y evs -> run_sys y evs = Some y' -> runs B y evs y'.
Proof.
  induction evs as [|[w e] r IH]; intros y y' L R; cbn [laws run_sys runs] in *; [congruence|]. destruct L as [LW L]. split; [exact LW|]. destruct (sys_step y w e) as [y1|]; [|discriminate R]. exists y1. auto.
Qed.
Ltac ex_in := solve [exact (or_introl eq_refl) | right; ex_in].
Ltac serve := unfold serves; cbn; eexists _, _; (split; [left; reflexivity|]); (split; [left; reflexivity|]); cbn; auto.
Ltac law1 :=
  match goal with
  | |- lawful _ _ _ (Send _ _) => split; [split; [eexists; split; [left; reflexivity|reflexivity]|repeat constructor; unfold octet; lia]|split; exact Logic.I]
  | |- lawful _ _ _ (Unlink _) => split; [eexists; split; [left; reflexivity|reflexivity]|split; exact Logic.I]
  | |- lawful _ _ _ (Start _ _) => split; [cbn; lia|split; exact Logic.I]
  | |- lawful _ _ _ (Frame _) => split; [exact Logic.I|split; [vm_compute; auto 8|exact Logic.I]]
  | |- lawful _ _ _ (SigModel.CoreTx _ (mkLctx ?s ?c ?t _ _ _ _ _) _ _) => split; [exact Logic.I|split; [exact Logic.I|]]; cbn [core_law]; split; [lia|]; split; [repeat constructor; unfold octet; lia|]; exists (mkHdr s c t (CI 0 0 0)); cbn [h_ctrl h_cr h_tei h_sapi];
      (split; [unfold ctx_is; cbn; auto 9|]); (split; [lia|]); (split; [cbn; lia|]); (split; [serve|]); eexists _, _; cbn [this log]; ex_in
  | |- lawful _ _ _ (SigModel.CoreDl _ _ _ _ _ _) => split; [exact Logic.I|split; [exact Logic.I|]]; cbn [core_law]; split; [serve|]; first [intros Z _; discriminate Z|intros _ _; eexists; split; [cbn [this log]; ex_in|left; reflexivity]]
  | |- lawful _ _ _ _ => split; [exact Logic.I|split; exact Logic.I]
  end.
(** two links RSL, TEI 1 SAPI 0; the near end starts the data link, the far end learns the TEI from an
    identity request of the near end: here both start it *)
Definition ctx_i (t : Z) : lctx := mkLctx 0 1 t FORM_I 0 0 0 0.
Definition opened (t t' : Z) : list (bool * ev) :=
  [(false, Link E1Model.SIGN_RSL t 0); (false, Start t 0); (true, Link E1Model.SIGN_RSL t' 0); (true, Start t' 0)].
Definition message (t t' : Z) (f m : list Z) : list (bool * ev) :=
  [(false, Send 0 m); (false, Writable); (false, CoreTx 0 (ctx_i t) 32 m); (true, Frame f); (true, CoreDl 0 DL_DATA true t' 0 m)].
Definition demo : list (bool * ev) := opened 1 1 ++ (false, CoreDl 0 DL_EST true 1 0 []) :: message 1 1 [2; 3; 0; 0; 7; 8] [7; 8] ++ [(false, CoreDl 0 DL_REL true 1 0 [])].
Ltac laws_tac := repeat (cbn [laws]; match goal with |- lawful _ _ _ _ /\ _ => idtac end; split; [|match goal with |- match ?s with Some _ => _ | None => _ end => let v := eval vm_compute in s in change s with v; cbv iota end]); try exact Logic.I.
Lemma demo_laws : laws 128 demo0 demo.
Proof.
  unfold demo, opened, message, ctx_i. cbn [app]. let v := eval vm_compute in demo0 in change demo0 with v. laws_tac; law1.
Qed.
(** the message arrives, and the applications are told of the establishment and the release *)
Example C75_demo : exists y, runs 128 demo0 demo y /\ hist 128 y /\
  log (near y) = [Req 0 DL_EST; Signal TEI_UP 0 E1Model.SIGN_RSL 1 0; Sent 0 1 0 [7; 8]; Down 1 0 [7; 8] (Some 0%nat); Air [2; 3; 0; 0; 7; 8]; Signal TEI_DN 0 E1Model.SIGN_RSL 1 0] /\
  log (far y) = [Req 0 DL_EST; Up 0 (ctx_i 1) [7; 8]; Ret 0; Deliver 0 1 0 [7; 8]].
Proof.
  destruct (run_sys demo0 demo) as [y|] eqn:E; [|vm_compute in E; discriminate E]. exists y. assert (R := laws_runs 128 demo demo0 y demo_laws E). split; [exact R|]. split; [exact (hist_runs 128 demo demo0 y (demo0_hist 128) R)|].
  vm_compute in E. injection E as <-. split; reflexivity.
Qed.
(** a frame of a TEI the far end does not know: the link that answers to the address is named *)
Example C75_unknown_demo : exists x', step (mkSide (E1Model.mkTs E1Model.TS_SIGN [E1Model.mkLink 0 E1Model.SIGN_OML 5 0 []; E1Model.mkLink 1 E1Model.SIGN_RSL 1 62 []; E1Model.mkLink 2 E1Model.SIGN_RSL 1 62 []] [] 0 E1Model.TIdle false) (lapd_instance_alloc2 true lapd_profile_abis) 3 true []) (Frame [250; 3; 127]) = Some x' /\
  log x' = [Signal TEI_UNKNOWN 1 E1Model.SIGN_RSL 1 62; Ret (-5)].
Proof. eexists. split; vm_compute; reflexivity. Qed.

(** * with TEIs of 8 bits the promise fails: TEI 130 becomes TEI 2 on the line *)
Definition wide : list (bool * ev) := opened 130 2 ++ message 130 2 [2; 5; 0; 0; 7; 8] [7; 8].
Theorem C75_wide_tei_refuted : exists y, hist 256 y /\ In (Deliver 0 2 0 [7; 8]) (log (far y)) /\ forall k t s m, In (Sent k t s m) (log (near y)) -> t = 130.
Proof.
  assert (LW : laws 256 demo0 wide). { unfold wide, opened, message, ctx_i. cbn [app]. let v := eval vm_compute in demo0 in change demo0 with v. laws_tac; law1. }
  destruct (run_sys demo0 wide) as [y|] eqn:E; [|vm_compute in E; discriminate E]. exists y. assert (R := laws_runs 256 wide demo0 y LW E). split; [exact (hist_runs 256 wide demo0 y (demo0_hist 256) R)|].
  vm_compute in E. injection E as <-. split; [cbn [far log]; ex_in|]. cbn [near log]. intros k t s m I. repeat (destruct I as [I|I]; [try discriminate I; try (injection I as _ <- _ _; reflexivity)|]). destruct I.
Qed.
(** * a message sent on a link whose data link was released is taken and freed; the application
    is not told *)
Definition late : list (bool * ev) := opened 1 1 ++ [(false, CoreDl 0 DL_REL true 1 0 []); (false, Send 0 [7; 8]); (false, Writable)].
Theorem C75_after_release_refuted : exists y, hist 128 y /\ has_link (near y) 0 /\
  log (near y) = [Req 0 DL_EST; Signal TEI_DN 0 E1Model.SIGN_RSL 1 0; Sent 0 1 0 [7; 8]; Down 1 0 [7; 8] None].
Proof.
  assert (LW : laws 128 demo0 late). { unfold late, opened. cbn [app]. let v := eval vm_compute in demo0 in change demo0 with v. laws_tac; law1. }
  destruct (run_sys demo0 late) as [y|] eqn:E; [|vm_compute in E; discriminate E]. exists y. assert (R := laws_runs 128 late demo0 y LW E). split; [exact (hist_runs 128 late demo0 y (demo0_hist 128) R)|].
  vm_compute in E. injection E as <-. split; [|reflexivity]. eexists. split; [left; reflexivity|reflexivity].
Qed.
(** * a timeslot given another type keeps its LAPD instance: the release of a data link that is
    still there then takes another member of the union for the list of links *)
Theorem C75_config_refuted : exists y x1, hist 128 y /\ serves (near y) 0 1 0 /\ step (near y) (Config E1Model.TS_HDLC) = Some x1 /\ serves x1 0 1 0 /\ step x1 (CoreDl 0 DL_REL true 1 0 []) = None.
Proof.
  assert (LW : laws 128 demo0 (opened 1 1)). { unfold opened. let v := eval vm_compute in demo0 in change demo0 with v. laws_tac; law1. }
  destruct (run_sys demo0 (opened 1 1)) as [y|] eqn:E; [|vm_compute in E; discriminate E]. exists y. assert (R := laws_runs 128 (opened 1 1) demo0 y LW E). eexists. split; [exact (hist_runs 128 (opened 1 1) demo0 y (demo0_hist 128) R)|].
  vm_compute in E. injection E as <-. split; [serve|]. split; [reflexivity|]. split; [serve|]. reflexivity.
Qed.
(** * of two links with the same address the second one gets nothing while the first exists *)
Theorem C75_second_link : forall y w e y' l1 l2, hist 128 y -> lawful 128 y w e -> sys_step y w e = Some y' ->
  (exists pre mid post, E1Model.t_links (ts (this w y)) = pre ++ l1 :: mid ++ l2 :: post) -> E1Model.lk_tei l1 = E1Model.lk_tei l2 -> E1Model.lk_sapi l1 = E1Model.lk_sapi l2 ->
  forall news, log (this w y') = log (this w y) ++ news ->
  (forall t s m, ~ In (Deliver (E1Model.lk_id l2) t s m) news) /\ (forall g ty t s, ~ In (Signal g (E1Model.lk_id l2) ty t s) news).
Proof.
  intros y w e y' l1 l2 H LW E (pre & mid & post & LS) T1 T2 news LG.
  destruct (hist_sys y H w) as (a & S). set (x := this w y) in *.
  assert (NOT : forall t s o, answers (E1Model.t_links (ts x)) t s (Some o) -> E1Model.lk_id o <> E1Model.lk_id l2).
  { intros t s o (A & p & q & EQ & P) K. assert (o = l2) as ->.
    { apply (nodup_id_eq (E1Model.t_links (ts x))); [exact (si_nd _ _ _ S)| | |exact K]; [rewrite EQ|rewrite LS]; apply in_or_app; right; [now left|right; apply in_or_app; right; now left]. }
    (* l1 stands before l2 *)
    assert (I1 : In l1 p).
    { rewrite LS in EQ. pose proof (si_nd _ _ _ S) as ND. rewrite LS in ND. clear - EQ ND. revert pre ND EQ. induction p as [|c p IH]; intros [|c' pre] ND EQ; cbn [app] in EQ.
      - exfalso. injection EQ as EQ1 EQ2. subst. cbn [app map] in ND. apply NoDup_cons_iff in ND as [ND _]. apply ND. rewrite map_app. apply in_or_app. right. now left.
      - exfalso. injection EQ as EQ1 EQ2. subst. cbn [app map] in ND. apply NoDup_cons_iff in ND as [ND _]. apply ND. rewrite map_app. apply in_or_app. right. cbn [map]. right. rewrite map_app. apply in_or_app. right. now left.
      - injection EQ as EQ1 EQ2. subst. now left.
      - injection EQ as EQ1 EQ2. subst. right. apply (IH pre); [cbn [app map] in ND; now apply NoDup_cons_iff in ND as [_ ND]|exact EQ2]. }
    apply (P l1 I1). destruct A as [A1 A2]. split; congruence. }
  assert (GOAL : forall es, news = es -> (forall z, In z es -> match z with Deliver k _ _ _ | Signal _ k _ _ _ => k <> E1Model.lk_id l2 | _ => True end) ->
     (forall t s m, ~ In (Deliver (E1Model.lk_id l2) t s m) news) /\ (forall g ty t s, ~ In (Signal g (E1Model.lk_id l2) ty t s) news)).
  { intros es -> Q. split; intros; intros I; apply Q in I; congruence. }
  assert (TH : forall x', SigModel.step x e = Some x' -> this w y' = x'). { intros x' E'. apply step_put in E'. rewrite E in E'. injection E' as ->. apply this_put. }
  assert (AB : forall g o t s, answers (E1Model.t_links (ts x)) t s o -> forall z, In z (about g o) -> match z with Deliver k _ _ _ | Signal _ k _ _ _ => k <> E1Model.lk_id l2 | _ => True end).
  { intros g [o|] t s A z I; [|destruct I]. destruct I as [<-|[]]. now apply (NOT t s). }
  destruct e as [ty t s|k|k m|ty|t s|t s| | |m|id c hr m|id p ind t s m].
  - assert (EX : exists x', SigModel.step x (Link ty t s) = Some x' /\ log x' = log x ++ []) by (cbn [SigModel.step]; rewrite app_nil_r; destruct (E1Model.ts_link_create _ _ _ _ _); eexists; split; reflexivity).
    destruct EX as (x' & EX & LX). rewrite (TH x' EX), LX in LG. apply app_inv_head in LG. apply (GOAL []); [auto|intros z []].
  - destruct LW as (HL & _). destruct (adv_unlink x (log (this (negb w) y)) a S k HL) as (x' & _ & EX & _). assert (EX' := EX). cbn [SigModel.step] in EX'. destruct (E1Model.ts_link_destroy (ts x) k) as [r|]; [|discriminate EX']. injection EX' as <-. rewrite (TH _ EX) in LG. cbn [say set_ts log] in LG. apply app_inv_head in LG.
    eapply GOAL; [symmetry; exact LG|]. intros z I. apply in_map_iff in I as (q & <- & _). exact Logic.I.
  - destruct LW as ((HL & _) & _). destruct (find_link_some x k HL) as (l & F & _). assert (EX : SigModel.step x (Send k m) = Some (say (set_ts x (E1Model.ts_send (ts x) k m)) [Sent k (E1Model.lk_tei l) (E1Model.lk_sapi l) m])) by (cbn [SigModel.step]; rewrite F; reflexivity).
    rewrite (TH _ EX) in LG. cbn [say set_ts log] in LG. apply app_inv_head in LG. eapply GOAL; [symmetry; exact LG|]. intros z [<-|[]]. exact Logic.I.
  - destruct (SigModel.step x (Config ty)) as [x'|] eqn:EX; [|unfold sys_step in E; fold x in E; rewrite EX in E; discriminate E]. rewrite (TH _ eq_refl) in LG. cbn [SigModel.step] in EX. destruct (E1Model.e1inp_ts_config (ts x) ty) as [[rc u] fr]. injection EX as <-. cbn [say set_ts log] in LG. apply app_inv_head in LG.
    eapply GOAL; [symmetry; exact LG|]. intros z I. apply in_map_iff in I as (q & <- & _). exact Logic.I.
  - destruct (start_refines (li x) a t s (si_ref _ _ _ S)) as (l & o & r & E1 & R & Q). assert (EX : SigModel.step x (Start t s) = Some (say (set_li x l) (flat_map see o))) by (cbn [SigModel.step]; rewrite E1; reflexivity).
    rewrite (TH _ EX) in LG. cbn [say set_li log] in LG. apply app_inv_head in LG. eapply GOAL; [symmetry; exact LG|]. unfold start_result in Q. destruct (link_at a t s); destruct Q as [-> _]; cbn; [intros z []|]. intros z [<-|[]]. exact Logic.I.
  - destruct (stop_refines (li x) a t s (si_ref _ _ _ S)) as (o & r & E1 & Q). assert (EX : SigModel.step x (Stop t s) = Some (say (set_li x (li x)) (flat_map see o))) by (cbn [SigModel.step]; rewrite E1; reflexivity).
    rewrite (TH _ EX) in LG. cbn [say set_li log] in LG. apply app_inv_head in LG. eapply GOAL; [symmetry; exact LG|]. unfold stop_result in Q. destruct (link_at a t s); destruct Q as [-> _]; cbn; [|intros z []]. intros z [<-|[]]. exact Logic.I.
  - destruct (C75_down y w H) as (x' & EX & _ & D). fold x in EX, D. rewrite (TH _ EX) in LG. destruct (if E1Model.t_wr (ts x) then _ else _) as [[[l m] ?]|].
    + destruct D as (o & D & _). rewrite D in LG. apply app_inv_head in LG. eapply GOAL; [symmetry; exact LG|]. intros z [<-|[]]. exact Logic.I.
    + rewrite D in LG. rewrite <- (app_nil_r (log x)) in LG at 1. apply app_inv_head in LG. apply (GOAL []); [auto|intros z []].
  - assert (EX : SigModel.step x Timer = Some (set_ts x (E1Model.ts_timeout (ts x)))) by reflexivity. rewrite (TH _ EX) in LG. cbn [set_ts log] in LG. rewrite <- (app_nil_r (log x)) in LG at 1. apply app_inv_head in LG. apply (GOAL []); [auto|intros z []].
  - assert (O : octets m). { destruct LW as (_ & LN & _). cbn [line_law] in LN. apply in_wire in LN. destruct (hist_sys y H (negb w)) as (b & SB). apply (si_wire _ _ _ SB m LN). }
    destruct (C75_frames y w m H O) as (x' & nw & o & EX & _ & D & _ & Q). fold x in EX, D, Q. rewrite (TH _ EX), D in LG. apply app_inv_head in LG. apply (GOAL nw); [auto|]. destruct (read_frame m) as [[h p]|].
    + destruct Q as [A Q]. destruct (h_tei h =? 127).
      * destruct Q as [-> | (t & _ & -> & _)]; [intros z [<-|[]]; exact Logic.I|intros z [<-|[<-|[]]]; exact Logic.I].
      * destruct Q as [(_ & -> & _) | (_ & e & d & c & _ & _ & _ & _ & _ & ->)].
        { intros z I. apply in_app_iff in I as [I|[<-|[]]]; [|exact Logic.I]. exact (AB _ _ _ _ A z I). }
        { intros z I. apply in_app_iff in I as [I|[<-|[]]]; [|exact Logic.I]. destruct (dl_maxf d <? _); [destruct I|]. destruct I as [<-|[]]. exact Logic.I. }
    + destruct Q as [-> _]. intros z [<-|[]]. exact Logic.I.
  - destruct (SigModel.step x (SigModel.CoreTx id c hr m)) as [x'|] eqn:EX; [|unfold sys_step in E; fold x in E; rewrite EX in E; discriminate E]. rewrite (TH _ eq_refl) in LG. cbn [SigModel.step] in EX. unfold send_ph_data_req in EX. destruct (sap_by_id (li x) id); [|discriminate EX]. destruct (encode_frame _ c hr m) as [[f|]|]; [| |discriminate EX]; cbn in EX; injection EX as <-; cbn [say set_li log] in LG; apply app_inv_head in LG; (eapply GOAL; [symmetry; exact LG|]); [intros z [<-|[]]; exact Logic.I|intros z []].
  - destruct (C75_indications y w id p ind t s m H LW) as (y2 & o & E2 & A & _ & _ & D & _). fold x in A, D. rewrite E in E2. injection E2 as <-. rewrite D in LG. apply app_inv_head in LG. eapply GOAL; [symmetry; exact LG|]. destruct p.
    + exact (AB _ _ _ _ A).
    + exact (AB _ _ _ _ A).
    + destruct ind; [|intros z []]. destruct o as [o|]; [|intros z [<-|[]]; exact Logic.I]. destruct (handler x); [|intros z [<-|[]]; exact Logic.I]. intros z [<-|[]]. now apply (NOT t s).
    + intros z [].
Qed.
