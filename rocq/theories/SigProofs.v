(** Lemmas for C75. *)
From Coq Require Import List Arith Lia Bool ZArith.
From Verif Require Import Base LapdSpec LapdModel LapdProofs LapdProps SigModel SigSpec.
From Verif Require E1Model.
Import ListNotations.
Open Scope Z_scope.

Definition stable (a : table) (id : nat) (t s : Z) : Prop :=
  (id < next_link a)%nat /\ forall t' s', link_at a t' s' = Some id -> t' = t /\ s' = s.
Definition data_ctrl (c : ctrl) : Prop := match c with CI _ _ _ => True | CS _ _ _ => False | CU u _ => u = 0 end.
(** what the frames seen in a log carry *)
Definition wire_ok (L : list eff) : Prop :=
  forall f, In (Air f) L -> octets f /\ exists h p, read_frame f = Some (h, p) /\
    (h_tei h = 127 \/ (data_ctrl (h_ctrl h) -> exists k, In (Sent k (h_tei h) (h_sapi h) p) L)).
Record SI (x : side) (L : list eff) (a : table) : Prop := mkSI {
  si_ref : refines (li x) a;
  si_rng : forall t s id, link_at a t s = Some id -> 0 <= t < 128 /\ 0 <= s < 64;
  si_ty : E1Model.t_type (ts x) = E1Model.TS_SIGN;
  si_tm : E1Model.t_timer (ts x) <> E1Model.TGarbage;
  si_nd : NoDup (map E1Model.lk_id (E1Model.t_links (ts x)));
  si_lt : forall l, In l (E1Model.t_links (ts x)) -> (E1Model.lk_id l < next x)%nat;
  si_q : forall l m, In l (E1Model.t_links (ts x)) -> In m (E1Model.lk_q l) -> exists k, In (Sent k (E1Model.lk_tei l) (E1Model.lk_sapi l) m) (log x);
  si_down : forall t s m id, In (Down t s m (Some id)) (log x) -> stable a id t s /\ exists k, In (Sent k t s m) (log x);
  si_wire : wire_ok (log x);
  si_up : forall id c p, In (Up id c p) (log x) -> carries c -> exists t s k, stable a id t s /\ In (Sent k t s p) L;
  si_del : forall k t s m, In (Deliver k t s m) (log x) -> exists k', In (Sent k' t s m) L }.

Lemma SI_mono x L L' a : incl L L' -> SI x L a -> SI x L' a.
Proof.
  intros I []. constructor; auto.
  - intros id c p U C. destruct (si_up0 id c p U C) as (t & s & k & S & H). exists t, s, k. auto.
  - intros k t s m D. destruct (si_del0 k t s m D) as (k' & H). exists k'. auto.
Qed.

(** *** data links keep their address *)
Lemma link_lt li a t s id : refines li a -> link_at a t s = Some id -> (id < next_link a)%nat.
Proof.
  intros R H. rewrite (ref_link _ _ R) in H. apply lookup_in in H as (e & x & A & B & <- & _). rewrite (ref_next _ _ R). apply (inv_dl _ (ref_inv _ _ R) e x A B).
Qed.
Lemma link_fun li a t s t' s' id : refines li a -> link_at a t s = Some id -> link_at a t' s' = Some id -> t' = t /\ s' = s.
Proof.
  intros R H H'. rewrite (ref_link _ _ R) in H, H'. apply lookup_in in H, H'. destruct H as (e & x & A & B & C & D & F), H' as (e' & x' & A' & B' & C' & D' & F').
  destruct (inv_id _ (ref_inv _ _ R) e x e' x' A B A' B' ltac:(congruence)) as [-> ->]. split; congruence.
Qed.
Lemma link_stable li a t s id : refines li a -> link_at a t s = Some id -> stable a id t s.
Proof. intros R H. split; [eapply link_lt; eauto|]. intros t' s' H'. eapply link_fun; eauto. Qed.
Lemma serves_link x a id t s : refines (li x) a -> serves x id t s <-> link_at a t s = Some id.
Proof.
  intros R. split.
  - intros (e & d & E & D & <- & <- & <-). rewrite (ref_link _ _ R). destruct (inv_dl _ (ref_inv _ _ R) e d E D) as (-> & -> & _). apply in_lookup; [apply R|easy|easy].
  - intros H. rewrite (ref_link _ _ R) in H. apply lookup_in in H as (e & d & A & B & C & D & F). exists e, d. destruct (inv_dl _ (ref_inv _ _ R) e d A B) as (P & Q & _). repeat split; congruence.
Qed.
Lemma stable_open a id t s t1 s1 : stable a id t s -> stable (open_link t1 s1 a) id t s.
Proof.
  intros [L F]. split; [cbn; lia|]. intros t' s'. cbn [link_at open_link]. destruct (_ && _); [intros [= E]; lia|apply F].
Qed.
Lemma stable_assign a id t s t1 : stable a id t s -> stable (assign t1 a) id t s.
Proof. intros [L F]. split; [exact L|exact F]. Qed.
Lemma stable_close a id t s i : stable a id t s -> stable (close_link i a) id t s.
Proof.
  intros [L F]. split; [exact L|]. intros t' s'. cbn [link_at close_link]. destruct (link_at a t' s') as [j|] eqn:E; [|discriminate]. destruct (Nat.eqb j i); [discriminate|]. intros [= ->]. auto.
Qed.
Lemma stable_frame a id t s m : stable a id t s -> stable (on_frame m a) id t s.
Proof.
  intros H. unfold on_frame. destruct (read_frame m) as [[h p]|]; [|exact H]. destruct (h_tei h =? 127).
  - destruct p as [|? [|? [|? [|mt [|ai p]]]]]; try exact H. destruct (mt =? 1); [now apply stable_assign|exact H].
  - destruct (assigned a (h_tei h)); [|exact H]. destruct (link_at a (h_tei h) (h_sapi h)); [exact H|now apply stable_open].
Qed.
Lemma stable_start a id t s t1 s1 : stable a id t s -> stable (on_start t1 s1 a) id t s.
Proof. intros H. unfold on_start. destruct (link_at a t1 s1); [exact H|]. now apply stable_open, stable_assign. Qed.

(** *** one step *)
Definition grows (a b : table) : Prop := forall id t s, stable a id t s -> stable b id t s.
Lemma SI_lapd x L a l b es : SI x L a -> refines l b -> grows a b -> (forall t s id, link_at b t s = Some id -> 0 <= t < 128 /\ 0 <= s < 64) ->
  (forall e, In e es -> match e with Sent _ _ _ _ | Down _ _ _ _ => False | Air f => octets f /\ exists h p, read_frame f = Some (h, p) /\ (h_tei h = 127 \/ (data_ctrl (h_ctrl h) -> exists k, In (Sent k (h_tei h) (h_sapi h) p) (log x)))
     | Up id c p => carries c -> exists t s k, stable b id t s /\ In (Sent k t s p) L | Deliver k t s m => exists k', In (Sent k' t s m) L | _ => True end) ->
  SI (say (set_li x l) es) L b.
Proof.
  intros [] R G RG ES. constructor; cbn [say set_li li ts next log]; auto.
  - intros k m I J. destruct (si_q0 k m I J) as (k' & H). exists k'. apply in_app_iff. auto.
  - intros t s m id I. apply in_app_iff in I as [I|I]; [|exact (match ES _ I with end)]. destruct (si_down0 t s m id I) as (S & k & H). split; [auto|]. exists k. apply in_app_iff. auto.
  - intros f I. apply in_app_iff in I as [I|I].
    + destruct (si_wire0 f I) as (O & h & p & E & H); split; auto; exists h, p; split; auto. destruct H as [H|H]; [now left|]. right. intros D. destruct (H D) as (k & K). exists k. apply in_app_iff. auto.
    + destruct (ES _ I) as (O & h & p & E & H); split; auto; exists h, p; split; auto. destruct H as [H|H]; [now left|]. right. intros D. destruct (H D) as (k & K). exists k. apply in_app_iff. auto.
  - intros id c p I C. apply in_app_iff in I as [I|I]; [|exact (ES _ I C)]. destruct (si_up0 id c p I C) as (t & s & k & S & H). exists t, s, k. auto.
  - intros k t s m I. apply in_app_iff in I as [I|I]; [|exact (ES _ I)]. eauto.
Qed.
(** the timeslot changes; nothing about LAPD *)
Lemma SI_ts x L a u n es : SI x L a -> E1Model.t_type u = E1Model.TS_SIGN -> E1Model.t_timer u <> E1Model.TGarbage -> (next x <= n)%nat ->
  NoDup (map E1Model.lk_id (E1Model.t_links u)) -> (forall l, In l (E1Model.t_links u) -> (E1Model.lk_id l < n)%nat) ->
  (forall l m, In l (E1Model.t_links u) -> In m (E1Model.lk_q l) -> exists k, In (Sent k (E1Model.lk_tei l) (E1Model.lk_sapi l) m) (log x ++ es)) ->
  (forall e, In e es -> match e with Air _ | Up _ _ _ | Deliver _ _ _ _ => False | Down t s m (Some id) => stable a id t s /\ exists k, In (Sent k t s m) (log x) | _ => True end) ->
  SI (mkSide u (li x) n (handler x) (log x ++ es)) L a.
Proof.
  intros [] T M N ND LT Q ES. constructor; cbn [li ts next log]; auto.
  - intros t s m id I. apply in_app_iff in I as [I|I].
    + destruct (si_down0 t s m id I) as (S & k & H). split; [auto|]. exists k. apply in_app_iff. auto.
    + destruct (ES _ I) as (S & k & H). split; [auto|]. exists k. apply in_app_iff. auto.
  - intros f I. apply in_app_iff in I as [I|I]; [|exact (match ES _ I with end)].
    destruct (si_wire0 f I) as (O & h & p & E & H); split; auto; exists h, p; split; auto. destruct H as [H|H]; [now left|]. right. intros D. destruct (H D) as (k & K). exists k. apply in_app_iff. auto.
  - intros id c p I C. apply in_app_iff in I as [I|I]; [eauto|exact (match ES _ I with end)].
  - intros k t s m I. apply in_app_iff in I as [I|I]; [eauto|exact (match ES _ I with end)].
Qed.
Lemma say_eq x u n es : say (mkSide u (li x) n (handler x) (log x)) es = mkSide u (li x) n (handler x) (log x ++ es).
Proof. reflexivity. Qed.
Lemma lookup_in_links t tei sapi l : E1Model.e1inp_lookup_sign_link t tei sapi = Some l -> In l (E1Model.t_links t) /\ E1Model.lk_tei l = tei /\ E1Model.lk_sapi l = sapi.
Proof. unfold E1Model.e1inp_lookup_sign_link. intros H. apply find_some in H as [I H]. apply andb_true_iff in H as [A B]. split; [easy|]. split; [now apply Z.eqb_eq|now apply Z.eqb_eq]. Qed.
Lemma event_total t g tei sapi : E1Model.t_type t = E1Model.TS_SIGN -> exists es, event t g tei sapi = Some es /\
  match E1Model.e1inp_lookup_sign_link t tei sapi with None => es = [] | Some l => es = [Signal g (E1Model.lk_id l) (E1Model.lk_type l) (E1Model.lk_tei l) (E1Model.lk_sapi l)] end.
Proof. intros T. unfold event. rewrite T. destruct (E1Model.e1inp_lookup_sign_link t tei sapi); eauto. Qed.

Lemma start_rng a t s : (forall t s id, link_at a t s = Some id -> 0 <= t < 128 /\ 0 <= s < 64) -> 0 <= t < 128 -> 0 <= s < 64 ->
  forall t' s' id, link_at (on_start t s a) t' s' = Some id -> 0 <= t' < 128 /\ 0 <= s' < 64.
Proof.
  intros G T S t' s' id. unfold on_start. destruct (link_at a t s); [apply G|]. cbn [link_at open_link assign].
  destruct (Z.eqb_spec t' t) as [->|], (Z.eqb_spec s' s) as [->|]; cbn [andb]; try apply G; auto.
Qed.
Lemma frame_rng a m : octets m -> (forall t s id, link_at a t s = Some id -> 0 <= t < 128 /\ 0 <= s < 64) ->
  forall t' s' id, link_at (on_frame m a) t' s' = Some id -> 0 <= t' < 128 /\ 0 <= s' < 64.
Proof.
  intros O G t' s' id. unfold on_frame. destruct (read_frame m) as [[h p]|] eqn:E; [|apply G]. destruct (read_frame_ok m h p O E) as [(A & _ & B & _) _]. destruct (h_tei h =? 127).
  - destruct p as [|? [|? [|? [|mt [|ai p]]]]]; try apply G. destruct (mt =? 1); apply G.
  - destruct (assigned a (h_tei h)); [|apply G]. destruct (link_at a (h_tei h) (h_sapi h)); [apply G|]. cbn [link_at open_link].
    destruct (Z.eqb_spec t' (h_tei h)) as [->|], (Z.eqb_spec s' (h_sapi h)) as [->|]; cbn [andb]; try apply G; auto.
Qed.
Lemma close_rng a i : (forall t s id, link_at a t s = Some id -> 0 <= t < 128 /\ 0 <= s < 64) -> forall t' s' id, link_at (close_link i a) t' s' = Some id -> 0 <= t' < 128 /\ 0 <= s' < 64.
Proof. intros G t' s' id. cbn [link_at close_link]. destruct (link_at a t' s') as [j|] eqn:E; [|discriminate]. intros _. eauto. Qed.
Lemma identity_read t : 0 <= t < 128 -> octets (identity_assigned t) /\ exists h p, read_frame (identity_assigned t) = Some (h, p) /\ h_tei h = 127.
Proof.
  intros T. unfold identity_assigned. assert (O : hdr_ok (mkHdr 63 1 127 (CU 0 0))) by (unfold hdr_ok, ctrl_ok; cbn; lia). split.
  - apply q921_octets; [exact O|]. repeat constructor; unfold octet; lia.
  - eexists _, _. split; [apply read_frame_q921, O|]. reflexivity.
Qed.
(** the octets read by e1inp_rx_ts_lapd are the address *)
Lemma address_read m h p : octets m -> read_frame m = Some (h, p) ->
  Z.shiftr (nth 0 m 0) 2 = h_sapi h /\ (if Z.land (nth 0 m 0) 1 =? 0 then Z.shiftr (nth 1 m 0) 1 else 0) = h_tei h.
Proof.
  intros O E. destruct m as [|a r]; [discriminate|]. cbn [nth]. cbn [read_frame] in E. pose proof (Forall_inv O) as Oa. unfold octet in Oa.
  rewrite Z.shiftr_div_pow2 by lia. change (2^2) with 4. assert (P : (Z.land a 1 =? 0) = negb (Z.odd a)).
  { change 1 with (Z.ones 1). rewrite Z.land_ones by lia. change (2^1) with 2. rewrite Zmod_odd. now destruct (Z.odd a). }
  rewrite P. destruct (Z.odd a); cbn [negb].
  - destruct (read_ctrl r) as [[c q]|]; [|discriminate]. injection E as <- <-. auto.
  - destruct r as [|b r]; [discriminate|]. destruct (read_ctrl r) as [[c q]|]; [|discriminate]. injection E as <- <-. cbn [h_sapi h_tei nth]. rewrite Z.shiftr_div_pow2 by lia. auto.
Qed.
Lemma dequeue_in ls l m ls' : E1Model.dequeue ls = Some (l, m, ls') -> In l ls /\ In m (E1Model.lk_q l) /\ map E1Model.lk_id ls' = map E1Model.lk_id ls /\
  (forall l1 m1, In l1 ls' -> In m1 (E1Model.lk_q l1) -> exists l0, In l0 ls /\ In m1 (E1Model.lk_q l0) /\ E1Model.lk_tei l0 = E1Model.lk_tei l1 /\ E1Model.lk_sapi l0 = E1Model.lk_sapi l1).
Proof.
  revert l m ls'. induction ls as [|c r IH]; intros l m ls' H; [discriminate|]. cbn [E1Model.dequeue] in H. destruct (E1Model.lk_q c) as [|m0 q] eqn:Q.
  - destruct (E1Model.dequeue r) as [[[l1 m1] r']|] eqn:D; [|discriminate]. injection H as <- <- <-. destruct (IH _ _ _ eq_refl) as (A & B & C & F). split; [now right|]. split; [exact B|]. split; [cbn [map]; congruence|].
    intros l0 m0 [<-|I] J; [rewrite Q in J; destruct J|]. destruct (F l0 m0 I J) as (l2 & P). exists l2. cbn [In]. tauto.
  - injection H as <- <- <-. split; [now left|]. split; [rewrite Q; now left|]. split; [reflexivity|]. intros l0 m1 [<-|I] J.
    + exists c. cbn in J |- *. rewrite Q. cbn. tauto.
    + exists l0. cbn [In]. tauto.
Qed.
Lemma find_link_some x k : has_link x k -> exists l, find_link x k = Some l /\ In l (E1Model.t_links (ts x)) /\ E1Model.lk_id l = k.
Proof.
  intros (l & I & K). unfold find_link. destruct (find _ _) as [l'|] eqn:F.
  - exists l'. apply find_some in F as [F1 F2]. apply Nat.eqb_eq in F2. auto.
  - exfalso. apply (find_none _ _ F) in I. rewrite K, Nat.eqb_refl in I. discriminate.
Qed.
Lemma nodup_filter {A} (f : A -> nat) g (l : list A) : NoDup (map f l) -> NoDup (map f (filter g l)).
Proof.
  induction l as [|c l IH]; [auto|]. cbn [map filter]. intros H. apply NoDup_cons_iff in H as [H1 H2]. destruct (g c); [|auto]. cbn [map]. constructor; [|auto].
  intros I. apply H1. apply in_map_iff in I as (z & Z1 & Z2). apply filter_In in Z2 as [Z2 _]. apply in_map_iff. eauto.
Qed.
Lemma nodup_id_eq (l : list E1Model.link) p q : NoDup (map E1Model.lk_id l) -> In p l -> In q l -> E1Model.lk_id p = E1Model.lk_id q -> p = q.
Proof.
  induction l as [|c l IH]; [intros _ []|]. cbn [map]. intros H P Q. apply NoDup_cons_iff in H as [H1 H2]. destruct P as [<-|P], Q as [<-|Q]; intros K; auto.
  - exfalso. apply H1. rewrite K. now apply in_map.
  - exfalso. apply H1. rewrite <- K. now apply in_map.
Qed.
Lemma q921_read short h p : hdr_ok h -> exists h' p', read_frame (q921 short h p) = Some (h', p') /\ h' = h /\ p' = p.
Proof. intros H. exists h, p. split; [now apply read_frame_q921|auto]. Qed.

Definition advance (x : side) (L : list eff) (e : ev) : Prop := exists x' a', SigModel.step x e = Some x' /\ SI x' L a' /\ incl (log x) (log x').
Lemma incl_log {A} (l r : list A) : incl l (l ++ r).
Proof. intros z I. apply in_or_app. auto. Qed.
Section OneStep.
Variables (x : side) (L : list eff) (a : table).
Hypothesis S : SI x L a.
Lemma adv_link ty t s : advance x L (Link ty t s).
Proof.
  unfold advance. cbn [SigModel.step]. unfold E1Model.ts_link_create. pose proof S as S'. destruct S'. rewrite si_ty0. eexists _, a. split; [reflexivity|]. split; [|cbn [log]; apply incl_refl].
  rewrite <- (app_nil_r (log x)). unfold say, set_li, set_ts; cbn [ts li next handler log]; apply (SI_ts x L a); cbn [E1Model.t_type E1Model.t_timer E1Model.t_links]; auto.
  - rewrite map_app. cbn [map E1Model.lk_id]. apply NoDup_Add with (a := next x) (l := map E1Model.lk_id (E1Model.t_links (ts x))); [rewrite <- (app_nil_r (map _ _)) at 1; apply Add_app|]. split; [exact si_nd0|]. intros I. apply in_map_iff in I as (l & K & I). specialize (si_lt0 l I). lia.
  - intros l I. apply in_app_iff in I as [I|[<-|[]]]; [specialize (si_lt0 l I); lia|cbn; lia].
  - intros l m I J. rewrite app_nil_r. apply in_app_iff in I as [I|[<-|[]]]; [eauto|destruct J].
  - intros e [].
Qed.
Lemma adv_unlink k : has_link x k -> advance x L (Unlink k).
Proof.
  intros H. destruct (find_link_some x k H) as (l & F & I & K). unfold advance. cbn [SigModel.step]. unfold E1Model.ts_link_destroy. unfold find_link in F. rewrite F. pose proof S as S'. destruct S'. rewrite si_ty0.
  assert (D : exists tm, E1Model.osmo_timer_del (E1Model.t_timer (ts x)) = Some tm /\ tm <> E1Model.TGarbage) by (destruct (E1Model.t_timer (ts x)); [eexists; split; [reflexivity|discriminate]..|congruence]).
  destruct D as (tm & -> & Dt). cbn [fst snd]. eexists _, a. split; [reflexivity|]. split; [|apply incl_log].
  unfold say, set_li, set_ts; cbn [ts li next handler log]; apply (SI_ts x L a); cbn [E1Model.t_type E1Model.t_timer E1Model.t_links]; auto.
  - now apply nodup_filter.
  - intros l0 J. apply filter_In in J as [J _]. auto.
  - intros l0 m J M. apply filter_In in J as [J _]. destruct (si_q0 l0 m J M) as (k' & G). exists k'. apply in_or_app. auto.
  - intros e J. apply in_map_iff in J as (m & <- & _). exact Logic.I.
Qed.
Lemma adv_send k m : has_link x k -> advance x L (Send k m).
Proof.
  intros H. destruct (find_link_some x k H) as (l & F & I & K). unfold advance. cbn [SigModel.step]. rewrite F. pose proof S as S'. destruct S'.
  eexists _, a. split; [reflexivity|]. split; [|apply incl_log]. unfold E1Model.ts_send.
  assert (MI : forall f, (forall z, E1Model.lk_id (f z) = E1Model.lk_id z) -> map E1Model.lk_id (map f (E1Model.t_links (ts x))) = map E1Model.lk_id (E1Model.t_links (ts x))) by (intros f Hf; rewrite map_map; apply map_ext, Hf).
  unfold say, set_li, set_ts; cbn [ts li next handler log]; apply (SI_ts x L a); cbn [E1Model.t_type E1Model.t_timer E1Model.t_links]; auto.
  - rewrite MI; [exact si_nd0|]. intros z. now destruct (Nat.eqb _ _).
  - intros l0 J. apply in_map_iff in J as (z & <- & J). destruct (Nat.eqb _ _); cbn [E1Model.lk_id]; auto.
  - intros l0 m0 J M. apply in_map_iff in J as (z & <- & J). destruct (Nat.eqb_spec (E1Model.lk_id z) k) as [Ez|].
    + cbn [E1Model.lk_q E1Model.lk_tei E1Model.lk_sapi] in *. apply in_app_iff in M as [M|[<-|[]]].
      * destruct (si_q0 z m0 J M) as (k' & G). exists k'. apply in_or_app. auto.
      * exists k. assert (z = l) as -> by (apply (nodup_id_eq (E1Model.t_links (ts x))); congruence). apply in_or_app. right. now left.
    + destruct (si_q0 z m0 J M) as (k' & G). exists k'. apply in_or_app. auto.
  - intros e [<-|[]]. exact Logic.I.
Qed.
Lemma adv_config : advance x L (Config E1Model.TS_SIGN).
Proof.
  unfold advance. cbn [SigModel.step]. unfold E1Model.e1inp_ts_config. pose proof S as S'. destruct S'. rewrite si_ty0. cbn [E1Model.type_eqb]. eexists _, a. split; [reflexivity|]. split; [|apply incl_log].
  unfold say, set_li, set_ts; cbn [ts li next handler log]; apply (SI_ts x L a); auto. { intros l m I J. destruct (si_q0 l m I J) as (k & G). exists k. now rewrite app_nil_r. } intros e [].
Qed.
Lemma adv_timer : advance x L Timer.
Proof.
  unfold advance. cbn [SigModel.step]. unfold E1Model.ts_timeout. pose proof S as S'. destruct S'. eexists _, a. split; [reflexivity|]. split; [|apply incl_refl].
  unfold set_ts. rewrite <- (app_nil_r (log x)).
  destruct (E1Model.t_timer (ts x)) eqn:E; (unfold say, set_li, set_ts; cbn [ts li next handler log]; apply (SI_ts x L a); cbn [E1Model.t_type E1Model.t_timer E1Model.t_links]; auto; try congruence; try (intros l m I J; destruct (si_q0 l m I J) as (k & G); exists k; now rewrite app_nil_r); intros e []).
Qed.
Lemma adv_start t s : 0 <= t < 128 /\ 0 <= s < 64 -> advance x L (Start t s).
Proof.
  intros [T G]. unfold advance. cbn [SigModel.step]. destruct (start_refines (li x) a t s (si_ref _ _ _ S)) as (l & o & r & E & R & Q). rewrite E. unfold lapd. eexists _, (on_start t s a). split; [reflexivity|]. split; [|apply incl_log].
  apply (SI_lapd x L a); auto.
  - intros id t' s'. apply stable_start.
  - apply start_rng; [exact (si_rng _ _ _ S)|lia|lia].
  - unfold start_result in Q. destruct (link_at a t s); destruct Q as [-> _]; cbn; [intros e []|]. intros e [<-|[]]. exact Logic.I.
Qed.
Lemma adv_stop t s : advance x L (Stop t s).
Proof.
  unfold advance. cbn [SigModel.step]. destruct (stop_refines (li x) a t s (si_ref _ _ _ S)) as (o & r & E & Q). rewrite E. unfold lapd. eexists _, a. split; [reflexivity|]. split; [|apply incl_log].
  apply (SI_lapd x L a); auto; [exact (si_ref _ _ _ S)|intros id t' s' G; exact G|exact (si_rng _ _ _ S)|].
  unfold stop_result in Q. destruct (link_at a t s); destruct Q as [-> _]; cbn; [|intros e []]. intros e [<-|[]]. exact Logic.I.
Qed.
Lemma adv_writable : advance x L Writable.
Proof.
  unfold advance. cbn [SigModel.step]. unfold E1Model.ts_write_ready. pose proof S as S'. destruct S'.
  assert (SAME : forall u, E1Model.t_type u = E1Model.TS_SIGN -> E1Model.t_timer u = E1Model.t_timer (ts x) -> E1Model.t_links u = E1Model.t_links (ts x) -> SI (set_ts x u) L a).
  { intros u U1 U2 U3. unfold set_ts. rewrite <- (app_nil_r (log x)). unfold say, set_li, set_ts; cbn [ts li next handler log]; apply (SI_ts x L a); rewrite ?U2, ?U3; auto; [|intros e []]. intros l m I J. destruct (si_q0 l m I J) as (k & G). exists k. now rewrite app_nil_r. }
  destruct (E1Model.t_wr (ts x)); cbn [negb].
  2:{ eexists _, a. split; [reflexivity|]. split; [now apply SAME|apply incl_refl]. }
  rewrite si_ty0. unfold E1Model.e1inp_tx_ts. cbn [E1Model.t_type E1Model.t_links]. rewrite ?si_ty0. destruct (E1Model.dequeue (E1Model.t_links (ts x))) as [[[l m] ls]|] eqn:D.
  2:{ eexists _, a. split; [reflexivity|]. split; [|apply incl_refl]. now apply SAME. }
  destruct (dequeue_in _ _ _ _ D) as (I & J & M & F). cbn [E1Model.t_timer].
  assert (T : exists tm, E1Model.osmo_timer_schedule (E1Model.t_timer (ts x)) = Some tm /\ tm <> E1Model.TGarbage) by (unfold E1Model.osmo_timer_schedule; destruct (E1Model.t_timer (ts x)); [eexists; split; [reflexivity|discriminate]..|congruence]).
  destruct T as (tm & -> & Dt). destruct (transmit_refines (li x) a (E1Model.lk_tei l) (E1Model.lk_sapi l) m si_ref0) as (o & r & E & Q). rewrite E. destruct Q as [-> Q].
  eexists _, a. split; [reflexivity|]. split; [|apply incl_log]. unfold say, set_li, set_ts; cbn [ts li next handler log]; apply (SI_ts x L a); cbn [E1Model.t_type E1Model.t_timer E1Model.t_links]; auto.
  - now rewrite M.
  - intros l0 H. assert (HI : In (E1Model.lk_id l0) (map E1Model.lk_id ls)) by now apply in_map. rewrite M in HI. apply in_map_iff in HI as (z & <- & HI). auto.
  - intros l0 m0 H0 H1. destruct (F l0 m0 H0 H1) as (l1 & A & B & <- & <-). destruct (si_q0 l1 m0 A B) as (k & G). exists k. apply in_or_app. auto.
  - intros e [<-|[]]. destruct (link_at a (E1Model.lk_tei l) (E1Model.lk_sapi l)) as [id|] eqn:K; subst o; cbn; [|exact Logic.I].
    split; [now apply (link_stable (li x) a)|]. now apply si_q0.
Qed.
Lemma adv_frame m : wire_ok L -> In (Air m) L -> advance x L (Frame m).
Proof.
  intros W I. destruct (W m I) as (O & h & p & RF & WH). unfold advance. cbn [SigModel.step]. unfold rx_ts_lapd. destruct (address_read m h p O RF) as [-> ->].
  destruct (receive_refines (li x) a m O (si_ref _ _ _ S)) as (l & o & r & E & R & Q). rewrite E.
  set (x1 := say (set_li x l) (flat_map see o)).
  assert (S1 : SI x1 L (on_frame m a)).
  { apply (SI_lapd x L a); auto; [intros id t s; apply stable_frame|apply frame_rng; [exact O|exact (si_rng _ _ _ S)]|].
    unfold received in Q. rewrite RF in Q. destruct (Z.eqb_spec (h_tei h) 127) as [T|T].
    - assert (QO : o = [MsgFreed] \/ exists ai, 0 <= ai < 256 /\ o = [TxFrame (identity_assigned (ai / 2)); MsgFreed]).
      { destruct (read_frame_ok m h p O RF) as [_ Op]. destruct p as [|d0 [|d1 [|d2 [|mt [|ai p]]]]]; try (left; exact (proj1 Q)). destruct Q as [_ ->]. destruct (mt =? 1); [right|now left]. exists ai. split; [|reflexivity].
        unfold octets in Op. rewrite Forall_forall in Op. apply (Op ai). cbn. auto 6. }
      destruct QO as [-> | (ai & A & ->)]; cbn; [intros e []|]. intros e [<-|[]]. destruct (identity_read (ai / 2) ltac:(Z.div_mod_to_equations; lia)) as (O1 & h1 & p1 & E1 & E2). split; [exact O1|]. exists h1, p1. auto.
    - destruct (assigned a (h_tei h)); [|destruct Q as [-> _]; cbn; intros e []]. destruct Q as (id & c & LK & C & Q). destruct (_ <? _); destruct Q as [-> _]; cbn; [intros e []|]. intros e [<-|[]] CA.
      destruct WH as [WH|WH]; [congruence|]. destruct WH as (k & K).
      { destruct C as (_ & _ & _ & C). unfold carries in CA. destruct (h_ctrl h); cbn [data_ctrl]; [exact Logic.I|destruct C as [C _]; rewrite C in CA; destruct CA as [CA|[CA _]]; discriminate CA|].
        destruct C as (C1 & C2 & _). rewrite C1, C2 in CA. destruct CA as [CA|[_ CA]]; [discriminate CA|exact CA]. }
      exists (h_tei h), (h_sapi h), k. split; [|exact K]. now apply (link_stable l). }
  assert (SAY : forall es, (forall e, In e es -> match e with Signal _ _ _ _ _ | Ret _ => True | _ => False end) -> SI (say x1 es) L (on_frame m a)).
  { intros es H. replace (say x1 es) with (say (set_li x1 (li x1)) es) by reflexivity. apply (SI_lapd x1 L (on_frame m a)); auto; [intros id t s G; exact G|apply frame_rng; [exact O|exact (si_rng _ _ _ S)]|].
    intros e J. specialize (H e J). destruct e; tauto. }
  assert (INC : forall es, incl (log x) (log (say x1 es))). { intros es z Iz. unfold x1, say, set_li. cbn [log]. apply in_or_app. left. apply in_or_app. now left. }
  assert (T1 : E1Model.t_type (ts x1) = E1Model.TS_SIGN) by exact (si_ty _ _ _ S).
  destruct (event_total (ts x1) TEI_UNKNOWN (h_tei h) (h_sapi h) T1) as (es & EV & ES).
  assert (OK : exists es', match r with Rc z ERR_UNKNOWN_TEI => if z <? 0 then do es <- event (ts x1) TEI_UNKNOWN (h_tei h) (h_sapi h); Some (say x1 (es ++ [Ret (-5)])) else Some (say x1 [Ret 0]) | _ => Some (say x1 [Ret 0]) end = Some (say x1 es') /\
     forall e, In e es' -> match e with Signal _ _ _ _ _ | Ret _ => True | _ => False end).
  { rewrite EV. assert (Z0 : forall e, In e [Ret 0] -> match e with Signal _ _ _ _ _ | Ret _ => True | _ => False end) by (intros e [<-|[]]; exact Logic.I).
    assert (Z1 : forall e, In e (es ++ [Ret (-5)]) -> match e with Signal _ _ _ _ _ | Ret _ => True | _ => False end).
    { intros e J. apply in_app_iff in J as [J|[<-|[]]]; [|exact Logic.I]. destruct (E1Model.e1inp_lookup_sign_link _ _ _); subst es; [|destruct J]. destruct J as [<-|[]]. exact Logic.I. }
    destruct r as [z [] | |]; try (eexists; split; [reflexivity|exact Z0]). destruct (z <? 0); eexists; (split; [reflexivity|assumption]). }
  destruct OK as (es' & OK1 & OK2). eexists _, _. split; [exact OK1|]. split; [now apply SAY|apply INC].
Qed.
Lemma adv_coretx id c hr m : core_law x (SigModel.CoreTx id c hr m) -> advance x L (SigModel.CoreTx id c hr m).
Proof.
  cbn [core_law]. intros (HR & O & h & C & CR & CO & SV & K). unfold advance. cbn [SigModel.step]. apply (serves_link x a) in SV; [|exact (si_ref _ _ _ S)].
  unfold send_ph_data_req. destruct (live_by_id _ a id _ _ (si_ref _ _ _ S) SV) as [y ->]. destruct (si_rng _ _ _ S _ _ _ SV) as [T G].
  assert (HO : hdr_ok h) by (unfold hdr_ok; tauto). rewrite (encode_frame_q921 _ c h hr m C HO HR). unfold lapd. eexists _, a. split; [reflexivity|]. split; [|apply incl_log].
  apply (SI_lapd x L a); auto; [exact (si_ref _ _ _ S)|intros i t' s' Z; exact Z|exact (si_rng _ _ _ S)|].
  cbn. intros e [<-|[]]. split; [now apply q921_octets|]. exists h, m. split; [now apply read_frame_q921|]. right. destruct (h_ctrl h); cbn [data_ctrl]; intros D; [|destruct D|congruence].
  destruct K as (t & s & K). destruct (si_down _ _ _ S t s m id K) as [[_ ST] SE]. destruct (ST _ _ SV) as [-> ->]. exact SE.
Qed.
Lemma adv_coredl id p ind t s m : core_law x (SigModel.CoreDl id p ind t s m) -> advance x L (SigModel.CoreDl id p ind t s m).
Proof.
  cbn [core_law]. intros (SV & K). unfold advance. cbn [SigModel.step]. apply (serves_link x a) in SV; [|exact (si_ref _ _ _ S)].
  unfold send_dlsap. destruct (live_by_id _ a id _ _ (si_ref _ _ _ S) SV) as [y ->].
  assert (EV : forall g l b, refines l b -> grows a b -> (forall t s id, link_at b t s = Some id -> 0 <= t < 128 /\ 0 <= s < 64) -> exists x' a', (do es <- event (ts x) g t s; Some (say (set_li x l) es)) = Some x' /\ SI x' L a' /\ incl (log x) (log x')).
  { intros g l b R G RG. destruct (event_total (ts x) g t s (si_ty _ _ _ S)) as (es & -> & ES). eexists _, b. split; [reflexivity|]. split; [|apply incl_log]. apply (SI_lapd x L a); auto.
    destruct (E1Model.e1inp_lookup_sign_link _ _ _); subst es; [|intros e []]. intros e [<-|[]]. exact Logic.I. }
  assert (NO : grows a a) by (intros i t' s' Z; exact Z).
  destruct p; cbn [dlsap_up].
  - apply (EV _ _ a); [exact (si_ref _ _ _ S)|exact NO|exact (si_rng _ _ _ S)].
  - apply (EV _ _ (close_link id a)); [apply sap_free_refines, (si_ref _ _ _ S)|intros i t' s'; apply stable_close|apply close_rng, (si_rng _ _ _ S)].
  - eexists _, a. split; [reflexivity|]. split; [|apply incl_log]. apply (SI_lapd x L a); auto; [exact (si_ref _ _ _ S)|exact (si_rng _ _ _ S)|].
    destruct ind; [|intros e []]. unfold rx_ts. unfold E1Model.e1inp_rx_ts. rewrite (si_ty _ _ _ S). destruct (E1Model.e1inp_lookup_sign_link (ts x) t s) as [l|] eqn:F.
    + destruct (lookup_in_links _ _ _ _ F) as (I & <- & <-). destruct (handler x); [|intros e [<-|[]]; exact Logic.I]. intros e [<-|[]].
      destruct (K eq_refl eq_refl) as (c & U & CA). destruct (si_up _ _ _ S id c m U CA) as (t' & s' & k & [_ ST] & SE). destruct (ST _ _ SV) as [-> ->]. eauto.
    + intros e [<-|[]]. exact Logic.I.
  - eexists _, a. split; [reflexivity|]. split; [|apply incl_log]. apply (SI_lapd x L a); auto; [exact (si_ref _ _ _ S)|exact (si_rng _ _ _ S)|intros e []].
Qed.
Lemma adv_any e : wire_ok L -> app_law 128 x e -> (forall m, e = Frame m -> In (Air m) L) -> core_law x e -> advance x L e.
Proof.
  intros W A LN C. destruct e; cbn [app_law core_law] in *.
  - apply adv_link.
  - now apply adv_unlink.
  - now apply adv_send.
  - subst. apply adv_config.
  - now apply adv_start.
  - apply adv_stop.
  - apply adv_writable.
  - apply adv_timer.
  - apply adv_frame; auto.
  - apply adv_coretx. exact C.
  - apply adv_coredl. exact C.
Qed.
End OneStep.

(** *** both ends *)
Definition Sys (y : sys) : Prop := forall w, exists a, SI (this w y) (log (this (negb w) y)) a.
Lemma in_wire x m : In m (wire x) <-> In (Air m) (log x).
Proof.
  unfold wire. rewrite in_flat_map. split.
  - intros (e & I & J). destruct e; try (destruct J; fail). destruct J as [<-|[]]. exact I.
  - intros I. exists (Air m). split; [exact I|now left].
Qed.
Lemma SI0 n p L : length (pk p) = 64%nat -> SI (side0 n p) L (empty_table (pn201 p)).
Proof.
  intros H. constructor; cbn; try (intros; contradiction); try congruence; [now apply alloc2_refines|constructor|intros f []].
Qed.
Lemma sys_advance y w e : Sys y -> lawful 128 y w e -> exists y', sys_step y w e = Some y' /\ Sys y' /\ incl (log (near y)) (log (near y')) /\ incl (log (far y)) (log (far y')).
Proof.
  intros I (A & LN & C). destruct (I w) as (a & SA). destruct (I (negb w)) as (b & SB). rewrite negb_involutive in SB.
  destruct (adv_any (this w y) _ a SA e (si_wire _ _ _ SB) A) as (x' & a' & E & S' & INC); [|exact C|].
  { intros m ->. cbn [line_law] in LN. now apply in_wire. }
  unfold sys_step. rewrite E. eexists. split; [reflexivity|]. destruct w; cbn [this negb] in *.
  - split; [|split; [apply incl_refl|exact INC]]. intros [|]; cbn [this negb near far]; [exists a'; exact S'|exists b]. now apply (SI_mono _ (log (far y))).
  - split; [|split; [exact INC|apply incl_refl]]. intros [|]; cbn [this negb near far]; [exists b|exists a'; exact S']. now apply (SI_mono _ (log (near y))).
Qed.
Lemma hist_sys y : hist 128 y -> Sys y.
Proof.
  induction 1 as [n p n' p' H H'|y w e y' H IH LW E].
  - intros [|]; cbn [this negb near far]; eexists; now apply SI0.
  - destruct (sys_advance y w e IH LW) as (y2 & E2 & S2 & _). rewrite E in E2. injection E2 as <-. exact S2.
Qed.
