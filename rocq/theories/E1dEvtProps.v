(** C76: line events of osmo-e1d. *)
From Coq Require Import List Arith Lia Bool ZArith.
From Verif Require Import Base E1dEvtModel.
Import ListNotations.
Open Scope Z_scope.

(** ** specification *)
(** the alarms of a line: loss of signal, AIS, RAI, loss of frame; and the Sa bits last seen *)
Record alarms := mkAl { los : bool; ais : bool; rai : bool; lof : bool; sa : option Z }.
Definition quiet : alarms := mkAl false false false false None.
(** what an event of the daemon says *)
Definition after_event (a : alarms) (e : event) : alarms :=
  match e_what e with
  | LOS_ON => mkAl true (ais a) (rai a) (lof a) (sa a) | LOS_OFF => mkAl false (ais a) (rai a) (lof a) (sa a)
  | AIS_ON => mkAl (los a) true (rai a) (lof a) (sa a) | AIS_OFF => mkAl (los a) false (rai a) (lof a) (sa a)
  | RAI_ON => mkAl (los a) (ais a) true (lof a) (sa a) | RAI_OFF => mkAl (los a) (ais a) false (lof a) (sa a)
  | LOF_ON => mkAl (los a) (ais a) (rai a) true (sa a) | LOF_OFF => mkAl (los a) (ais a) (rai a) false (sa a)
  | SABITS => match e_data e with b :: _ => mkAl (los a) (ais a) (rai a) (lof a) (Some b) | [] => a end
  | OTHER_MSG _ => a
  end.
(** what a signal says to the application *)
Definition after_signal (a : alarms) (t : told) : alarms :=
  match t_sig t with
  | S_LOS => mkAl true (ais a) (rai a) (lof a) (sa a) | S_NOLOS => mkAl false (ais a) (rai a) (lof a) (sa a)
  | S_AIS => mkAl (los a) true (rai a) (lof a) (sa a) | S_NOAIS => mkAl (los a) false (rai a) (lof a) (sa a)
  | S_RAI => mkAl (los a) (ais a) true (lof a) (sa a) | S_NORAI => mkAl (los a) (ais a) false (lof a) (sa a)
  | S_LOF => mkAl (los a) (ais a) (rai a) true (sa a) | S_NOLOF => mkAl (los a) (ais a) (rai a) false (sa a)
  | S_SA => mkAl (los a) (ais a) (rai a) (lof a) (Some (t_sa t))
  end.
(** the daemon has at most 16 interfaces of 16 lines *)
Definition in_range (e : event) : Prop := 0 <= e_intf e < 16 /\ 0 <= e_line e < 16.
(** lines as configured: ports 0..255, no port twice (of any driver), lines have identities *)
Definition configured (ls : list line) : Prop :=
  NoDup (map ln_port ls) /\ NoDup (map ln_id ls) /\ Forall (fun l => 0 <= ln_port l < 256) ls.
(** the events of the line [l] of the daemon *)
Definition of_line (l : line) (e : event) : bool := (e_intf e =? fst (opened_at l)) && (e_line e =? snd (opened_at l)).

Lemma port_bits p : 0 <= p < 256 -> Z.land (Z.shiftr p 4) 15 mod 256 = p / 16 /\ Z.land p 15 mod 256 = p mod 16.
Proof.
  intros H. rewrite Z.shiftr_div_pow2 by lia. change 15 with (Z.ones 4). rewrite !Z.land_ones by lia. change (2 ^ 4) with 16. 
  assert (0 <= p / 16 < 16) by (split; [apply Z.div_pos; lia | apply Z.div_lt_upper_bound; lia]). assert (0 <= p mod 16 < 16) by (apply Z.mod_pos_bound; lia).
  rewrite (Z.mod_small (p / 16) 16) by lia. split; apply Z.mod_small; lia.
Qed.
Lemma port_of i n : 0 <= i < 16 -> 0 <= n < 16 -> Z.lor (Z.shiftl i 4) n mod 256 = i * 16 + n.
Proof.
  intros I N. rewrite Z.shiftl_mul_pow2 by lia. change (2 ^ 4) with 16. assert (E : Z.lor (i * 16) n = i * 16 + n).
  { rewrite <- Z.lxor_lor, <- Z.add_nocarry_lxor; try reflexivity; apply Z.bits_inj'; intros k K; rewrite Z.land_spec, Z.bits_0; change 16 with (2 ^ 4); rewrite Z.mul_pow2_bits by lia;
      (destruct (Z_lt_le_dec k 4); [rewrite (Z.testbit_neg_r i) by lia; reflexivity|]; rewrite (Z.bits_above_log2 n k); [apply andb_false_r|lia|];
       destruct (Z.eq_dec n 0) as [->|]; [cbn; lia|]; assert (Z.log2 n < 4) by (apply Z.log2_lt_pow2; [lia|change (2 ^ 4) with 16; lia]); lia). }
  rewrite E. apply Z.mod_small. lia.
Qed.
Lemma of_line_port l e : 0 <= ln_port l < 256 -> in_range e -> of_line l e = (ln_port l =? e_intf e * 16 + e_line e).
Proof.
  intros P [I N]. unfold of_line, opened_at. cbn [fst snd]. destruct (port_bits (ln_port l) P) as [-> ->].
  destruct (Z.eqb_spec (e_intf e) (ln_port l / 16)), (Z.eqb_spec (e_line e) (ln_port l mod 16)), (Z.eqb_spec (ln_port l) (e_intf e * 16 + e_line e)); cbn; try reflexivity; exfalso; Z.div_mod_to_equations; lia.
Qed.
Lemma find_unique ls l p : NoDup (map ln_port ls) -> In l ls -> ln_port l = p -> e1inp_port_find ls p = Some l.
Proof.
  unfold e1inp_port_find. induction ls as [|c r IH]; [intros _ []|]. cbn [map find]. intros ND I P. apply NoDup_cons_iff in ND as [N ND]. destruct I as [<-|I].
  - now rewrite P, Z.eqb_refl.
  - destruct (Z.eqb_spec (ln_port c) p) as [E|E]; [exfalso; apply N; rewrite E, <- P; now apply in_map|auto].
Qed.

(** * one event: the line the driver opened at that interface and line number is told, once, what
    the event says; nobody else; no octet is read that is not there *)
Theorem C76_event : forall ls e, configured ls -> in_range e ->
  exists ts, e1d_client_event_cb ls (e_what e) (e_intf e) (e_line e) (e_data e) (Z.of_nat (length (e_data e))) = Some ts /\ (length ts <= 1)%nat /\
    (forall t, In t ts -> exists l, In l ls /\ of_line l e = true /\ t_line t = ln_id l /\ forall a, after_signal a t = after_event a e) /\
    (ts = [] -> (forall l, In l ls -> of_line l e = false) \/ forall a, after_event a e = a).
Proof.
  intros ls e (ND & _ & RG) R. unfold e1d_client_event_cb. pose proof R as [RI RL]. rewrite (port_of _ _ RI RL). destruct (e1inp_port_find ls (e_intf e * 16 + e_line e)) as [l|] eqn:F.
  - unfold e1inp_port_find in F. apply find_some in F as [I P]. apply Z.eqb_eq in P. rewrite Forall_forall in RG. assert (OL : of_line l e = true) by (rewrite of_line_port by auto; now apply Z.eqb_eq).
    destruct (e_what e) eqn:W; try (eexists; split; [reflexivity|]; split; [cbn; lia|]; split; [intros t [<-|[]]; exists l; split; [exact I|]; split; [exact OL|]; split; [reflexivity|]; intros a; unfold after_signal, after_event; rewrite W; reflexivity|discriminate]).
    + destruct (e_data e) as [|b d] eqn:D.
      * cbn. eexists; split; [reflexivity|]. split; [cbn; lia|]. split; [intros t []|]. intros _. right. intros a. unfold after_event. now rewrite W, D.
      * destruct (Z.ltb_spec (Z.of_nat (length (b :: d))) 1) as [L|L]; [cbn in L; lia|]. cbn. eexists; split; [reflexivity|]. split; [cbn; lia|]. split; [|discriminate].
        intros t [<-|[]]. exists l. split; [exact I|]. split; [exact OL|]. split; [reflexivity|]. intros a. unfold after_signal, after_event. now rewrite W, D.
    + eexists; split; [reflexivity|]. split; [cbn; lia|]. split; [intros t []|]. intros _. right. intros a. unfold after_event. now rewrite W.
  - eexists; split; [reflexivity|]. split; [cbn; lia|]. split; [intros t []|]. intros _. left. intros l I. unfold e1inp_port_find in F. apply (find_none _ _ F) in I as P. rewrite Forall_forall in RG. now rewrite of_line_port by auto.
Qed.
Lemma id_line ls l l' : configured ls -> In l ls -> In l' ls -> ln_id l = ln_id l' -> l = l'.
Proof.
  intros (_ & ND & _). induction ls as [|c r IH]; [intros []|]. cbn [map] in ND. apply NoDup_cons_iff in ND as [N ND]. intros [<-|I] [<-|J] E; auto.
  - exfalso. apply N. rewrite E. now apply in_map.
  - exfalso. apply N. rewrite <- E. now apply in_map.
Qed.
Lemma port_line ls l l' : configured ls -> In l ls -> In l' ls -> ln_port l = ln_port l' -> l = l'.
Proof.
  intros (ND & _ & _). induction ls as [|c r IH]; [intros []|]. cbn [map] in ND. apply NoDup_cons_iff in ND as [N ND]. intros [<-|I] [<-|J] E; auto.
  - exfalso. apply N. rewrite E. now apply in_map.
  - exfalso. apply N. rewrite <- E. now apply in_map.
Qed.
(** * all histories: an application that follows the signals about a line knows exactly the alarms
    and Sa bits the daemon reported for the interface and line number this line is opened at *)
Theorem C76_alarms_known : forall ls es, configured ls -> Forall in_range es ->
  exists ts, events ls es = Some ts /\
    forall l, In l ls -> fold_left after_signal (filter (fun t => Nat.eqb (t_line t) (ln_id l)) ts) quiet = fold_left after_event (filter (of_line l) es) quiet.
Proof.
  intros ls es C R. generalize quiet. induction R as [|e es RE R IH]; intros a0; [exists []; split; [reflexivity|]; reflexivity|].
  destruct (C76_event ls e C RE) as (t1 & E1 & L1 & H1 & N1). cbn [events]. rewrite E1.
  assert (EV : exists ts, events ls es = Some ts) by (destruct (IH a0) as (ts & E & _); eauto). destruct EV as (ts & EV). rewrite EV. exists (t1 ++ ts). split; [reflexivity|].
  intros l I. rewrite filter_app, fold_left_app. cbn [filter]. destruct (IH (if of_line l e then after_event a0 e else a0)) as (ts' & E' & H). rewrite EV in E'. injection E' as <-.
  assert (F1 : fold_left after_signal (filter (fun t => Nat.eqb (t_line t) (ln_id l)) t1) a0 = if of_line l e then after_event a0 e else a0).
  { destruct t1 as [|t [|]]; [| |cbn in L1; lia].
    - cbn. destruct (N1 eq_refl) as [N|N]; [now rewrite N|]. destruct (of_line l e); [now rewrite N|reflexivity].
    - destruct (H1 t (or_introl eq_refl)) as (l' & I' & O' & T' & A'). cbn [filter]. destruct (Nat.eqb_spec (t_line t) (ln_id l)) as [Q|Q].
      + assert (l' = l) as -> by (apply (id_line ls); auto; congruence). rewrite O'. cbn. apply A'.
      + cbn. destruct (of_line l e) eqn:OL; [|reflexivity]. exfalso. apply Q. rewrite T'. destruct C as (C1 & C2 & C3). rewrite Forall_forall in C3. rewrite of_line_port in O', OL by auto. apply Z.eqb_eq in O', OL.
        f_equal. apply (port_line ls); [split; [auto|split; [auto|now apply Forall_forall]]| | |congruence]; auto. }
  rewrite F1. rewrite (H l I). destruct (of_line l e); reflexivity.
Qed.
(** * refuted: other drivers' lines have ports too (0 unless configured); the first line with the
    port is told, the line of osmo-e1d is not *)
Theorem C76_other_driver_refuted : exists ls l e, In l ls /\ ln_drv l = E1D /\ of_line l e = true /\ in_range e /\ NoDup (map ln_id ls) /\ Forall (fun l => 0 <= ln_port l < 256) ls /\
  (forall l', In l' ls -> ln_drv l' = E1D -> l' = l) /\
  exists t, e1d_client_event_cb ls (e_what e) (e_intf e) (e_line e) (e_data e) 0 = Some [t] /\ exists l', In l' ls /\ t_line t = ln_id l' /\ ln_drv l' = OTHER_DRIVER.
Proof.
  exists [mkLine 0 0 OTHER_DRIVER; mkLine 1 0 E1D], (mkLine 1 0 E1D), (mkEv LOS_ON 0 0 []). split; [cbn; auto|]. split; [reflexivity|]. split; [reflexivity|]. split; [unfold in_range; cbn; lia|].
  split; [repeat constructor; cbn; intuition discriminate|]. split; [repeat constructor; cbn; lia|]. split; [intros l' [<-|[<-|[]]] D; [discriminate D|reflexivity]|].
  eexists. split; [reflexivity|]. eexists. split; [left; reflexivity|]. split; reflexivity.
Qed.
(** * refuted: events of interface 17 are taken for events of interface 1, those of line 16 of
    interface 0 for line 0 of interface 1 *)
Theorem C76_range_refuted : exists ls l, configured ls /\ In l ls /\ opened_at l = (1, 0) /\
  e1d_client_event_cb ls LOS_ON 17 0 [] 0 = Some [mkTold S_LOS (ln_id l) 0] /\ e1d_client_event_cb ls LOS_ON 0 16 [] 0 = Some [mkTold S_LOS (ln_id l) 0].
Proof.
  exists [mkLine 0 16 E1D], (mkLine 0 16 E1D). split; [split; [repeat constructor; cbn; intuition discriminate|split; [repeat constructor; cbn; intuition discriminate|repeat constructor; cbn; lia]]|]. split; [now left|]. split; [reflexivity|]. split; reflexivity.
Qed.
(** * refuted: a line whose port (set by the application) is beyond 255 is opened at the interface
    and line number of its low eight bits, but never told of an event *)
Theorem C76_wide_port_refuted : forall p i, 256 <= p -> let l := mkLine i p E1D in
  (0 <= fst (opened_at l) < 16 /\ 0 <= snd (opened_at l) < 16) /\
  forall ev intf ln d len, e1d_client_event_cb [l] ev intf ln d len = Some [].
Proof.
  intros p i H l. split.
  - unfold opened_at. cbn [fst snd ln_port l]. change 15 with (Z.ones 4). rewrite !Z.land_ones by lia. change (2 ^ 4) with 16. pose proof (Z.mod_pos_bound (Z.shiftr p 4) 16). pose proof (Z.mod_pos_bound p 16). rewrite !(Z.mod_small _ 256) by lia. lia.
  - intros ev intf ln d len. unfold e1d_client_event_cb, e1inp_port_find, l. cbn [find ln_port]. pose proof (Z.mod_pos_bound (Z.lor (Z.shiftl intf 4) ln) 256). destruct (Z.eqb_spec p (Z.lor (Z.shiftl intf 4) ln mod 256)); [lia|reflexivity].
Qed.
Example C76_demo : let ls := [mkLine 0 0 E1D; mkLine 1 17 E1D; mkLine 2 3 OTHER_DRIVER] in configured ls /\
  let es := [mkEv LOS_ON 0 0 []; mkEv AIS_ON 1 1 []; mkEv SABITS 1 1 [171]; mkEv LOS_OFF 0 0 []; mkEv SABITS 1 1 []; mkEv RAI_ON 2 0 []; mkEv LOF_ON 0 0 []] in
  Forall in_range es /\ events ls es = Some [mkTold S_LOS 0 0; mkTold S_AIS 1 0; mkTold S_SA 1 171; mkTold S_NOLOS 0 0; mkTold S_LOF 0 0].
Proof.
  cbv zeta. split; [split; [repeat constructor; cbn; intuition discriminate|split; [repeat constructor; cbn; intuition discriminate|repeat constructor; cbn; lia]]|]. split; [repeat constructor; cbn; lia|reflexivity].
Qed.
