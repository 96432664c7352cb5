(** C89: a TRAU timeslot, and a call, across two lines of osmo-e1d, and across two mISDN lines;
    C58: what a TRAU timeslot of osmo-e1d sends. *)
From Coq Require Import List Arith Lia Bool ZArith.
From Verif Require Import DemuxSpec OldTrauProofs DemuxModel DemuxProofs DemuxProps MuxProofs MuxProps DemuxHealProps.
From Verif Require Import Base RtpSpec TrauSpec TrauModel RtpModel RtpProps SyncModel SyncSpec E2eSpec E2eProps E2eMuxProps E2eHealProps.
From Verif Require Import E1Model E1dModel E1dSpec E1dProofs E1dRunProofs E1dProps.
From Verif Require MisdnModel MisdnSpec MisdnProofs MisdnRunProofs MisdnProps MisdnDataProps.
Import ListNotations.
Local Open Scope nat_scope.

Definition octets (o : list Z) : Prop := Forall (fun b => 0 <= b < 256)%Z o.

(** ** osmo-e1d *)
(** a block read from a TRAU timeslot goes to the layers above, and the multiplexer's octets of
    this very moment are written to the timeslot's own descriptor, both with their bits reversed *)
Theorem C58_trau : forall d vs s l t o w s', run d st_init vs = Ok s -> e_reg (tsl s l t) = true -> e_type (tsl s l t) = TS_TRAU ->
  length o = 160 -> octets o -> octets (d_mux d (tick s)) -> (0 < d_write d (tick s))%Z ->
  step d s (Ready l t (Some (RdData o)) w []) = Ok s' ->
  exists f m o' e, In (DOpen l t m f) (out s) /\ out s' = out s ++ [DRx l t o'; DTrau l t f e (d_write d (tick s))] /\
    Forall2 reversed o o' /\ Forall2 reversed (d_mux d (tick s)) e /\ tsl s' = tsl s /\ tick s' = S (tick s).
Proof.
  intros d vs s l t o w s' R G TY LO OC MX WR E. apply reach_inv in R as I. destruct (conn_of_reg s l t I G) as (F & _).
  destruct (e_fd (tsl s l t)) as [f|] eqn:FD; [|rewrite (w_none s (i_w s I) l t FD) in G; discriminate].
  destruct (w_own s (i_w s I) l t f FD) as (m & OP).
  cbn [step] in E. rewrite G in E. unfold fd_cb in E. rewrite F, TY in E. unfold trau_read in E.
  assert (NE : exists a r, o = a :: r) by (destruct o as [|a r]; [discriminate LO|eauto]). destruct NE as (a & r & EO). rewrite EO in E. rewrite <- EO in E.
  unfold GRAN in E. cbv zeta in E. rewrite firstn_all2 in E by lia. rewrite LO in E. cbn [Nat.eqb negb execs] in E.
  unfold trau_write in E. cbn [emit tsl tick out next] in E. rewrite FD in E. cbv zeta in E.
  destruct (Z.leb_spec (d_write d (tick s)) 0) as [L|L]; [lia|]. injection E as <-.
  exists f, m, (map rev8 o), (map rev8 (d_mux d (tick s))). split; [exact OP|]. cbn [emit next out tsl tick]. split; [now rewrite <- app_assoc|].
  assert (K : forall x, octets x -> Forall2 reversed x (map rev8 x)).
  { intros x H. induction H; cbn [map]; constructor; [now apply rev8_ok|assumption]. }
  split; [now apply K|]. split; [now apply K|]. split; reflexivity.
Qed.
Lemma block_ok d vs s l t o : run d st_init vs = Ok s -> e_reg (tsl s l t) = true -> e_type (tsl s l t) = TS_TRAU -> length o = 160 -> (0 < d_write d (tick s))%Z ->
  exists s', step d s (Ready l t (Some (RdData o)) false []) = Ok s'.
Proof.
  intros R G TY LO WR. apply reach_inv in R as I. destruct (conn_of_reg s l t I G) as (F & _).
  destruct (e_fd (tsl s l t)) as [f|] eqn:FD; [|rewrite (w_none s (i_w s I) l t FD) in G; discriminate].
  cbn [step]. rewrite G. unfold fd_cb. rewrite F, TY. unfold trau_read.
  assert (NE : exists a r, o = a :: r) by (destruct o as [|a r]; [discriminate LO|eauto]). destruct NE as (a & r & EO). rewrite EO. rewrite <- EO.
  unfold GRAN. cbv zeta. rewrite firstn_all2 by lia. rewrite LO. cbn [Nat.eqb negb execs].
  unfold trau_write. cbn [emit tsl tick out next]. rewrite FD. cbv zeta. destruct (Z.leb_spec (d_write d (tick s)) 0) as [L|L]; [lia|]. eauto.
Qed.

Lemma reversed_inj a b c : (0 <= a < 256)%Z -> reversed a b -> reversed b c -> c = a.
Proof.
  intros A (B1 & B2) (C1 & C2). apply Z.bits_inj'. intros n Hn.
  destruct (Z.lt_ge_cases n 8) as [L|L].
  - rewrite C2, B2 by lia. f_equal. lia.
  - assert (H : forall x, (0 <= x < 256)%Z -> Z.testbit x n = false).
    { intros x X. destruct (Z.eq_dec x 0) as [->|NZ]; [apply Z.bits_0|]. apply Z.bits_above_log2; [lia|]. assert (Z.log2 x < 8)%Z by (apply Z.log2_lt_pow2; lia). lia. }
    now rewrite !H.
Qed.
Lemma reversed_twice a : forall b c, octets a -> Forall2 reversed a b -> Forall2 reversed b c -> c = a.
Proof.
  induction a as [|x a IH]; intros b c O AB BC; inversion AB; subst; inversion BC; subst; [reflexivity|]. f_equal.
  - eapply reversed_inj; [exact (Forall_inv O)|eassumption..].
  - eapply IH; [exact (Forall_inv_tail O)|eassumption..].
Qed.

(** what a timeslot wrote, block by block, and what its demultiplexer was given *)
Definition here (l t l' t' : nat) : bool := (l' =? l) && (t' =? t).
Definition written (l t : nat) (es : list deff) : list (list Z) :=
  flat_map (fun e => match e with DTrau l' t' _ o _ => if here l t l' t' then [o] else [] | _ => [] end) es.
Definition received (l t : nat) (es : list deff) : list (list Z) :=
  flat_map (fun e => match e with DRx l' t' o => if here l t l' t' then [o] else [] | _ => [] end) es.
Definition block (l t : nat) (o : list Z) : ev := Ready l t (Some (RdData o)) false [].
(** the daemon takes blocks whole *)
Definition takes (d : daemon) : Prop := forall n, d_write d n = 160%Z.
(** the multiplexer's buffers from question [n] on *)
Definition buffers (mux : nat -> list Z) (n count : nat) : list (list Z) := map mux (seq n count).

Lemma run_app d vs : forall s ws, run d s (vs ++ ws) = match run d s vs with Ok s' => run d s' ws | Bad w => Bad w end.
Proof. induction vs as [|v vs IH]; intros s ws; cbn [run app]; [reflexivity|]. destruct (step d s v); [apply IH|reflexivity]. Qed.
Lemma here_refl l t : here l t l t = true.
Proof. unfold here. now rewrite !Nat.eqb_refl. Qed.
Lemma e1d_blocks d l t : takes d -> (forall n, octets (d_mux d n)) ->
  forall os vs s, run d st_init vs = Ok s -> e_reg (tsl s l t) = true -> e_type (tsl s l t) = TS_TRAU ->
  Forall (fun o => length o = 160 /\ octets o) os ->
  exists s' es, run d s (map (block l t) os) = Ok s' /\ out s' = out s ++ es /\
    Forall2 (Forall2 reversed) os (received l t es) /\ Forall2 (Forall2 reversed) (buffers (d_mux d) (tick s) (length os)) (written l t es).
Proof.
  intros TK MX. induction os as [|o os IH]; intros vs s R G TY F; cbn [map run].
  - exists s, []. rewrite app_nil_r. split; [reflexivity|]. split; [reflexivity|]. split; constructor.
  - destruct (Forall_inv F) as (LO & OC).
    assert (WR : (0 < d_write d (tick s))%Z) by (rewrite TK; lia).
    destruct (block_ok d vs s l t o R G TY LO WR) as (s1 & E).
    destruct (C58_trau d vs s l t o false s1 R G TY LO OC (MX _) WR E) as (f & m & o' & e & _ & X & RO & RD & TS & TI).
    unfold block at 1. rewrite E.
    destruct (IH (vs ++ [block l t o]) s1) as (s2 & es & E2 & X2 & A & B).
    + rewrite run_app, R. cbn [run]. unfold block. now rewrite E.
    + now rewrite TS.
    + now rewrite TS.
    + exact (Forall_inv_tail F).
    + exists s2, ([DRx l t o'; DTrau l t f e (d_write d (tick s))] ++ es). split; [exact E2|]. split; [now rewrite X2, X, app_assoc|].
      unfold received, written in *. rewrite !flat_map_app. cbn [flat_map app]. rewrite here_refl. cbn [app].
      split; [now constructor|]. unfold buffers in *. cbn [length seq map]. constructor; [exact RD|]. now rewrite <- TI.
Qed.
Lemma reversed_len d e : Forall2 reversed d e -> length e = length d.
Proof. induction 1; cbn [length]; congruence. Qed.
Lemma reversed_octets d e : Forall2 reversed d e -> octets e.
Proof. induction 1 as [|x y d e H R IH]; constructor; [apply H|exact IH]. Qed.

(** two lines of osmo-e1d joined so that blocks stay whole and in order: what the far timeslot
    gives its demultiplexer is what the near one took from its multiplexer *)
Theorem C89_e1d_transparent : forall da la ta vsa sa os db lb tb vsb sb,
  takes da -> takes db -> (forall n, octets (d_mux da n)) -> (forall n, octets (d_mux db n)) -> (forall n, length (d_mux da n) = 160) ->
  run da st_init vsa = Ok sa -> e_reg (tsl sa la ta) = true -> e_type (tsl sa la ta) = TS_TRAU ->
  Forall (fun o => length o = 160 /\ octets o) os ->
  run db st_init vsb = Ok sb -> e_reg (tsl sb lb tb) = true -> e_type (tsl sb lb tb) = TS_TRAU ->
  exists sa' ea, run da sa (map (block la ta) os) = Ok sa' /\ out sa' = out sa ++ ea /\
  exists sb' eb, run db sb (map (block lb tb) (written la ta ea)) = Ok sb' /\ out sb' = out sb ++ eb /\
    received lb tb eb = buffers (d_mux da) (tick sa) (length os).
Proof.
  intros da la ta vsa sa os db lb tb vsb sb NA NB MA MB LM RA GA TA FO RB GB TB.
  destruct (e1d_blocks da la ta NA MA os vsa sa RA GA TA FO) as (sa' & ea & EA & XA & _ & WA).
  assert (FM : Forall (fun d => length d = 160 /\ octets d) (buffers (d_mux da) (tick sa) (length os))).
  { unfold buffers. apply Forall_forall. intros x H. apply in_map_iff in H as (n & <- & _). split; [apply LM|apply MA]. }
  revert WA FM. generalize (buffers (d_mux da) (tick sa) (length os)). intros bs WA FM.
  assert (FW : Forall (fun o => length o = 160 /\ octets o) (written la ta ea)).
  { clear - FM WA. revert FM. induction WA as [|d e ds es R WA IH]; intros FM; constructor; [|apply IH; exact (Forall_inv_tail FM)].
    destruct (Forall_inv FM) as (L & _). split; [rewrite <- L; now apply reversed_len|now apply reversed_octets in R]. }
  destruct (e1d_blocks db lb tb NB MB (written la ta ea) vsb sb RB GB TB FW) as (sb' & eb & EB & XB & WB & _).
  exists sa', ea. split; [exact EA|]. split; [exact XA|]. exists sb', eb. split; [exact EB|]. split; [exact XB|].
  clear - FM WA WB. revert FM WB. generalize (received lb tb eb). induction WA as [|d e ds es R WA IH]; intros rs FM WB.
  - now inversion WB.
  - inversion WB as [|? r ? rs' R2 WB']; subst. f_equal.
    + eapply reversed_twice; [exact (proj2 (Forall_inv FM))|eassumption..].
    + apply IH; [exact (Forall_inv_tail FM)|exact WB'].
Qed.

(** a call across them: packets into a sub-channel of the near timeslot, the octets over the lines,
    the far driver's reads into the far timeslot's demultiplexer, whatever that has been through *)
Lemma whole (bs : list (list Z)) : Forall (fun d => length d = 160) bs -> length (concat bs) / 160 = length bs.
Proof.
  intros F. induction F as [|o os L F IH]; [reflexivity|]. cbn [concat length]. rewrite app_length, L, <- IH.
  replace (160 + length (concat os)) with (length (concat os) + 1 * 160) by lia. rewrite Nat.div_add by lia. lia.
Qed.
Theorem C89_call_over_e1d : forall cd st dir xs fs junk lm c past, codec_laws cd ->
  Forall (ready dir) xs -> Forall (fun x => exists q, arrives cd st dir (payload x) q) xs -> on8 (st_type st) = false ->
  tx_all cd st idle_initial xs = Some fs ->
  length junk = 8 -> Forall mop_ok lm -> c < 4 -> DemuxSpec.queued (events c lm) = fs -> no_drop idle_pattern [] (events c lm) ->
  Forall dop_ok past -> act_after c past = true -> sane_past (DemuxProofs.received false c past) ->
  forall da la ta vsa sa os db lb tb vsb sb,
  takes da -> takes db -> (forall n, octets (d_mux da n)) -> (forall n, octets (d_mux db n)) -> (forall n, length (d_mux da n) = 160) ->
  run da st_init vsa = Ok sa -> e_reg (tsl sa la ta) = true -> e_type (tsl sa la ta) = TS_TRAU ->
  Forall (fun o => length o = 160 /\ octets o) os ->
  run db st_init vsb = Ok sb -> e_reg (tsl sb lb tb) = true -> e_type (tsl sb lb tb) = TS_TRAU ->
  exists m mout q d0 t0 sa' ea sb' eb,
    mops junk subchan_mux_init lm = Some (m, mout) /\ nth_error (DemuxModel.queues m) c = Some q /\ dops fresh past = Some (d0, t0) /\
    run da sa (map (block la ta) os) = Ok sa' /\ out sa' = out sa ++ ea /\
    run db sb (map (block lb tb) (written la ta ea)) = Ok sb' /\ out sb' = out sb ++ eb /\
    (* the near timeslot's multiplexer is the one of the call *)
    (concat (buffers (d_mux da) (tick sa) (length os)) = mout ->
     exists d tr x frames n, dops fresh (past ++ map In_ (received lb tb eb)) = Some (d, tr) /\
       calls_of c tr = calls_of c t0 ++ x ++ frames /\ length x <= 1 /\ length frames = length os /\
       heard cd st dir (firstn n xs) frames /\ length xs <= n + length q).
Proof.
  intros cd st dir xs fs junk lm c past CL FR FA O TX HJ FM HC HQ ND FP HA SP da la ta vsa sa os db lb tb vsb sb NA NB MA MB LM RA GA TA FO RB GB TB.
  destruct (C86_call_after_any_past cd st dir xs fs junk lm c past CL FR FA O TX HJ FM HC HQ ND FP HA SP) as (m & mout & q & d0 & t0 & EM & EQ & E0 & CALL).
  destruct (C89_e1d_transparent da la ta vsa sa os db lb tb vsb sb NA NB MA MB LM RA GA TA FO RB GB TB) as (sa' & ea & EA & XA & sb' & eb & EB & XB & TR).
  exists m, mout, q, d0, t0, sa', ea, sb', eb. split; [exact EM|]. split; [exact EQ|]. split; [exact E0|]. split; [exact EA|]. split; [exact XA|].
  split; [exact EB|]. split; [exact XB|]. intros MO. rewrite <- TR in MO.
  destruct (CALL _ MO) as (d & tr & x & frames & n & ED & EC & LX & LF & HE & LN).
  exists d, tr, x, frames, n. split; [exact ED|]. split; [exact EC|]. split; [exact LX|]. split; [|split; [exact HE|exact LN]].
  rewrite LF, <- MO, TR. rewrite whole.
  - unfold buffers. now rewrite map_length, seq_length.
  - unfold buffers. apply Forall_forall. intros b H. apply in_map_iff in H as (i & <- & _). apply LM.
Qed.
(** timeslots that are ready; buffers that differ; what is written and what is given on *)
Definition counting : daemon := mkDm (fun _ => true) (fun _ => Some modes) (fun _ => true) (fun _ => true) (fun _ => 160%Z) (fun n => repeat (Z.of_nat (n mod 256)) 160).
Example C89_example :
  takes counting /\ (forall n, octets (d_mux counting n)) /\ (forall n, length (d_mux counting n) = 160) /\
  sees (run counting st_init start) (fun s => (e_reg (tsl s 0 2), e_type (tsl s 0 2))) = Some (true, TS_TRAU) /\
  sees (run counting st_init start) (fun s =>
    sees (run counting s (map (block 0 2) [repeat 1%Z 160; repeat 2%Z 160])) (fun s' =>
      map (map (hd 0%Z)) [buffers (d_mux counting) (tick s) 2; written 0 2 (skipn (length (out s)) (out s')); received 0 2 (skipn (length (out s)) (out s'))])) = Some (Some [[18; 19]; [72; 200]; [128; 64]])%Z.
Proof.
  split; [intros n; reflexivity|]. split.
  - intros n. unfold octets, counting. cbn [d_mux]. apply Forall_forall. intros x IN. apply repeat_spec in IN as ->.
    pose proof (Nat.mod_upper_bound n 256). lia.
  - split; [intros n; apply repeat_length|]. split; [vm_compute; reflexivity|]. vm_compute. reflexivity.
Qed.
