(** C88: a TRAU timeslot across two DAHDI spans. *)
From Coq Require Import List Arith Lia Bool ZArith.
From Verif Require Import DemuxSpec OldTrauProofs DemuxModel DemuxProofs DemuxProps MuxProofs MuxProps DemuxHealProps.
From Verif Require Import Base RtpSpec TrauSpec TrauModel RtpModel RtpProps SyncModel SyncSpec E2eSpec E2eProps E2eMuxProps E2eHealProps.
From Verif Require Import E1Model DahdiModel DahdiSpec DahdiProofs DahdiRunProofs DahdiProps.
Import ListNotations.
Local Open Scope nat_scope.

(** the octets a timeslot took from its multiplexer, wrote to its channel, and gave to its
    demultiplexer, block by block *)
Definition here (l t l' t' : nat) : bool := (l' =? l) && (t' =? t).
Definition muxed (l t : nat) (es : list eff) : list (list Z) :=
  flat_map (fun e => match e with DMuxOut l' t' d => if here l t l' t' then [d] else [] | _ => [] end) es.
Definition written (l t : nat) (es : list eff) : list (list Z) :=
  flat_map (fun e => match e with DBlock l' t' _ o [] _ => if here l t l' t' then [o] else [] | _ => [] end) es.
Definition received (l t : nat) (es : list eff) : list (list Z) :=
  flat_map (fun e => match e with DRx l' t' o => if here l t l' t' then [o] else [] | _ => [] end) es.
(** the channel has a block for us *)
Definition block (l t : nat) (o : list Z) : ev := Ready l t false (Some (RdData o)) false [].
Definition octets (o : list Z) : Prop := Forall (fun b => 0 <= b < 256)%Z o.

Lemma run_app k vs : forall s ws, run k s (vs ++ ws) = match run k s vs with Ok s' => run k s' ws | Bad w => Bad w end.
Proof. induction vs as [|v vs IH]; intros s ws; cbn [run app]; [reflexivity|]. destruct (step k s v); [apply IH|reflexivity]. Qed.

Lemma reversed_inj a b c : (0 <= a < 256)%Z -> reversed a b -> reversed b c -> c = a.
Proof.
  intros A (B1 & B2) (C1 & C2). apply Z.bits_inj'. intros n Hn.
  destruct (Z.lt_ge_cases n 8) as [L|L].
  - rewrite C2, B2 by lia. f_equal. lia.
  - assert (H : forall x, (0 <= x < 256)%Z -> Z.testbit x n = false).
    { intros x Hx. destruct (Z.eq_dec x 0) as [->|N]; [apply Z.bits_0|]. apply Z.bits_above_log2; [lia|].
      apply Z.lt_le_trans with 8%Z; [|exact L]. apply Z.log2_lt_pow2; [lia|]. lia. }
    now rewrite !H.
Qed.
Lemma reversed_twice a : forall b c, octets a -> Forall2 reversed a b -> Forall2 reversed b c -> c = a.
Proof.
  induction a as [|x a IH]; intros b c O H1 H2; inversion H1; subst; inversion H2; subst; [reflexivity|].
  f_equal; [eapply reversed_inj; [exact (Forall_inv O)|eassumption..]|]. eapply IH; [exact (Forall_inv_tail O)|eassumption..].
Qed.

Lemma here_refl l t : here l t l t = true.
Proof. unfold here. now rewrite !Nat.eqb_refl. Qed.

Lemma blocks_run k l t : no_zero k -> (forall n, octets (k_mux k n)) ->
  forall os vs s, run k st_init vs = Ok s -> e_reg (tsl s l t) = true -> e_type (tsl s l t) = TS_TRAU ->
  Forall (fun o => length o = 160 /\ octets o) os ->
  exists s' es, run k s (map (block l t) os) = Ok s' /\ out s' = out s ++ es /\ tsl s' = tsl s /\
    Forall2 (Forall2 reversed) os (received l t es) /\ Forall2 (Forall2 reversed) (muxed l t es) (written l t es) /\
    length (muxed l t es) = length os /\ (forall P : list Z -> Prop, (forall n, P (k_mux k n)) -> Forall P (muxed l t es)).
Proof.
  intros NZ MX. induction os as [|o os IH]; intros vs s R G TY F; cbn [map run].
  - exists s, []. rewrite app_nil_r. split; [reflexivity|]. split; [reflexivity|]. split; [reflexivity|]. split; [constructor|]. split; [constructor|]. split; [reflexivity|constructor].
  - destruct (Forall_inv F) as (LO & OC).
    destruct (C61_tx_trau k vs s l t o NZ R G TY LO OC MX) as (s1 & f & o' & d & e & r & E & _ & X & RO & RD & TS & DM).
    unfold block at 1. rewrite E.
    destruct (IH (vs ++ [block l t o]) s1) as (s2 & es & E2 & X2 & TS2 & A & B & C & D).
    + rewrite run_app, R. cbn [run]. unfold block. now rewrite E.
    + now rewrite TS.
    + now rewrite TS.
    + exact (Forall_inv_tail F).
    + exists s2, ([DRx l t o'; DMuxOut l t d; DBlock l t f e [] r] ++ es). split; [exact E2|].
      split; [now rewrite X2, X, app_assoc|]. split; [congruence|].
      unfold received, muxed, written in *. rewrite !flat_map_app. cbn [flat_map app]. rewrite here_refl. cbn [app].
      split; [now constructor|]. split; [now constructor|]. split; [cbn [length]; now rewrite C|].
      intros P HP. constructor; [rewrite DM; apply HP|now apply D].
Qed.

(** Two spans joined by a line that keeps blocks whole and in order: what the far
    timeslot gives its demultiplexer is what the near one took from its multiplexer,
    octet for octet, whatever both drivers had been through before. *)
Theorem C88_dahdi_transparent : forall ka la ta vsa sa os kb lb tb vsb sb,
  no_zero ka -> no_zero kb -> (forall n, octets (k_mux ka n)) -> (forall n, octets (k_mux kb n)) -> (forall n, length (k_mux ka n) = 160) ->
  run ka st_init vsa = Ok sa -> e_reg (tsl sa la ta) = true -> e_type (tsl sa la ta) = TS_TRAU ->
  Forall (fun o => length o = 160 /\ octets o) os ->
  run kb st_init vsb = Ok sb -> e_reg (tsl sb lb tb) = true -> e_type (tsl sb lb tb) = TS_TRAU ->
  exists sa' ea, run ka sa (map (block la ta) os) = Ok sa' /\ out sa' = out sa ++ ea /\
  exists sb' eb, run kb sb (map (block lb tb) (written la ta ea)) = Ok sb' /\ out sb' = out sb ++ eb /\
    received lb tb eb = muxed la ta ea /\ length (muxed la ta ea) = length os.
Proof.
  intros ka la ta vsa sa os kb lb tb vsb sb NA NB MA MB LM RA GA TA FO RB GB TB.
  destruct (blocks_run ka la ta NA MA os vsa sa RA GA TA FO) as (sa' & ea & EA & XA & _ & _ & WA & LA & PA).
  assert (FM : Forall (fun d => length d = 160 /\ octets d) (muxed la ta ea)) by (apply PA; intros n; split; [apply LM|apply MA]).
  assert (FW : Forall (fun o => length o = 160 /\ octets o) (written la ta ea)).
  { clear - FM WA. revert FM. induction WA as [|d e ds es R WA IH]; intros FM; constructor; [|apply IH; exact (Forall_inv_tail FM)].
    destruct (Forall_inv FM) as (L & _). clear - R L. split.
    - rewrite <- L. clear L. induction R; cbn [length]; congruence.
    - clear L. induction R as [|x y d e H R IH]; constructor; [apply H|exact IH]. }
  destruct (blocks_run kb lb tb NB MB (written la ta ea) vsb sb RB GB TB FW) as (sb' & eb & EB & XB & _ & WB & _ & _ & _).
  exists sa', ea. split; [exact EA|]. split; [exact XA|]. exists sb', eb. split; [exact EB|]. split; [exact XB|]. split; [|exact LA].
  clear - FM WA WB. revert FM WB. generalize (received lb tb eb). induction WA as [|d e ds es R WA IH]; intros rs FM WB.
  - now inversion WB.
  - inversion WB as [|? r ? rs' R2 WB']; subst. f_equal.
    + eapply reversed_twice; [exact (proj2 (Forall_inv FM))|eassumption..].
    + apply IH; [exact (Forall_inv_tail FM)|exact WB'].
Qed.

(** The call of C70, now with the drivers in between: packets into a sub-channel of a TRAU
    timeslot of one span, the timeslot's multiplexer read by its driver, the octets over the
    line, the far driver's reads into the far timeslot's demultiplexer, which may have been
    through anything and is switched on for the sub-channel. *)
Theorem C88_call_over_dahdi : forall cd st dir xs fs junk lm c past, codec_laws cd ->
  Forall (ready dir) xs -> Forall (fun x => exists q, arrives cd st dir (payload x) q) xs -> on8 (st_type st) = false ->
  tx_all cd st idle_initial xs = Some fs ->
  length junk = 8 -> Forall mop_ok lm -> c < 4 -> queued (events c lm) = fs -> no_drop idle_pattern [] (events c lm) ->
  Forall dop_ok past -> act_after c past = true -> sane_past (DemuxProofs.received false c past) ->
  forall ka la ta vsa sa os kb lb tb vsb sb,
  no_zero ka -> no_zero kb -> (forall n, octets (k_mux ka n)) -> (forall n, octets (k_mux kb n)) -> (forall n, length (k_mux ka n) = 160) ->
  run ka st_init vsa = Ok sa -> e_reg (tsl sa la ta) = true -> e_type (tsl sa la ta) = TS_TRAU ->
  Forall (fun o => length o = 160 /\ octets o) os ->
  run kb st_init vsb = Ok sb -> e_reg (tsl sb lb tb) = true -> e_type (tsl sb lb tb) = TS_TRAU ->
  exists m mout q d0 t0 sa' ea sb' eb,
    mops junk subchan_mux_init lm = Some (m, mout) /\ nth_error (DemuxModel.queues m) c = Some q /\ dops fresh past = Some (d0, t0) /\
    run ka sa (map (block la ta) os) = Ok sa' /\ out sa' = out sa ++ ea /\
    run kb sb (map (block lb tb) (written la ta ea)) = Ok sb' /\ out sb' = out sb ++ eb /\
    (* the kernel's multiplexer is the one of the call *)
    (concat (muxed la ta ea) = mout ->
     exists d tr x frames n, dops fresh (past ++ map In_ (received lb tb eb)) = Some (d, tr) /\
       calls_of c tr = calls_of c t0 ++ x ++ frames /\ length x <= 1 /\ length frames = length os /\
       heard cd st dir (firstn n xs) frames /\ length xs <= n + length q).
Proof.
  intros cd st dir xs fs junk lm c past CL FR FA O TX HJ FM HC HQ ND FP HA SP ka la ta vsa sa os kb lb tb vsb sb NA NB MA MB LM RA GA TA FO RB GB TB.
  destruct (C86_call_after_any_past cd st dir xs fs junk lm c past CL FR FA O TX HJ FM HC HQ ND FP HA SP) as (m & mout & q & d0 & t0 & EM & EQ & E0 & CALL).
  destruct (C88_dahdi_transparent ka la ta vsa sa os kb lb tb vsb sb NA NB MA MB LM RA GA TA FO RB GB TB) as (sa' & ea & EA & XA & sb' & eb & EB & XB & TR & LO).
  exists m, mout, q, d0, t0, sa', ea, sb', eb. split; [exact EM|]. split; [exact EQ|]. split; [exact E0|]. split; [exact EA|]. split; [exact XA|].
  split; [exact EB|]. split; [exact XB|]. intros MO. rewrite <- TR in MO.
  destruct (CALL _ MO) as (d & tr & x & frames & n & ED & EC & LX & LF & HE & LN).
  exists d, tr, x, frames, n. split; [exact ED|]. split; [exact EC|]. split; [exact LX|]. split; [|split; [exact HE|exact LN]].
  rewrite LF, <- LO, <- TR, <- MO.
  destruct (blocks_run ka la ta NA MA os vsa sa RA GA TA FO) as (sa2 & ea2 & EA2 & XA2 & _ & _ & _ & _ & PA).
  assert (sa2 = sa') as -> by congruence. assert (ea2 = ea) as -> by (eapply app_inv_head; rewrite <- XA2; exact XA).
  assert (F160 : Forall (fun d => length d = 160) (muxed la ta ea)) by now apply PA.
  rewrite TR. clear - F160. induction F160 as [|o os L F IH]; [reflexivity|]. cbn [concat length]. rewrite app_length, L, <- IH.
  replace (160 + length (concat os)) with (length (concat os) + 1 * 160) by lia. rewrite Nat.div_add by lia. lia.
Qed.

(** Two timeslots that are ready, and a multiplexer whose octets differ at every call: the
    near driver takes one buffer a block, and the far one gives the same octets on. *)
Definition counting : kern := mkK 32 (fun _ => true) (fun _ p => if (p <=? 2) then Some 31 else None) (fun _ => OpOk) (fun _ => true) (fun _ => true) (fun _ => 160%Z) (fun _ => Some EvAlarm) (fun n => repeat (Z.of_nat (n mod 256)) 160) (fun _ => (0, 0)%Z).
Example C88_example :
  no_zero counting /\ (forall n, octets (k_mux counting n)) /\ (forall n, length (k_mux counting n) = 160) /\
  sees (run counting st_init start) (fun s => (e_reg (tsl s 0 1), e_type (tsl s 0 1))) = Some (true, TS_TRAU) /\
  sees (run counting st_init start) (fun s =>
    sees (run counting s (map (block 0 1) [repeat 1%Z 160; repeat 2%Z 160])) (fun s' =>
      map (map (hd 0%Z)) [muxed 0 1 (skipn (length (out s)) (out s')); written 0 1 (skipn (length (out s)) (out s'))])) = Some (Some [[13; 15]; [176; 240]])%Z.
Proof.
  split; [intros n; discriminate|]. split.
  - intros n. unfold octets, counting. cbn [k_mux]. apply Forall_forall. intros x IN. apply repeat_spec in IN as ->.
    pose proof (Nat.mod_upper_bound n 256). lia.
  - split; [intros n; apply repeat_length|]. split; [vm_compute; reflexivity|]. vm_compute. reflexivity.
Qed.
