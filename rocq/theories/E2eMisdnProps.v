(** C89: a TRAU timeslot, and a call, across two mISDN lines. *)
From Coq Require Import List Arith Lia Bool ZArith.
From Verif Require Import DemuxSpec OldTrauProofs DemuxModel DemuxProofs DemuxProps MuxProofs MuxProps DemuxHealProps.
From Verif Require Import Base RtpSpec TrauSpec TrauModel RtpModel RtpProps SyncModel SyncSpec E2eSpec E2eProps E2eMuxProps E2eHealProps.
From Verif Require Import E2eLineProps.
From Verif Require Import E1Model MisdnModel MisdnSpec MisdnProofs MisdnRunProofs MisdnProps MisdnDataProps.
Import ListNotations.
Local Open Scope nat_scope.

(** the timeslot has a socket in the select loop and is a TRAU timeslot *)
Definition trau_ready (s : st) (t f : nat) : Prop := life None (proj t (out s)) = Some (Some (f, Polled)) /\ m_type (tsl s t) = TS_TRAU.
Definition mblock (t : nat) (o : list Z) : ev := Ready t (Some (RPhData o)) false [].
(** what a timeslot wrote to its socket, block by block, and what its demultiplexer was given *)
Definition mwritten (t f : nat) (es : list leff) : list (list Z) :=
  flat_map (fun e => match e with EBlock g o => if g =? f then [o] else [] | _ => [] end) (proj t es).
Definition mreceived (t : nat) (es : list leff) : list (list Z) :=
  flat_map (fun e => match e with ERx _ _ o => [o] | _ => [] end) (proj t es).
(** the octets the multiplexer gives when asked for [len] of them for the n-th time *)
Definition mbuffer (k : kern) (len n : nat) : list Z := map (k_mux k n) (seq 0 len).

Lemma mrun_app k vs : forall s ws, run k s (vs ++ ws) = match run k s vs with Ok s' => run k s' ws | Bad w => Bad w end.
Proof. induction vs as [|v vs IH]; intros s ws; cbn [run app]; [reflexivity|]. destruct (step k s v); [apply IH|reflexivity]. Qed.
Lemma misdn_block k u p vs s t f o : run k (st_init u p) vs = Ok s -> trau_ready s t f ->
  exists s', step k s (mblock t o) = Ok s' /\ out s' = out s ++ [LTs t (EBlock f (mbuffer k (length o) (tick s))); LTs t (ERx 0 0 o)] /\
    trau_ready s' t f /\ tick s' = S (tick s).
Proof.
  intros R (L & T). destruct (polled_fd k u p vs s t f R L) as (I & F & G).
  assert (E : exists s', step k s (mblock t o) = Ok s' /\ m_type (tsl s' t) = m_type (tsl s t) /\ tick s' = S (tick s)).
  { unfold mblock. cbn [step]. rewrite G. unfold fd_cb. rewrite T. cbn [trau_read execs andb]. eexists. split; [reflexivity|].
    unfold on, leave, block_write, upd. cbn [tsl tick enter emit next lx ln]. rewrite Nat.eqb_refl. split; [exact T|reflexivity]. }
  destruct E as (s' & E & TY & TI). exists s'. split; [exact E|].
  pose proof (C63_trau k u p vs s t f o s' R L T E) as X. split; [exact X|]. split; [|exact TI]. split; [|congruence].
  rewrite X, proj_app, life_app, L. unfold proj. cbn [flat_map]. rewrite Nat.eqb_refl. cbn [app life advance]. rewrite Nat.eqb_refl. reflexivity.
Qed.
Lemma misdn_blocks k u p t f os : forall vs s, run k (st_init u p) vs = Ok s -> trau_ready s t f ->
  exists s' es, run k s (map (mblock t) os) = Ok s' /\ out s' = out s ++ es /\ mreceived t es = os /\
    mwritten t f es = map (fun x => mbuffer k (length (snd x)) (fst x)) (combine (seq (tick s) (length os)) os).
Proof.
  induction os as [|o os IH]; intros vs s R TR; cbn [map run].
  - exists s, []. rewrite app_nil_r. split; [reflexivity|]. split; [reflexivity|]. split; reflexivity.
  - destruct (misdn_block k u p vs s t f o R TR) as (s1 & E & X & TR1 & TI). rewrite E.
    destruct (IH (vs ++ [mblock t o]) s1) as (s2 & es & E2 & X2 & A & B).
    + rewrite mrun_app, R. cbn [run]. now rewrite E.
    + exact TR1.
    + exists s2, ([LTs t (EBlock f (mbuffer k (length o) (tick s))); LTs t (ERx 0 0 o)] ++ es). split; [exact E2|]. split; [now rewrite X2, X, app_assoc|].
      unfold mreceived, mwritten in *. rewrite proj_app, !flat_map_app, A, B.
      unfold proj. cbn [flat_map]. rewrite Nat.eqb_refl. cbn [app flat_map]. rewrite Nat.eqb_refl. cbn [app].
      split; [reflexivity|]. cbn [length seq combine map fst snd]. now rewrite TI.
Qed.

(** two mISDN lines joined so that blocks stay whole and in order (blocks of any sizes): what the far
    timeslot gives its demultiplexer is what the near one took from its multiplexer, as much of it
    as it had received *)
Theorem C89_misdn_transparent : forall ka ua pa ta fa vsa sa os kb ub pb tb fb vsb sb,
  run ka (st_init ua pa) vsa = Ok sa -> trau_ready sa ta fa ->
  run kb (st_init ub pb) vsb = Ok sb -> trau_ready sb tb fb ->
  exists sa' ea, run ka sa (map (mblock ta) os) = Ok sa' /\ out sa' = out sa ++ ea /\
  exists sb' eb, run kb sb (map (mblock tb) (mwritten ta fa ea)) = Ok sb' /\ out sb' = out sb ++ eb /\
    mreceived tb eb = map (fun x => mbuffer ka (length (snd x)) (fst x)) (combine (seq (tick sa) (length os)) os).
Proof.
  intros ka ua pa ta fa vsa sa os kb ub pb tb fb vsb sb RA GA RB GB.
  destruct (misdn_blocks ka ua pa ta fa os vsa sa RA GA) as (sa' & ea & EA & XA & _ & WA).
  destruct (misdn_blocks kb ub pb tb fb (mwritten ta fa ea) vsb sb RB GB) as (sb' & eb & EB & XB & WB & _).
  exists sa', ea. split; [exact EA|]. split; [exact XA|]. exists sb', eb. split; [exact EB|]. split; [exact XB|]. now rewrite WB.
Qed.
Lemma same_size k n : forall (os : list (list Z)), Forall (fun o => length o = 160) os -> forall b,
  n = length os -> map (fun x => mbuffer k (length (snd x)) (fst x)) (combine (seq b n) os) = buffers (mbuffer k 160) b n.
Proof.
  intros os F. revert n. induction F as [|o os L F IH]; intros n b ->; [reflexivity|].
  unfold buffers in *. cbn [length seq combine map fst snd]. rewrite L. f_equal. now apply IH.
Qed.
Theorem C89_call_over_misdn : forall cd st dir xs fs junk lm c past, codec_laws cd ->
  Forall (ready dir) xs -> Forall (fun x => exists q, arrives cd st dir (payload x) q) xs -> on8 (st_type st) = false ->
  tx_all cd st idle_initial xs = Some fs ->
  length junk = 8 -> Forall mop_ok lm -> c < 4 -> queued (events c lm) = fs -> no_drop idle_pattern [] (events c lm) ->
  Forall dop_ok past -> act_after c past = true -> sane_past (DemuxProofs.received false c past) ->
  forall ka ua pa ta fa vsa sa os kb ub pb tb fb vsb sb,
  run ka (st_init ua pa) vsa = Ok sa -> trau_ready sa ta fa -> Forall (fun o => length o = 160) os ->
  run kb (st_init ub pb) vsb = Ok sb -> trau_ready sb tb fb ->
  exists m mout q d0 t0 sa' ea sb' eb,
    mops junk subchan_mux_init lm = Some (m, mout) /\ nth_error (DemuxModel.queues m) c = Some q /\ dops fresh past = Some (d0, t0) /\
    run ka sa (map (mblock ta) os) = Ok sa' /\ out sa' = out sa ++ ea /\
    run kb sb (map (mblock tb) (mwritten ta fa ea)) = Ok sb' /\ out sb' = out sb ++ eb /\
    (* the near timeslot's multiplexer is the one of the call *)
    (concat (buffers (mbuffer ka 160) (tick sa) (length os)) = mout ->
     exists d tr x frames n, dops fresh (past ++ map In_ (mreceived tb eb)) = Some (d, tr) /\
       calls_of c tr = calls_of c t0 ++ x ++ frames /\ length x <= 1 /\ length frames = length os /\
       heard cd st dir (firstn n xs) frames /\ length xs <= n + length q).
Proof.
  intros cd st dir xs fs junk lm c past CL FR FA O TX HJ FM HC HQ ND FP HA SP ka ua pa ta fa vsa sa os kb ub pb tb fb vsb sb RA GA FO RB GB.
  destruct (C86_call_after_any_past cd st dir xs fs junk lm c past CL FR FA O TX HJ FM HC HQ ND FP HA SP) as (m & mout & q & d0 & t0 & EM & EQ & E0 & CALL).
  destruct (C89_misdn_transparent ka ua pa ta fa vsa sa os kb ub pb tb fb vsb sb RA GA RB GB) as (sa' & ea & EA & XA & sb' & eb & EB & XB & TR).
  rewrite (same_size ka (length os) os FO _ eq_refl) in TR.
  exists m, mout, q, d0, t0, sa', ea, sb', eb. split; [exact EM|]. split; [exact EQ|]. split; [exact E0|]. split; [exact EA|]. split; [exact XA|].
  split; [exact EB|]. split; [exact XB|]. intros MO. rewrite <- TR in MO.
  destruct (CALL _ MO) as (d & tr & x & frames & n & ED & EC & LX & LF & HE & LN).
  exists d, tr, x, frames, n. split; [exact ED|]. split; [exact EC|]. split; [exact LX|]. split; [|split; [exact HE|exact LN]].
  rewrite LF, <- MO, TR. rewrite whole.
  - unfold buffers. now rewrite map_length, seq_length.
  - unfold buffers, mbuffer. apply Forall_forall. intros b H. apply in_map_iff in H as (i & <- & _). now rewrite map_length, seq_length.
Qed.
(** timeslots that are ready *)
Example C89_misdn_example : match run k0 (st_init false 0) [App [CConfig 3 TS_TRAU; CUpdate]] with
  | Ok s => exists f, trau_ready s 3 f /\
     match run k0 s (map (mblock 3) [repeat 1%Z 160; repeat 2%Z 160]) with
     | Ok s' => map (map (hd 0%Z)) [mwritten 3 f (skipn (length (out s)) (out s')); mreceived 3 (skipn (length (out s)) (out s')); buffers (mbuffer k0 160) (tick s) 2] = [[5; 6]; [1; 2]; [5; 6]]%Z
     | Bad _ => False end
  | Bad _ => False end.
Proof. vm_compute. eexists. split; [split; reflexivity|]. reflexivity. Qed.
