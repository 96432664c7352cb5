(** C60, C61: the DAHDI driver. *)
From Coq Require Import List Arith Lia Bool ZArith.
From Verif Require Import Base E1Model LapdProofs DahdiModel DahdiSpec DahdiProofs DahdiRunProofs.
Import ListNotations.
Open Scope Z_scope.

(** * C60: descriptors and channels *)
(** At every moment of every execution the effects of a timeslot are in order: one descriptor
    at a time; set up, registered, unregistered, closed, written to only while it is the
    timeslot's; the driver has the descriptor that is open according to the effects (no leak). *)
Theorem C60_life k vs s l t : no_zero k -> run k st_init vs = Ok s ->
  life l t (None, false) (out s) = Some (match e_fd (tsl s l t) with Open f | Zero f => Some f | _ => None end, e_reg (tsl s l t)).
Proof. intros NZ R. apply (v_j k s (reach k vs s NZ R) l t). Qed.
(** a descriptor is of one timeslot only *)
Lemma opens_unique es : NoDup (opens es) -> forall l t c f l' t' c', In (DOpen l t c f) es -> In (DOpen l' t' c' f) es -> l' = l /\ t' = t /\ c' = c.
Proof.
  induction es as [|e r IH]; [easy|]. intros N l t c f l' t' c' A B. assert (X : forall a b d, In (DOpen a b d f) r -> In f (opens r)) by (intros a b d H; unfold opens; apply in_flat_map; exists (DOpen a b d f); split; [easy|now left]).
  assert (NR : NoDup (opens r)). { unfold opens in *. cbn [flat_map] in N. destruct e; cbn [app] in N; try exact N. now inversion N. }
  destruct A as [->|A], B as [B|B]; eauto.
  - injection B as -> -> ->. auto.
  - exfalso. cbn in N. inversion N as [|? ? N1 N2]. apply N1. eapply X; eauto.
  - subst e. exfalso. cbn in N. inversion N as [|? ? N1 N2]. apply N1. eapply X; eauto.
Qed.
Theorem C60_own k vs s l t c f l' t' c' : no_zero k -> run k st_init vs = Ok s -> In (DOpen l t c f) (out s) -> In (DOpen l' t' c' f) (out s) -> l' = l /\ t' = t /\ c' = c.
Proof. intros NZ R. apply opens_unique. apply (v_open k s (reach k vs s NZ R)). Qed.
(** what is written for a timeslot goes to a descriptor opened for it *)
Definition writes (e : eff) : option (nat * nat * nat) := match e with DSend l t _ f _ _ _ | DBlock l t f _ _ _ | DLapdWr l t f _ _ _ => Some (l, t, f) | _ => None end.
Lemma writes_opened l t f es : forall v w, life l t v es = Some w -> forall e, In e es -> writes e = Some (l, t, f) -> fst v = Some f \/ exists c, In (DOpen l t c f) es.
Proof.
  induction es as [|x r IH]; [easy|]. intros v w L e [->|IN] W; cbn [life] in L.
  - left. assert (M : mine l t e = true) by (destruct e; cbn in W; try discriminate; injection W as -> -> ->; apply mine_own; reflexivity). rewrite M in L.
    destruct (advance v e) eqn:A; [|discriminate]. destruct e; cbn in W; try discriminate; injection W as -> -> ->; cbn [advance] in A; (destruct (fst v) as [g|]; [|discriminate]; destruct (Nat.eqb_spec f g); [congruence|discriminate]).
  - destruct (mine l t x) eqn:M.
    + destruct (advance v x) as [v1|] eqn:A; [|discriminate]. destruct (IH v1 w L e IN W) as [H|(c & H)]; [|right; exists c; now right].
      assert (SL : slot_of x = Some (l, t)). { unfold mine in M. destruct (slot_of x) as [[a b]|]; [|discriminate]. apply andb_true_iff in M as [M1 M2]. apply Nat.eqb_eq in M1, M2. now subst. }
      destruct x; cbn [advance] in A; try (injection A as <-; now left);
        try (destruct (fst v) as [g|] eqn:FV; cbn [andb] in A; [destruct (Nat.eqb _ g); cbn [andb] in A; try discriminate; try (destruct (snd v); cbn [negb] in A; try discriminate); injection A as <-; cbn [fst] in H; try discriminate; left; congruence|discriminate]).
      destruct (fst v); [discriminate|]. injection A as <-. cbn [fst] in H. injection H as <-. cbn in SL. injection SL as -> ->. right. exists chan. now left.
    + destruct (IH v w L e IN W) as [H|(c & H)]; [now left|right; exists c; now right].
Qed.
Theorem C60_writes k vs s e l t f : no_zero k -> run k st_init vs = Ok s -> In e (out s) -> writes e = Some (l, t, f) -> exists c, In (DOpen l t c f) (out s).
Proof. intros NZ R IN W. destruct (writes_opened l t f _ _ _ (C60_life k vs s l t NZ R) e IN W) as [H|H]; [discriminate|exact H]. Qed.

(** ** channels *)
Lemma total_le r p q : (p <= q)%nat -> (total r p <= total r q)%nat.
Proof. induction 1; cbn [total]; lia. Qed.
(** The channels of the timeslots of all spans are different, and number 1 to the sum of all. *)
Theorem C60_numbering r p t q u c : channel r p t c -> channel r q u c -> p = q /\ t = u.
Proof.
  intros (n & A & B & C) (m & D & E & F).
  assert (H : forall a b x, r a = Some x -> (a < b)%nat -> (total r a + x <= total r b)%nat). { intros a b x X L. pose proof (total_le r (S a) b ltac:(lia)) as T. cbn [total] in T. rewrite X in T. lia. }
  destruct (lt_eq_lt_dec p q) as [[L|L]|L].
  - pose proof (H _ _ _ A L). lia.
  - subst q. split; [easy|]. lia.
  - pose proof (H _ _ _ D L). lia.
Qed.
Theorem C60_dense r mx c : (exists p t, (p < mx)%nat /\ channel r p t c) <-> (1 <= c <= total r mx)%nat.
Proof.
  split.
  - intros (p & t & P & n & A & B & C). pose proof (total_le r (S p) mx ltac:(lia)) as T. cbn [total] in T. rewrite A in T. lia.
  - induction mx as [|mx IH]; cbn [total]; intros H; [lia|]. destruct (le_lt_dec c (total r mx)) as [L|L].
    + destruct IH as (p & t & P & C); [lia|]. exists p, t. split; [lia|exact C].
    + destruct (r mx) as [n|] eqn:E; [|lia]. exists mx, (c - 1 - total r mx)%nat. split; [lia|]. exists n. split; [easy|]. lia.
Qed.
(** Each timeslot opened, of a line that was never moved: the channel is that of the timeslot in
    the line's span as numbered by some report of the kernel. *)
Theorem C60_channel k vs s l t c f : no_zero k -> run k st_init vs = Ok s -> forallb unmoved vs = true -> In (DOpen l t c f) (out s) ->
  (t < 32)%nat /\ (S (port s l) < k_max k)%nat /\ exists m, k_ctl k m = true /\ channel (fun i => k_span k m (S i)) (port s l) t c.
Proof.
  intros NZ R U IN. pose proof (reach k vs s NZ R) as I. destruct (v_chan k s I _ _ _ _ IN) as [V _]. split; [unfold valid in V; apply andb_true_iff in V as [_ V]; now apply Nat.ltb_lt|].
  pose proof (run_chans k vs NZ st_init (inv_init k) U) as H. rewrite R in H. destruct (H ltac:(intros ? ? ? ? []) _ _ _ _ IN) as (m & A & B & C). split; [easy|]. exists m. auto.
Qed.
(** Hence, with a kernel whose report does not change and lines on different ports, no two
    timeslots ever open the same channel. *)
Theorem C60_exclusive k r vs s l t c f l' t' f' : no_zero k -> (forall m i, k_span k m (S i) = r i) -> run k st_init vs = Ok s -> forallb unmoved vs = true -> (port s l = port s l' -> l = l') ->
  In (DOpen l t c f) (out s) -> In (DOpen l' t' c f') (out s) -> l = l' /\ t = t'.
Proof.
  intros NZ K R U P A B. destruct (C60_channel k vs s l t c f NZ R U A) as (_ & _ & m & _ & X). destruct (C60_channel k vs s l' t' c f' NZ R U B) as (_ & _ & m' & _ & Y).
  assert (E : forall n p, total (fun i => k_span k n (S i)) p = total r p) by (intros n; induction p as [|p IH]; [easy|]; cbn [total]; now rewrite IH, K).
  assert (Z : forall n p u, channel (fun i => k_span k n (S i)) p u c -> channel r p u c) by (intros n p u (x & X1 & X2 & X3); exists x; rewrite K in X1; rewrite E in X3; auto).
  apply Z in X, Y. destruct (C60_numbering r _ _ _ _ c X Y) as [Q1 Q2]. auto.
Qed.

(** ** updating a line *)
Theorem C60_update k vs s l s' rc : no_zero k -> run k st_init vs = Ok s -> exist s l = true -> line_update k s l = Ok (s', rc) ->
  (forall l' t, e_type (tsl s' l' t) = e_type (tsl s l' t) /\ e_q (tsl s' l' t) = e_q (tsl s l' t) /\ e_tmr (tsl s' l' t) = e_tmr (tsl s l' t)) /\ (forall l' t, l' <> l -> tsl s' l' t = tsl s l' t) /\
  exists es, out s' = out s ++ DUpdate l :: es /\
  (rc = 0 -> exists m n, k_ctl k m = true /\ (k_ctl k (tick s) = true -> m = tick s) /\ k_span k m (S (port s l)) = Some n /\ (n <= 32)%nat /\ (forall t, (n <= t)%nat -> tsl s' l t = tsl s l t) /\
    forall t, (t < n)%nat -> match e_type (tsl s l t) with
      | TS_NONE => e_fd (tsl s' l t) = Closed /\ e_reg (tsl s' l t) = false /\ e_lapd (tsl s' l t) = false
      | ty => exists f, e_fd (tsl s' l t) = Open f /\ e_reg (tsl s' l t) = true /\ e_wr (tsl s' l t) = false /\
          In (DMode l t f (match ty with TS_SIGN | TS_HDLC => true | _ => false end)) es /\
          match ty with TS_SIGN => e_lapd (tsl s' l t) = true | TS_HDLC => e_lapd (tsl s' l t) = e_lapd (tsl s l t) | _ => e_lapd (tsl s' l t) = false end /\
          (e_fd (tsl s l t) = Open f \/ e_fd (tsl s l t) = Closed /\ exists c, In (DOpen l t c f) es /\ channel (fun i => k_span k m (S i)) (port s l) t c) end) /\
  (rc <> 0 -> rc < 0 /\ ((k_ctl k (tick s) = true -> (S (port s l) < k_max k)%nat -> k_span k (tick s) (S (port s l)) = None) /\ tsl s' = tsl s \/
    exists t, e_type (tsl s l t) <> TS_NONE /\ e_reg (tsl s' l t) = false /\ (e_fd (tsl s l t) = Failed \/ exists n, k_open k n = OpFail \/ k_buf k n = false \/ k_reg k n = false))).
Proof.
  intros NZ R EX LU. pose proof (reach k vs s NZ R) as I. pose proof (update_ok k l s NZ I EX) as U. rewrite LU in U. destruct U as ((I' & PO & E & _ & SM & OT & es & O & (SL & CN) & U) & (R1 & R2 & R3) & PP). 
  split; [exact SM|]. split; [exact OT|]. exists es. split; [exact O|]. destruct U as [(U1 & -> & U2 & U3)|(base & num & U1 & U2 & U3)].
  - split; [discriminate|]. intros _. split; [lia|]. left. split; [|exact U2]. intros K P. specialize (R2 K _ P). unfold spans_of in R2 at 1. rewrite U1 in R2. destruct (k_span k (tick s) (S (port s l))); [discriminate|easy].
  - split.
    + intros ->. destruct U3 as [(_ & UP)|(X & _)]; [|lia].
      assert (M : exists m, k_ctl k m = true /\ (k_ctl k (tick s) = true -> m = tick s) /\ k_span k m (S (port s l)) = Some num /\ base = (1 + total (spans_of k m) (port s l))%nat).
      { destruct (k_ctl k (tick s)) eqn:K; [exists (tick s); split; [easy|]; split; [easy|]; exact (R1 eq_refl _ _ _ U1)|]. destruct (v_spans k s' I' _ _ _ U1) as (m & M1 & M2 & M3 & M4). exists m. split; [easy|]. split; [easy|]. split; [exact M3|exact M4]. }
      destruct M as (m & M1 & M2 & M3 & M4). exists m, num. split; [easy|]. split; [easy|]. split; [easy|]. split. { destruct num as [|j]; [lia|]. destruct (UP j) as [X _]; lia. } split; [exact U2|].
      intros t T. destruct (UP t T) as [_ X]. unfold is_up in X. assert (CH : channel (fun i => k_span k m (S i)) (port s l) t (base + t)) by (exists num; split; [easy|]; split; [easy|]; rewrite M4; reflexivity).
      destruct (e_type (tsl s l t)) eqn:TY; [exact X|..]; (destruct X as (f & X1 & X2 & X3 & X4 & X5 & X6); rewrite TY in X4, X5; exists f; do 3 (split; [assumption|]); split; [exact X5|]; split; [exact X4|]; destruct X6 as [X6|(X6 & X7 & _)]; [now left|right; split; [easy|]; eauto]).
    + intros NR. destruct U3 as [(X & _)|(X & t & _ & T1 & T2 & T3)]; [contradiction|]. split; [easy|]. right. exists t. split; [easy|]. split; [easy|]. destruct T3 as [T3|(m & _ & T3)]; [now left|right; eauto].
Qed.
(** a timeslot that once could not be opened is not tried again: every later update of the line
    fails, whatever the kernel does, until an update with the timeslot configured as unused *)
Theorem C60_no_retry k vs s l t s' rc n : no_zero k -> run k st_init vs = Ok s -> exist s l = true -> e_fd (tsl s l t) = Failed -> e_type (tsl s l t) <> TS_NONE ->
  k_ctl k (tick s) = true -> k_span k (tick s) (S (port s l)) = Some n -> (t < n)%nat -> (S (port s l) < k_max k)%nat -> line_update k s l = Ok (s', rc) -> rc < 0.
Proof.
  intros NZ R EX FD TY KC KS T P LU. destruct (C60_update k vs s l s' rc NZ R EX LU) as (_ & _ & es & _ & H0 & H1). destruct (Z.eq_dec rc 0) as [Z|Z]; [|now apply H1]. exfalso. destruct (H0 Z) as (m & n' & _ & M & S1 & _ & _ & UP). rewrite (M KC) in S1. rewrite KS in S1. injection S1 as <-.
  specialize (UP t T). destruct (e_type (tsl s l t)); try contradiction; destruct UP as (f & _ & _ & _ & _ & _ & [X|(X & _)]); congruence.
Qed.

(** ** nothing breaks, but for one thing *)
Theorem C60_no_crash k ps n vs r : obliging k -> steady k ps n -> forallb (polite ps) vs = true -> run k st_init vs = Bad r -> r = LinksLeft.
Proof. intros OB ST P R. pose proof (run_gd k ps n vs OB ST st_init (inv_init k) (gd_init ps n) P) as H. now rewrite R in H. Qed.
(** and that is: a signalling timeslot configured otherwise while it has signalling links *)
Theorem C60_links_left k s l t ty : exec k s (CConfig l t ty) = Bad LinksLeft <-> (exist s l = true /\ (t < 32)%nat /\ e_type (tsl s l t) = TS_SIGN /\ e_q (tsl s l t) <> [] /\ ty <> TS_SIGN).
Proof.
  cbn [exec]. unfold valid, config. cbv zeta. destruct (exist s l); cbn [andb]; [|split; [discriminate|intros (X & _); discriminate]]. destruct (Nat.ltb_spec t 32); [|split; [discriminate|intros (_ & X & _); lia]].
  destruct (type_eqb_spec (e_type (tsl s l t)) ty) as [<-|NE]; [split; [discriminate|intros (_ & _ & X & _ & Y); congruence]|]. destruct (type_eqb_spec (e_type (tsl s l t)) TS_SIGN) as [E|E]; cbn [andb]; [|split; [discriminate|intros (_ & _ & X & _); congruence]].
  destruct (e_q (tsl s l t)) as [|x q]; cbn [negb]; [split; [discriminate|intros (_ & _ & _ & X & _); congruence]|]. split; [|easy]. intros _. rewrite E in NE. repeat split; congruence.
Qed.
(** with a kernel that serves and an application that behaves, every update succeeds *)
Theorem C60_update_succeeds k ps n vs s l : obliging k -> steady k ps n -> forallb (polite ps) vs = true -> run k st_init vs = Ok s -> exist s l = true -> exists s', line_update k s l = Ok (s', 0).
Proof.
  intros OB ST P R EX. assert (NZ : no_zero k) by (intros m X; destruct (OB m) as (Y & _); congruence). pose proof (run_gd k ps n vs OB ST st_init (inv_init k) (gd_init ps n) P) as G. rewrite R in G.
  pose proof (update_gd k ps n [] s l OB ST (reach k vs s NZ R) G EX) as U. destruct (line_update k s l) as [[s' rc]|]; [|easy]. destruct U as (-> & _). eauto.
Qed.

(** * C61: data *)
(** messages of each queue (signalling link, raw or HDLC) are handed over in the order the
    application gave them, each at most once; those not handed over (nor dropped with the link
    or with the type of the timeslot) still wait *)
Theorem C61_fifo k vs s l t i : no_zero k -> run k st_init vs = Ok s -> waiting l t i [] (out s) = Some (queue i (e_q (tsl s l t))).
Proof. intros NZ R. apply (v_j k s (reach k vs s NZ R) l t). Qed.

Lemma rev8_ok b : 0 <= b < 256 -> reversed b (rev8 b).
Proof.
  intros B.
  assert (K : (let r := rev8 b in (0 <=? r) && (r <? 256) && forallb (fun i => Bool.eqb (Z.testbit r i) (Z.testbit b (7 - i))) [0;1;2;3;4;5;6;7]) = true).
  { exact (Zall 256 (fun b => let r := rev8 b in (0 <=? r) && (r <? 256) && forallb (fun i => Bool.eqb (Z.testbit r i) (Z.testbit b (7 - i))) [0;1;2;3;4;5;6;7]) eq_refl b B). }
  cbv zeta in K. apply andb_prop in K as [K1 K2]. apply andb_prop in K1 as [K0 K1]. split; [lia|]. intros i Hi. rewrite forallb_forall in K2. apply eqb_prop, K2. assert (i = 0 \/ i = 1 \/ i = 2 \/ i = 3 \/ i = 4 \/ i = 5 \/ i = 6 \/ i = 7) as E by lia. cbn [In]. intuition.
Qed.
Lemma rev8_list o : Forall (fun b => 0 <= b < 256) o -> Forall2 reversed o (map rev8 o).
Proof. induction 1; cbn [map]; constructor; [now apply rev8_ok|easy]. Qed.
Lemma write_mute k s l t (w : bool) (wf : st -> res st) s' : Inv k s -> (wf = (fun s => sign_write k s l t) \/ wf = (fun s => trau_write k s l t) \/ wf = (fun s => Ok (raw_write k s l t)) \/ wf = (fun s => Ok (hdlc_write k s l t))) ->
  (if w then wf s else Ok s) = Ok s' -> Mute s s'.
Proof.
  intros I W E. destruct w; [|injection E as <-; apply mute_refl]. pose proof (v_shape k s I l t) as S. destruct W as [-> | [-> | [-> | ->]]].
  - pose proof (sign_write_ok k s l t S) as X. rewrite E in X. destruct X as (es & X). eapply data_mute; eauto.
  - pose proof (trau_write_ok k s l t S) as X. rewrite E in X. destruct X as (es & X). eapply data_mute; eauto.
  - injection E as <-. destruct (raw_write_ok k s l t S) as (es & X). eapply data_mute; eauto.
  - injection E as <-. destruct (hdlc_write_ok k s l t S) as (es & X). eapply data_mute; eauto.
Qed.
Lemma tail2 (m m' : list Z) a b a' b' : m ++ [a; b] = m' ++ [a'; b'] -> m' = m.
Proof. intros X. change [a; b] with ([a] ++ [b]) in X. change [a'; b'] with ([a'] ++ [b']) in X. rewrite !app_assoc in X. apply app_inj_tail in X as [X _]. apply app_inj_tail in X as [X _]. easy. Qed.
Lemma frame_parts (o : list Z) : (length o <= 3)%nat \/ exists m a b, o = m ++ [a; b] /\ (2 <= length m)%nat /\ firstn (length o - 2) o = m.
Proof.
  destruct (le_lt_dec (length o) 3) as [L|L]; [now left|]. right. exists (firstn (length o - 2) o). pose proof (firstn_skipn (length o - 2) o) as F. pose proof (skipn_length (length o - 2) o) as SL. destruct (skipn (length o - 2) o) as [|a [|b [|c r]]]; cbn [length] in SL; try lia.
  exists a, b. split; [easy|]. split; [rewrite firstn_length; lia|easy].
Qed.
(** What is read is given to the layers above once: HDLC frames without their check sum (frames
    shorter than two octets are dropped), blocks of 160 octets unchanged, with the order of
    bits reversed for TRAU (other sizes are dropped); whatever the application does in the
    callback, and nothing else is given. *)
Theorem C61_rx k vs s l t x o w act s' : no_zero k -> run k st_init vs = Ok s -> e_reg (tsl s l t) = true -> (length o <= buffer (e_type (tsl s l t)))%nat -> Forall (fun b => 0 <= b < 256) o ->
  step k s (Ready l t x (Some (RdData o)) w act) = Ok s' ->
  exists before got rest, out s' = out s ++ before ++ got ++ rest /\ delivered (e_type (tsl s l t)) l t o got /\ Forall (fun e => reception e = false) before /\ Forall (fun e => reception e = false) rest.
Proof.
  intros NZ R G LE OC E. pose proof (reach k vs s NZ R) as I. cbn [step] in E. rewrite G in E. assert (V : valid s l t = true) by (eapply valid_reg; [exact I|]; intros X; rewrite X in G; discriminate).
  unfold fd_cb in E. set (w' := w && _) in E. clearbody w'. set (s0 := if x then exception k s l t else s) in E.
  assert (H0 : Inv k s0 /\ valid s0 l t = true /\ Mute s s0). { subst s0. destruct x; [|split; [easy|]; split; [easy|apply mute_refl]]. destruct (exception_ok k s l t (v_shape k s I l t)) as (D & _). split; [eapply data_inv; eauto|]. split; [unfold valid; rewrite (proj2 (proj2 (lo_cfg _ _ _ _ _ _ (proj1 D)))); exact V|eapply data_mute; eauto]. }
  destruct H0 as (I0 & V0 & (b0 & O0 & B0)).
  assert (NL : forall got s1 s2, out s1 = out s0 ++ got -> Mute s1 s2 -> delivered (e_type (tsl s l t)) l t o got -> exists before got rest, out s2 = out s ++ before ++ got ++ rest /\ delivered (e_type (tsl s l t)) l t o got /\ Forall (fun e => reception e = false) before /\ Forall (fun e => reception e = false) rest).
  { intros got s1 s2 O (es & O2 & Q) D. exists b0, got, es. split; [|auto]. rewrite O2, O, O0, <- !app_assoc. reflexivity. }
  assert (FI : forall n, (length o <= n)%nat -> firstn n o = o) by (intros; now apply firstn_all2).
  assert (RX : forall e, idle e = true -> of_slot l t e -> match execs k act (emit s0 e) with Ok s1 => Inv k s1 /\ Mute (emit s0 e) s1 | Bad _ => True end).
  { intros e A B. pose proof (execs_ran k act NZ _ (inv_rx k s0 l t e I0 V0 A B)) as X. destruct (execs k act (emit s0 e)); [|easy]. split; apply X. }
  destruct (e_type (tsl s l t)) eqn:TY; cbn [buffer] in LE.
  - injection E as <-. exists [], [], []. cbn [app]. rewrite app_nil_r. repeat split; constructor.
  - unfold frame_read in E. cbv zeta in E. rewrite (FI 284%nat LE) in E. destruct (frame_parts o) as [L|(m & a & b & OE & L & FM)].
    + rewrite (proj2 (Nat.leb_le _ _) L) in E. apply (NL [] s0); [now rewrite app_nil_r|eapply (write_mute k s0 l t w' (fun s => sign_write k s l t)); eauto|]. split; [|easy]. intros m a b -> X. rewrite app_length in L. cbn in L. lia.
    + assert (LO : (length o = length m + 2)%nat) by (rewrite OE, app_length; reflexivity). assert (LB : (length o <=? 3)%nat = false) by (apply Nat.leb_gt; lia). rewrite LB, FM in E. destruct (e_lapd (tsl s0 l t)); [|discriminate].
      specialize (RX (DLapdRx l t m) eq_refl eq_refl). destruct (execs k act (emit s0 (DLapdRx l t m))) as [s1|]; [|discriminate]. destruct RX as [I1 M1]. pose proof (write_mute k s1 l t w' _ s' I1 (or_introl eq_refl) E) as M2.
      apply (NL [DLapdRx l t m] (emit s0 (DLapdRx l t m))); [reflexivity|eapply mute_trans; eauto|]. split; [|intros X; lia]. intros m' a' b' X Y. rewrite OE in X.
      now rewrite (tail2 _ _ _ _ _ _ X).
  - unfold block_read in E. cbv zeta in E. rewrite (FI 160%nat LE) in E. destruct (Nat.eqb_spec (length o) 160) as [L|L]; cbn [negb] in E.
    + specialize (RX (DRx l t (map rev8 o)) eq_refl eq_refl). destruct (execs k act (emit s0 (DRx l t (map rev8 o)))) as [s1|]; [|discriminate]. destruct RX as [I1 M1].
      pose proof (trau_write_ok k s1 l t (v_shape k s1 I1 l t)) as X. destruct (trau_write k s1 l t) as [s2|]; [|discriminate]. destruct X as (es & X).
      apply (NL [DRx l t (map rev8 o)] (emit s0 (DRx l t (map rev8 o)))); [reflexivity| |split; [intros _; exists (map rev8 o); split; [now apply rev8_list|easy]|easy]].
      eapply mute_trans; [exact M1|]. eapply mute_trans; [eapply data_mute; exact X|]. assert (S2 : Shape (tsl s2 l t)) by apply X. destruct w'; [|injection E as <-; apply mute_refl]. pose proof (trau_write_ok k s2 l t S2) as Y. rewrite E in Y. destruct Y as (es' & Y). eapply data_mute; eauto.
    + apply (NL [] s0); [now rewrite app_nil_r|eapply (write_mute k s0 l t w' (fun s => trau_write k s l t)); eauto|]. split; easy.
  - unfold block_read in E. cbv zeta in E. rewrite (FI 160%nat LE) in E. destruct (Nat.eqb_spec (length o) 160) as [L|L]; cbn [negb] in E.
    + specialize (RX (DRx l t o) eq_refl eq_refl). destruct (execs k act (emit s0 (DRx l t o))) as [s1|]; [|discriminate]. destruct RX as [I1 M1]. destruct (raw_write_ok k s1 l t (v_shape k s1 I1 l t)) as (es & X).
      apply (NL [DRx l t o] (emit s0 (DRx l t o))); [reflexivity| |easy]. eapply mute_trans; [exact M1|]. eapply mute_trans; [eapply data_mute; exact X|]. set (s2 := raw_write k s1 l t) in *. assert (S2 : Shape (tsl s2 l t)) by apply X. destruct w'; [|injection E as <-; apply mute_refl]. injection E as <-. destruct (raw_write_ok k s2 l t S2) as (es' & Y). eapply data_mute; eauto.
    + apply (NL [] s0); [now rewrite app_nil_r|eapply (write_mute k s0 l t w' (fun s => Ok (raw_write k s l t))); eauto|]. split; easy.
  - unfold frame_read in E. cbv zeta in E. rewrite (FI 284%nat LE) in E. destruct (frame_parts o) as [L|(m & a & b & OE & L & FM)].
    + rewrite (proj2 (Nat.leb_le _ _) L) in E. apply (NL [] s0); [now rewrite app_nil_r|eapply (write_mute k s0 l t w' (fun s => Ok (hdlc_write k s l t))); eauto|]. split; [|easy]. intros m a b -> X. rewrite app_length in L. cbn in L. lia.
    + assert (LO : (length o = length m + 2)%nat) by (rewrite OE, app_length; reflexivity). assert (LB : (length o <=? 3)%nat = false) by (apply Nat.leb_gt; lia). rewrite LB, FM in E.
      specialize (RX (DRx l t m) eq_refl eq_refl). destruct (execs k act (emit s0 (DRx l t m))) as [s1|]; [|discriminate]. destruct RX as [I1 M1].
      assert (M2 : Mute s1 s') by (eapply (write_mute k s1 l t w' (fun s => Ok (hdlc_write k s l t))); eauto).
      apply (NL [DRx l t m] (emit s0 (DRx l t m))); [reflexivity|eapply mute_trans; eauto|]. split; [|intros X; lia]. intros m' a' b' X Y. rewrite OE in X.
      now rewrite (tail2 _ _ _ _ _ _ X).
  - unfold block_read in E. cbv zeta in E. rewrite (FI 160%nat LE) in E. destruct (Nat.eqb_spec (length o) 160) as [L|L]; cbn [negb] in E.
    + specialize (RX (DRx l t o) eq_refl eq_refl). destruct (execs k act (emit s0 (DRx l t o))) as [s1|]; [|discriminate]. destruct RX as [I1 M1]. destruct (raw_write_ok k s1 l t (v_shape k s1 I1 l t)) as (es & X).
      apply (NL [DRx l t o] (emit s0 (DRx l t o))); [reflexivity| |easy]. eapply mute_trans; [exact M1|]. eapply mute_trans; [eapply data_mute; exact X|]. set (s2 := raw_write k s1 l t) in *. assert (S2 : Shape (tsl s2 l t)) by apply X. destruct w'; [|injection E as <-; apply mute_refl]. injection E as <-. destruct (raw_write_ok k s2 l t S2) as (es' & Y). eapply data_mute; eauto.
    + apply (NL [] s0); [now rewrite app_nil_r|eapply (write_mute k s0 l t w' (fun s => Ok (raw_write k s l t))); eauto|]. split; easy.
Qed.
Ltac wfs E := match goal with |- context [sign_write ?k _ ?l ?t] => first
  [ exists (fun s => sign_write k s l t); split; [tauto|exact E] | exists (fun s => trau_write k s l t); split; [tauto|exact E]
  | exists (fun s => Ok (raw_write k s l t)); split; [tauto|exact E] | exists (fun s => Ok (hdlc_write k s l t)); split; [tauto|exact E] ] end.
(** nothing else gives data to the layers above *)
Theorem C61_rx_only k vs s v s' : no_zero k -> run k st_init vs = Ok s -> (forall l t x o w act, v <> Ready l t x (Some (RdData o)) w act) -> step k s v = Ok s' ->
  exists rest, out s' = out s ++ rest /\ Forall (fun e => reception e = false) rest.
Proof.
  intros NZ R N E. pose proof (reach k vs s NZ R) as I. assert (M : Mute s s'); [|exact M]. destruct v as [l p|cs|l t x r w act|l t|l t m]; cbn [step] in E.
  - injection E as <-. destruct (exist s l); [apply mute_refl|now apply mute_same].
  - pose proof (execs_ran k cs NZ s I) as X. rewrite E in X. apply X.
  - destruct (e_reg (tsl s l t)) eqn:G; [|injection E as <-; apply mute_refl]. assert (V : valid s l t = true) by (eapply valid_reg; [exact I|]; intros X; rewrite X in G; discriminate).
    assert (EX : forall s0, Inv k s0 -> valid s0 l t = true -> Ran k s0 (exception k s0 l t)) by (intros s0 I0 V0; destruct (exception_ok k s0 l t (v_shape k s0 I0 l t)) as (D & _); eapply data_ran; eauto).
    unfold fd_cb in E. set (w' := w && _) in E. clearbody w'. set (s0 := if x then exception k s l t else s) in E. assert (H0 : Ran k s s0) by (subst s0; destruct x; [now apply EX|now apply ran_refl]). clearbody s0.
    assert (V0 : valid s0 l t = true) by (unfold valid; rewrite (r_exist _ _ _ H0); exact V). pose proof (r_inv _ _ _ H0) as I0. pose proof (EX s0 I0 V0) as E0. 
    assert (NR : r = None \/ r = Some RdErr) by (destruct r as [[|o]|]; auto; exfalso; eapply N; reflexivity).
    assert (RD : exists s1, Ran k s s1 /\ (e_type (tsl s l t) = TS_NONE \/ exists wf, (wf = (fun s => sign_write k s l t) \/ wf = (fun s => trau_write k s l t) \/ wf = (fun s => Ok (raw_write k s l t)) \/ wf = (fun s => Ok (hdlc_write k s l t))) /\ (if w' then wf s1 else Ok s1) = Ok s')).
    { destruct (e_type (tsl s l t)); [exists s; split; [now apply ran_refl|now left]|..]; (destruct NR as [-> | ->]; cbn [frame_read block_read] in E;
        first [exists s0; split; [exact H0|right]; wfs E|exists (exception k s0 l t); split; [eapply ran_trans; eauto|right]; wfs E]). }
    destruct RD as (s1 & R1 & [TN|(wf & WF & E1)]).
    + rewrite TN in E. injection E as <-. apply mute_refl.
    + eapply mute_trans; [apply R1|]. eapply (write_mute k s1 l t w' wf); eauto. apply R1.
  - destruct (e_tmr (tsl s l t)); injection E as <-; [|apply mute_refl]. unfold want_write. destruct (e_type _); now apply mute_same.
  - destruct (e_lapd (tsl s l t)); injection E as <-; [|apply mute_refl]. destruct (lapd_write_ok k s l t m (v_shape k s I l t)) as (es & D). eapply data_mute; eauto.
Qed.
(** ** events of the card *)
Lemma open_reg k s l t : Inv k s -> e_reg (tsl s l t) = true -> exists f, e_fd (tsl s l t) = Open f.
Proof. intros I G. exact (sh_reg _ (v_shape k s I l t) G). Qed.
(** Each event of a served timeslot is asked for and told: alarms as signals, errors counted;
    also when reading a frame fails. *)
Theorem C61_events k vs s l t r act : no_zero k -> run k st_init vs = Ok s -> e_reg (tsl s l t) = true -> e_type (tsl s l t) <> TS_NONE -> r <> Some RdErr -> (forall o, r <> Some (RdData o)) ->
  exists s', step k s (Ready l t true r false act) = Ok s' /\ out s' = out s ++ told (k_event k (tick s)) l t /\ tsl s' = tsl s.
Proof.
  intros NZ R G TY NE NO. pose proof (reach k vs s NZ R) as I. destruct (open_reg k s l t I G) as (f & F). destruct (exception_ok k s l t (v_shape k s I l t)) as (D & T & _). rewrite F in D. exists (exception k s l t).
  assert (RN : r = None) by (destruct r as [[|o]|]; [contradiction|now elim (NO o)|easy]). subst r. split; [|split; [apply D|exact T]]. cbn [step]. rewrite G. unfold fd_cb. cbn [andb]. destruct (e_type (tsl s l t)); easy.
Qed.
Theorem C61_read_error k vs s l t act : no_zero k -> run k st_init vs = Ok s -> e_reg (tsl s l t) = true ->
  exists s', step k s (Ready l t false (Some RdErr) false act) = Ok s' /\ tsl s' = tsl s /\ out s' = out s ++ match e_type (tsl s l t) with TS_SIGN | TS_HDLC => told (k_event k (tick s)) l t | _ => [] end.
Proof.
  intros NZ R G. pose proof (reach k vs s NZ R) as I. destruct (open_reg k s l t I G) as (f & F). destruct (exception_ok k s l t (v_shape k s I l t)) as (D & T & _). rewrite F in D. cbn [step]. rewrite G. unfold fd_cb. cbn [andb].
  destruct (e_type (tsl s l t)); cbn [frame_read block_read]; (eexists; split; [reflexivity|]); (split; [easy|]); try (now rewrite app_nil_r); apply D.
Qed.

(** ** sending *)
(** A timeslot with room that asked for it hands over the oldest message: HDLC with two octets
    for the check sum, raw without; signalling to the LAPD instance, then waits. *)
Theorem C61_tx_hdlc k vs s l t m q : no_zero k -> run k st_init vs = Ok s -> e_reg (tsl s l t) = true -> e_wr (tsl s l t) = true -> e_type (tsl s l t) = TS_HDLC -> e_q (tsl s l t) = [(0%nat, m :: q)] ->
  exists s' f a b r rest, step k s (Ready l t false None true []) = Ok s' /\ out s' = out s ++ DSend l t 0 f m [a; b] r :: rest /\ e_fd (tsl s l t) = Open f /\ e_q (tsl s' l t) = [(0%nat, q)] /\ e_wr (tsl s' l t) = true.
Proof.
  intros NZ R G W TY Q. pose proof (reach k vs s NZ R) as I. destruct (open_reg k s l t I G) as (f & F). cbn [step]. rewrite G, W. unfold fd_cb. rewrite TY. cbn [andb]. unfold hdlc_write, tx_ts. rewrite TY, Q. cbn [take]. unfold put. cbv zeta. cbn [tsl set_ts]. rewrite upd2, here_refl. cbn [w_q e_fd]. rewrite F.
  set (s1 := emit _ _). assert (O1 : exists a b r, out s1 = out s ++ [DSend l t 0 f m [a; b] r]) by (do 3 eexists; reflexivity). destruct O1 as (a & b & r & O1).
  assert (T1 : tsl s1 l t = w_q (tsl s l t) [(0%nat, q)] (e_tmr (tsl s l t))) by (subst s1; esg; now here_at). clearbody s1.
  destruct (_ =? -1).
  - assert (S1 : Shape (tsl s1 l t)). { rewrite T1. pose proof (v_shape k s I l t) as S. destruct S. constructor; esg; auto; [rewrite Q in sh_keys; exact sh_keys|rewrite TY; eauto|intros T; destruct (sh_tmr T); congruence]. }
    destruct (exception_ok k s1 l t S1) as (D & T & _). eexists _, f, a, b, r, _. split; [reflexivity|]. split; [rewrite (lo_out _ _ _ _ _ _ (proj1 D)), O1, <- app_assoc; reflexivity|]. rewrite T, T1. now esg.
  - eexists _, f, a, b, r, []. split; [reflexivity|]. split; [exact O1|]. rewrite T1. now esg.
Qed.
Theorem C61_tx_raw k vs s l t m q : no_zero k -> run k st_init vs = Ok s -> e_reg (tsl s l t) = true -> e_wr (tsl s l t) = true -> e_type (tsl s l t) = TS_RAW -> e_q (tsl s l t) = [(0%nat, m :: q)] ->
  exists s' f r, step k s (Ready l t false None true []) = Ok s' /\ out s' = out s ++ [DSend l t 0 f m [] r] /\ e_fd (tsl s l t) = Open f /\ e_q (tsl s' l t) = [(0%nat, q)].
Proof.
  intros NZ R G W TY Q. pose proof (reach k vs s NZ R) as I. destruct (open_reg k s l t I G) as (f & F). cbn [step]. rewrite G, W. unfold fd_cb. rewrite TY. cbn [andb]. unfold raw_write, tx_ts. rewrite TY, Q. cbn [take]. unfold put. cbv zeta. cbn [tsl set_ts]. rewrite upd2, here_refl. cbn [w_q e_fd]. rewrite F.
  eexists _, f, _. split; [reflexivity|]. cbn [fst]. split; [reflexivity|]. split; [easy|]. esg. now here_at.
Qed.
Theorem C61_tx_sign k vs s l t i m q : no_zero k -> run k st_init vs = Ok s -> e_reg (tsl s l t) = true -> e_wr (tsl s l t) = true -> e_type (tsl s l t) = TS_SIGN -> e_lapd (tsl s l t) = true -> take (e_q (tsl s l t)) = Some (i, m, q) ->
  exists s', step k s (Ready l t false None true []) = Ok s' /\ out s' = out s ++ [DLapdTx l t i m] /\ e_q (tsl s' l t) = q /\ e_wr (tsl s' l t) = false /\ e_tmr (tsl s' l t) = true.
Proof.
  intros NZ R G W TY LA Q. cbn [step]. rewrite G, W. unfold fd_cb. rewrite TY. cbn [andb]. unfold sign_write, tx_ts. cbv zeta. cbn [tsl set_ts]. rewrite !upd2, !here_refl. cbn [w_wr e_type e_q]. rewrite TY, Q. cbn [tsl set_ts]. rewrite !upd2, !here_refl. cbn [w_q w_wr e_type e_lapd e_tmr e_q]. rewrite LA.
  eexists. split; [rewrite TY; reflexivity|]. split; [reflexivity|]. esg. here_at. now esg.
Qed.
(** For each block a TRAU timeslot receives it sends one: what the multiplexer gives, the order
    of bits reversed. *)
Theorem C61_tx_trau k vs s l t o : no_zero k -> run k st_init vs = Ok s -> e_reg (tsl s l t) = true -> e_type (tsl s l t) = TS_TRAU -> length o = 160%nat -> Forall (fun b => 0 <= b < 256) o -> (forall n, Forall (fun b => 0 <= b < 256) (k_mux k n)) ->
  exists s' f o' d e r, step k s (Ready l t false (Some (RdData o)) false []) = Ok s' /\ e_fd (tsl s l t) = Open f /\ out s' = out s ++ [DRx l t o'; DMuxOut l t d; DBlock l t f e [] r] /\ Forall2 reversed o o' /\ Forall2 reversed d e /\ tsl s' = tsl s /\ d = k_mux k (tick s).
Proof.
  intros NZ R G TY LO OC MX. pose proof (reach k vs s NZ R) as I. destruct (open_reg k s l t I G) as (f & F). cbn [step]. rewrite G. unfold fd_cb. rewrite TY. cbn [andb]. unfold block_read. cbv zeta. rewrite firstn_all2 by lia. rewrite LO. cbn [Nat.eqb negb execs]. unfold trau_write. cbv zeta. cbn [tsl emit]. rewrite TY. cbn [type_eqb].
  unfold put. cbv zeta. cbn [tsl emit next]. rewrite F. cbn [fst]. eexists _, f, (map rev8 o), (k_mux k (tick s)), (map rev8 (k_mux k (tick s))), _. split; [reflexivity|]. split; [easy|]. split; [esg; rewrite <- !app_assoc; reflexivity|]. split; [now apply rev8_list|]. split; [now apply rev8_list|]. split; reflexivity.
Qed.

(** ** messages that wait keep being asked for *)
Definition Asks (x : ets) : Prop := forall i m q, In (i, m :: q) (e_q x) -> e_wr x = true \/ e_tmr x = true.
Definition asks (s : st) : Prop := forall l t, Asks (tsl s l t).
Lemma asks_set s s' l t x : asks s -> (forall l' t', tsl s' l' t' = if here l t l' t' then x else tsl s l' t') -> Asks x -> asks s'.
Proof. intros A T X l' t'. rewrite T. destruct (here l t l' t'); [exact X|apply A]. Qed.
Lemma asks_same s s' : asks s -> tsl s' = tsl s -> asks s'. Proof. intros A E l t. rewrite E. apply A. Qed.
Lemma take_none_in q i m ms : take q = None -> ~ In (i, m :: ms) q.
Proof. induction q as [|[j x] r IH]; [easy|]. cbn [take]. destruct x as [|y x]; [|discriminate]. destruct (take r) as [[[? ?] ?]|]; [discriminate|]. intros _ [H|H]; [discriminate|now apply IH]. Qed.
Lemma take_some_in q i m q' : take q = Some (i, m, q') -> exists j n ms, In (j, n :: ms) q.
Proof. revert q'. induction q as [|[j x] r IH]; intros q'; [easy|]. cbn [take]. destruct x as [|y x]. - destruct (take r) as [[[? ?] r']|] eqn:T; [|discriminate]. intros H. injection H as -> -> <-. destruct (IH r' eq_refl) as (a & b & c & H). exists a, b, c. now right. - intros _. exists j, y, x. now left. Qed.
Lemma tx_asks k s l t s1 o : asks s -> tx_ts k s l t = (s1, o) -> asks s1 /\ (o = None -> type_eqb (e_type (tsl s l t)) TS_NONE = true \/ forall i m q, ~ In (i, m :: q) (e_q (tsl s1 l t))).
Proof.
  intros A E. unfold tx_ts in E. cbv zeta in E. destruct (e_type (tsl s l t)) eqn:TY; try (injection E as <- <-; split; [exact A|(discriminate || now left)]);
  (destruct (take (e_q (tsl s l t))) as [[[i m] q]|] eqn:TK; injection E as <- <-; [|split; [exact A|]; intros _; right; intros i m q; now apply take_none_in]; split; [|discriminate];
   eapply (asks_set s _ l t); [exact A|intros; esg; apply upd2|]; intros a b c H; esg; destruct (take_some_in _ _ _ _ TK) as (a' & b' & c' & H'); exact (A l t _ _ _ H')).
Qed.
Lemma put_tsl k s l t i m p : tsl (fst (put k s l t i m p)) = tsl s.
Proof. unfold put. cbv zeta. destruct (e_fd (tsl s l t)); reflexivity. Qed.
Lemma exc_tsl k s l t : tsl (exception k s l t) = tsl s.
Proof. unfold exception. cbv zeta. destruct (e_fd _); try reflexivity; (destruct (k_event _ _) as [[]|]; reflexivity). Qed.
Lemma clear_asks s l t : asks s -> (forall i m q, ~ In (i, m :: q) (e_q (tsl s l t))) -> asks (set_ts s l t (w_wr (tsl s l t) false)).
Proof. intros A N. eapply (asks_set s _ l t); [exact A|intros; esg; apply upd2|]. intros i m q H. now elim (N i m q). Qed.
Lemma raw_asks k s l t : Shape (tsl s l t) -> asks s -> asks (raw_write k s l t).
Proof.
  intros S A. unfold raw_write. destruct (tx_ts k s l t) as [s1 [[i m]|]] eqn:TX; destruct (tx_asks k s l t _ _ A TX) as [A1 B].
  - eapply asks_same; [exact A1|apply put_tsl].
  - apply clear_asks; [exact A1|]. destruct (B eq_refl) as [B1|B1]; [|exact B1]. apply tx_none in TX as ->. intros a b c H. destruct (type_eqb_spec (e_type (tsl s l t)) TS_NONE) as [TY|]; [|discriminate]. pose proof (sh_q _ S) as Q. rewrite TY in Q. rewrite Q in H. easy.
Qed.
Lemma hdlc_asks k s l t : Shape (tsl s l t) -> asks s -> asks (hdlc_write k s l t).
Proof.
  intros S A. unfold hdlc_write. destruct (tx_ts k s l t) as [s1 [[i m]|]] eqn:TX; destruct (tx_asks k s l t _ _ A TX) as [A1 B].
  - pose proof (put_tsl k s1 l t i m (pad2 k s1)) as P. destruct (put k s1 l t i m (pad2 k s1)) as [s2 r]. cbn [fst] in P. destruct (r =? -1); [|now apply (asks_same s1)]. apply (asks_same s1); [exact A1|]. now rewrite exc_tsl.
  - apply clear_asks; [exact A1|]. destruct (B eq_refl) as [B1|B1]; [|exact B1]. apply tx_none in TX as ->. intros a b c H. destruct (type_eqb_spec (e_type (tsl s l t)) TS_NONE) as [TY|]; [|discriminate]. pose proof (sh_q _ S) as Q. rewrite TY in Q. rewrite Q in H. easy.
Qed.
Lemma sign_asks k s l t s' : Shape (tsl s l t) -> asks s -> sign_write k s l t = Ok s' -> asks s'.
Proof.
  intros S A E. unfold sign_write in E. cbv zeta in E. set (s0 := set_ts s l t _) in E. assert (T0 : forall l' t', tsl s0 l' t' = if here l t l' t' then w_wr (tsl s l t) false else tsl s l' t') by (intros; subst s0; esg; apply upd2).
  assert (T1 : tsl s0 l t = w_wr (tsl s l t) false) by (now rewrite T0, here_refl). clearbody s0. unfold tx_ts in E. cbv zeta in E. rewrite T1 in E. cbn [w_wr e_type e_q] in E. pose proof (sh_q _ S) as SQ.
  assert (N : (forall i m q, ~ In (i, m :: q) (e_q (tsl s l t))) -> asks s0) by (intros N; eapply (asks_set s _ l t); [exact A|exact T0|]; intros i m q H; now elim (N i m q)).
  destruct (e_type (tsl s l t)) eqn:TY.
  - injection E as <-. apply N. rewrite SQ. easy.
  - destruct (take (e_q (tsl s l t))) as [[[i m] q]|] eqn:TK; [|injection E as <-; apply N; intros i m q; now apply take_none_in].
    cbn [tsl set_ts] in E. rewrite !upd2, !here_refl in E. cbn [w_q w_wr e_type e_lapd e_q e_tmr] in E. rewrite TY in E. destruct (e_lapd (tsl s l t)); [|discriminate]. injection E as <-.
    intros l' t'. cbn [emit set_ts tsl]. rewrite !upd2. destruct (here l t l' t') eqn:HH; [intros ? ? ? _; right; esg; now here_at|]. rewrite T0, HH. apply A.
  - cbn [tsl emit next] in E. rewrite T1 in E. cbn [w_wr e_type] in E. rewrite TY in E. discriminate.
  - destruct (take (e_q (tsl s l t))) as [[[i m] q]|] eqn:TK; [|injection E as <-; apply N; intros i m q; now apply take_none_in]. cbn [tsl set_ts] in E. rewrite !upd2, !here_refl in E. cbn [w_q w_wr e_type] in E. rewrite TY in E. discriminate.
  - destruct (take (e_q (tsl s l t))) as [[[i m] q]|] eqn:TK; [|injection E as <-; apply N; intros i m q; now apply take_none_in]. cbn [tsl set_ts] in E. rewrite !upd2, !here_refl in E. cbn [w_q w_wr e_type] in E. rewrite TY in E. discriminate.
  - cbn [tsl emit next] in E. rewrite T1 in E. cbn [w_wr e_type] in E. rewrite TY in E. discriminate.
Qed.
Lemma trau_asks k s l t s' : asks s -> trau_write k s l t = Ok s' -> asks s'.
Proof. intros A E. unfold trau_write in E. cbv zeta in E. destruct (type_eqb _ _); [discriminate|]. injection E as <-. eapply asks_same; [exact A|]. now rewrite put_tsl. Qed.
Lemma exec_asks k s c s' : match c with CUpdate _ | CUnlink _ _ _ => false | _ => true end = true -> asks s -> exec k s c = Ok s' -> asks s'.
Proof.
  intros P A E. destruct c as [l t ty|l p|l|l t i|l t i|l t i m]; try discriminate; cbn [exec] in E.
  - destruct (valid s l t); [|injection E as <-; exact A]. unfold config in E. cbv zeta in E. destruct (type_eqb _ ty); [injection E as <-; exact A|]. destruct (_ && _); [discriminate|]. injection E as <-.
    eapply (asks_set s _ l t); [exact A|intros; esg; apply upd2|]. intros i m q H. cbn [e_q] in H. destruct ty; cbn in H; try easy; destruct H as [H|[]]; discriminate.
  - injection E as <-. destruct (exist s l); exact A.
  - injection E as <-. destruct (valid s l t); [|exact A]. unfold link. cbv zeta. destruct (_ && _); [|exact A]. eapply (asks_set s _ l t); [exact A|intros; esg; apply upd2|]. intros a b c H. esg. cbn [w_q e_q] in H. apply in_app_iff in H as [H|[H|[]]]; [|discriminate]. eapply A; eauto.
  - injection E as <-. destruct (valid s l t); [|exact A]. unfold send. cbv zeta. destruct (negb _); [exact A|]. destruct (e_type (tsl s l t)) eqn:TY; try exact A.
    + destruct (e_tmr (tsl s l t)) eqn:TM.
      * eapply (asks_set s _ l t); [exact A|intros; esg; apply upd2|]. intros a b c H. right. reflexivity.
      * unfold want_write. cbn [emit set_ts tsl]. rewrite !upd2, !here_refl. cbn [w_q e_type]. rewrite TY. intros l' t'. cbn [emit set_ts tsl]. rewrite !upd2. destruct (here l t l' t') eqn:HH; [intros ? ? ? _; left; reflexivity|apply A].
    + unfold want_write. rewrite TY. intros l' t'. cbn [emit set_ts tsl]. rewrite !upd2. destruct (here l t l' t') eqn:HH; [intros ? ? ? _; left; esg; now here_at|apply A].
    + unfold want_write. rewrite TY. intros l' t'. cbn [emit set_ts tsl]. rewrite !upd2. destruct (here l t l' t') eqn:HH; [intros ? ? ? _; left; esg; now here_at|apply A].
Qed.
Lemma execs_asks k cs : plain_cmds cs = true -> forall s s', asks s -> execs k cs s = Ok s' -> asks s'.
Proof.
  induction cs as [|c r IH]; intros P s s' A E; cbn [execs] in E; [injection E as <-; exact A|]. unfold plain_cmds in P. cbn [forallb] in P. apply andb_true_iff in P as [P1 P2]. destruct (exec k s c) as [s1|] eqn:X; [|discriminate]. apply (IH P2 s1); [|exact E]. exact (exec_asks k s c s1 P1 A X).
Qed.
Lemma step_asks k s v s' : no_zero k -> Inv k s -> calm v = true -> asks s -> step k s v = Ok s' -> asks s'.
Proof.
  intros NZ I C A E. destruct v as [l p|cs|l t x r w act|l t|l t m]; cbn [step calm] in *.
  - injection E as <-. destruct (exist s l); exact A.
  - eapply execs_asks; eauto.
  - destruct (e_reg (tsl s l t)) eqn:G; [|injection E as <-; exact A]. assert (V : valid s l t = true) by (eapply valid_reg; [exact I|]; intros X; rewrite X in G; discriminate).
    unfold fd_cb in E. set (w' := w && _) in E. clearbody w'. set (s0 := if x then exception k s l t else s) in E. assert (A0 : asks s0 /\ Inv k s0 /\ valid s0 l t = true).
    { subst s0. destruct x; [|auto]. split; [eapply asks_same; [exact A|apply exc_tsl]|]. destruct (exception_ok k s l t (v_shape k s I l t)) as (D & _). split; [eapply data_inv; eauto|]. unfold valid. now rewrite (proj2 (proj2 (lo_cfg _ _ _ _ _ _ (proj1 D)))). }
    clearbody s0. destruct A0 as (A0 & I0 & V0).
    assert (RX : forall e, idle e = true -> of_slot l t e -> match execs k act (emit s0 e) with Ok s1 => Inv k s1 /\ asks s1 | Bad _ => True end).
    { intros e X Y. pose proof (execs_ran k act NZ _ (inv_rx k s0 l t e I0 V0 X Y)) as Z. pose proof (execs_asks k act C (emit s0 e)) as Z'. destruct (execs k act (emit s0 e)) as [s1|]; [|easy]. split; [apply Z|]. now apply Z'. }
    assert (FR : forall b r s1, frame_read k s0 l t b r act = Ok s1 -> asks s1 /\ Shape (tsl s1 l t)).
    { intros b r0 s1 X. unfold frame_read in X. destruct r0 as [|o].
      - injection X as <-. split; [eapply asks_same; [exact A0|apply exc_tsl]|rewrite exc_tsl; apply I0].
      - cbv zeta in X. destruct (_ <=? _)%nat; [injection X as <-; split; [exact A0|apply I0]|]. set (mm := firstn _ _) in X. clearbody mm.
        destruct b; [destruct (e_lapd _); [|discriminate]|].
        + pose proof (RX (DLapdRx l t mm) eq_refl eq_refl) as Y. rewrite X in Y. destruct Y as [Y1 Y2]. split; [exact Y2|apply Y1].
        + pose proof (RX (DRx l t mm) eq_refl eq_refl) as Y. rewrite X in Y. destruct Y as [Y1 Y2]. split; [exact Y2|apply Y1]. }
    assert (BR : forall b r s1, block_read k s0 l t b r act = Ok s1 -> asks s1 /\ Shape (tsl s1 l t)).
    { intros b r0 s1 X. unfold block_read in X. destruct r0 as [|o]; [injection X as <-; split; [exact A0|apply I0]|]. cbv zeta in X. destruct (negb _); [injection X as <-; split; [exact A0|apply I0]|]. set (e := DRx l t _) in X.
      pose proof (RX e eq_refl eq_refl) as Y. destruct (execs k act (emit s0 e)) as [s2|]; [|discriminate]. destruct Y as [Y1 Y2]. pose proof (v_shape k s2 Y1 l t) as S2. destruct b.
      - split; [eapply trau_asks; eauto|]. pose proof (trau_write_ok k s2 l t S2) as W. rewrite X in W. destruct W as (es & W). apply W.
      - injection X as <-. split; [now apply raw_asks|]. destruct (raw_write_ok k s2 l t S2) as (es & W). apply W. }
    assert (RD : forall rf, (forall r s1, rf r = Ok s1 -> asks s1 /\ Shape (tsl s1 l t)) -> forall s1, match r with Some r => rf r | None => Ok s0 end = Ok s1 -> asks s1 /\ Shape (tsl s1 l t)) by (intros rf H s1 X; destruct r; [eauto|injection X as <-; split; [exact A0|apply I0]]).
    destruct (e_type (tsl s l t)).
    + injection E as <-. exact A.
    + pose proof (RD _ (FR true)) as H. destruct (match r with Some r => _ | None => _ end) as [s1|]; [|discriminate]. destruct (H s1 eq_refl) as [H1 H2]. destruct w'; [eapply sign_asks; eauto|injection E as <-; exact H1].
    + pose proof (RD _ (BR true)) as H. destruct (match r with Some r => _ | None => _ end) as [s1|]; [|discriminate]. destruct (H s1 eq_refl) as [H1 H2]. destruct w'; [eapply trau_asks; eauto|injection E as <-; exact H1].
    + pose proof (RD _ (BR false)) as H. destruct (match r with Some r => _ | None => _ end) as [s1|]; [|discriminate]. destruct (H s1 eq_refl) as [H1 H2]. destruct w'; injection E as <-; [now apply raw_asks|exact H1].
    + pose proof (RD _ (FR false)) as H. destruct (match r with Some r => _ | None => _ end) as [s1|]; [|discriminate]. destruct (H s1 eq_refl) as [H1 H2]. destruct w'; injection E as <-; [now apply hdlc_asks|exact H1].
    + pose proof (RD _ (BR false)) as H. destruct (match r with Some r => _ | None => _ end) as [s1|]; [|discriminate]. destruct (H s1 eq_refl) as [H1 H2]. destruct w'; injection E as <-; [now apply raw_asks|exact H1].
  - destruct (e_tmr (tsl s l t)) eqn:T; injection E as <-; [|exact A]. destruct (sh_tmr _ (v_shape k s I l t) T) as [TY _]. unfold want_write. cbn [set_ts tsl]. rewrite upd2, here_refl. cbn [w_q e_type]. rewrite TY. intros l' t'. cbn [set_ts tsl]. rewrite !upd2. destruct (here l t l' t'); [intros ? ? ? _; left; reflexivity|apply A].
  - destruct (e_lapd (tsl s l t)); injection E as <-; [|exact A]. apply (asks_same s); [exact A|]. unfold lapd_write. cbv zeta. destruct (e_fd _); try reflexivity; (destruct (_ =? -1); [now rewrite exc_tsl|reflexivity]).
Qed.
(** as long as no line is updated and no signalling link taken down *)
Theorem C61_no_stall k vs s vs2 s' : no_zero k -> run k st_init vs = Ok s -> (forall l t, asked s l t) -> forallb calm vs2 = true -> run k s vs2 = Ok s' -> forall l t, asked s' l t.
Proof.
  intros NZ R A C E. pose proof (reach k vs s NZ R) as I. clear R. revert s I A E. induction vs2 as [|v r IH]; intros s I A E; cbn [run forallb] in *; [injection E as <-; exact A|]. apply andb_prop in C as [C1 C2].
  destruct (step k s v) as [s1|] eqn:S1; [|discriminate]. apply (IH C2 s1); auto.
  - pose proof (step_kept k s v NZ I) as X. now rewrite S1 in X.
  - exact (step_asks k s v s1 NZ I C1 A S1).
Qed.

(** * Concrete cases and what does not hold *)
Definition sees {A} (r : res st) (f : st -> A) : option A := match r with Ok s => Some (f s) | Bad _ => None end.
(** two spans with 31 channels, all goes well *)
Definition real : kern := mkK 32 (fun _ => true) (fun _ p => if (p <=? 2)%nat then Some 31%nat else None) (fun _ => OpOk) (fun _ => true) (fun _ => true) (fun _ => 160) (fun _ => Some EvAlarm) (fun _ => repeat 1 160) (fun _ => (0, 0)).
Lemma real_obliging : obliging real. Proof. intros n. auto. Qed.
Lemma real_no_zero : no_zero real. Proof. intros n. discriminate. Qed.
Lemma real_steady : steady real [0%nat; 1%nat] 31.
Proof. split; [lia|]. intros p [<-|[<-|[]]]; (split; [cbn; lia|]); reflexivity. Qed.
Lemma real_report m i : k_span real m (S i) = (if (i <=? 1)%nat then Some 31%nat else None). Proof. reflexivity. Qed.
Definition start : list ev := [Create 0 1; App [CConfig 0 0 TS_SIGN; CConfig 0 1 TS_TRAU; CConfig 0 2 TS_HDLC; CConfig 0 3 TS_RAW; CUpdate 0; CLink 0 0 4; CLink 0 0 7]].
Example ex_polite : forallb (polite [0%nat; 1%nat]) start = true /\ forallb unmoved start = true. Proof. split; reflexivity. Qed.
Example ex_start : sees (run real st_init start) (fun s => skipn 4 (out s)) =
  Some [DUpdate 0; DOpen 0 0 32 1; DMode 0 0 1 true; DReg 0 0 1; DOpen 0 1 33 4; DMode 0 1 4 false; DReg 0 1 4; DOpen 0 2 34 7; DMode 0 2 7 true; DReg 0 2 7; DOpen 0 3 35 10; DMode 0 3 10 false; DReg 0 3 10; DRet 0 0; DLink 0 0 4; DLink 0 0 7].
Proof. vm_compute. reflexivity. Qed.
(** data both ways *)
Example ex_data : sees (run real st_init (start ++ [App [CSend 0 0 7 [1]; CSend 0 0 4 [2]; CSend 0 2 0 [5;6]; CSend 0 3 0 [8]]; Ready 0 0 false (Some (RdData [1;2;3;4;5])) true []; TxTimer 0 0; Ready 0 0 false None true []; LapdOut 0 0 [9];
    Ready 0 2 true (Some (RdData [1;2;3;4])) true []; Ready 0 3 false (Some (RdData (repeat 3 160))) false []; Ready 0 1 false (Some (RdData (repeat 2 160))) true []])) (fun s => skipn 20 (out s)) =
  Some [DAcc 0 0 7 [1]; DAcc 0 0 4 [2]; DAcc 0 2 0 [5; 6]; DAcc 0 3 0 [8]; DLapdRx 0 0 [1; 2; 3]; DLapdTx 0 0 4 [2]; DLapdTx 0 0 7 [1]; DLapdWr 0 0 1 [9] [0; 0] 160;
        DSig 0 2 true; DCtr 0 2 CtrAlarm; DRx 0 2 [1; 2]; DSend 0 2 0 7 [5; 6] [0; 0] 160; DRx 0 3 (repeat 3 160); DSend 0 3 0 10 [8] [] 160; DRx 0 1 (repeat 64 160); DMuxOut 0 1 (repeat 1 160); DBlock 0 1 4 (repeat 128 160) [] 160].
Proof. vm_compute. reflexivity. Qed.
(** a timeslot taken out of use is closed; others keep their descriptors *)
Example ex_unused : sees (run real st_init (start ++ [App [CConfig 0 3 TS_NONE; CUpdate 0]])) (fun s => skipn 21 (out s)) =
  Some [DUpdate 0; DUnreg 0 0 1; DMode 0 0 1 true; DReg 0 0 1; DUnreg 0 1 4; DMode 0 1 4 false; DReg 0 1 4; DUnreg 0 2 7; DMode 0 2 7 true; DReg 0 2 7; DUnreg 0 3 10; DClose 0 3 10; DRet 0 0].
Proof. vm_compute. reflexivity. Qed.
(** the hypotheses of the theorems on sending *)
Example ex_waiting : sees (run real st_init (start ++ [App [CSend 0 0 7 [1]; CSend 0 2 0 [5;6]; CSend 0 3 0 [8]]])) (fun s => map (fun t => (e_reg (tsl s 0 t), e_wr (tsl s 0 t), e_lapd (tsl s 0 t), e_q (tsl s 0 t))) [0%nat; 2%nat; 3%nat]) =
  Some [(true, true, true, [(4%nat, []); (7%nat, [[1]])]); (true, true, false, [(0%nat, [[5; 6]])]); (true, true, false, [(0%nat, [[8]])])].
Proof. vm_compute. reflexivity. Qed.
Definition nothing_sent (e : eff) : bool := match e with DAcc _ _ _ _ | DSend _ _ _ _ _ _ _ | DLapdTx _ _ _ _ | DStray _ _ _ _ | DDrop _ _ _ _ => false | _ => true end.
Lemma waiting_none l t i es : forallb nothing_sent es = true -> waiting l t i [] es = Some [].
Proof. induction es as [|e r IH]; [easy|]. cbn [forallb waiting]. intros H. apply andb_prop in H as [H1 H2]. destruct (mine l t e); [|now apply IH]. destruct e; try discriminate; cbn [passes]; try (now apply IH). destruct (Nat.eqb k i); now apply IH. Qed.
Lemma ex_asked : exists s, run real st_init start = Ok s /\ forall l t, asked s l t.
Proof.
  destruct (run real st_init start) as [s|q] eqn:E; [|exfalso; assert (X : sees (run real st_init start) (fun _ => tt) = Some tt) by (vm_compute; reflexivity); rewrite E in X; discriminate].
  exists s. split; [easy|]. intros l t i m q IN. exfalso.
  assert (W : forall i, waiting l t i [] (out s) = Some []).
  { intros j. apply waiting_none. assert (O : sees (run real st_init start) (fun s => forallb nothing_sent (out s)) = Some true) by (vm_compute; reflexivity). rewrite E in O. cbn [sees] in O. congruence. }
  pose proof (C61_fifo real start s l t i real_no_zero E) as F. rewrite W in F. injection F as F.
  pose proof (sh_keys _ (v_shape _ _ (reach real start s real_no_zero E) l t)) as N. revert F N IN. generalize (e_q (tsl s l t)) as qs. clear. induction qs as [|[j x] r IH]; [easy|]. cbn [queue map fst]. intros F N [H|H].
  - injection H as -> ->. rewrite Nat.eqb_refl in F. discriminate.
  - inversion N as [|? ? N1 N2]. destruct (Nat.eqb_spec j i) as [->|]; [apply N1, in_map_iff; now exists (i, m :: q)|now apply IH].
Qed.

(** ** refuted: things that break *)
(** a port beyond the table of spans *)
Theorem C60_port_out_of_table : run real st_init [Create 0 32; App [CUpdate 0]] = Bad OutOfTable.
Proof. reflexivity. Qed.
(** a span with more channels than line->ts[] has entries *)
Definition wide : kern := mkK 32 (fun _ => true) (fun _ p => Some 33%nat) (fun _ => OpOk) (fun _ => true) (fun _ => true) (fun _ => 160) (fun _ => None) (fun _ => []) (fun _ => (0, 0)).
Theorem C60_wide_span : run wide st_init [Create 0 0; App [CUpdate 0]] = Bad BeyondSlots.
Proof. reflexivity. Qed.
(** a channel opened as descriptor number 0: opened again by each update, never closed *)
Definition zeroes : kern := mkK 32 (fun _ => true) (fun _ p => Some 31%nat) (fun n => if (n =? 1)%nat then OpZero else OpOk) (fun _ => true) (fun _ => true) (fun _ => 160) (fun _ => None) (fun _ => []) (fun _ => (0, 0)).
Theorem C60_descriptor_zero : sees (run zeroes st_init [Create 0 0; App [CConfig 0 0 TS_RAW; CUpdate 0; CUpdate 0]]) out =
  Some [DConf 0 0 TS_RAW; DUpdate 0; DOpen 0 0 1 1; DMode 0 0 1 false; DReg 0 0 1; DRet 0 0; DUpdate 0; DUnreg 0 0 1; DOpen 0 0 1 5; DMode 0 0 5 false; DReg 0 0 5; DRet 0 0].
Proof. vm_compute. reflexivity. Qed.
(** an open that fails once is not tried again; the second timeslot is never reached *)
Definition hiccup : kern := mkK 32 (fun _ => true) (fun _ p => Some 31%nat) (fun n => if (n =? 1)%nat then OpFail else OpOk) (fun _ => true) (fun _ => true) (fun _ => 160) (fun _ => None) (fun _ => []) (fun _ => (0, 0)).
Theorem C60_failed_open_stays : sees (run hiccup st_init [Create 0 0; App [CConfig 0 0 TS_RAW; CConfig 0 1 TS_RAW; CUpdate 0; CUpdate 0]]) (fun s => (out s, e_fd (tsl s 0 0), e_fd (tsl s 0 1))) =
  Some ([DConf 0 0 TS_RAW; DConf 0 1 TS_RAW; DUpdate 0; DRet 0 (-5); DUpdate 0; DRet 0 (-5)], Failed, Closed).
Proof. vm_compute. reflexivity. Qed.
(** an update that fails half way leaves later timeslots configured but not set up *)
Definition half : kern := mkK 32 (fun _ => true) (fun _ p => Some 31%nat) (fun _ => OpOk) (fun n => negb (n =? 8)%nat) (fun _ => true) (fun _ => 160) (fun _ => None) (fun _ => []) (fun _ => (0, 0)).
Theorem C60_half_update : let vs := [Create 0 0; App [CConfig 0 0 TS_RAW; CConfig 0 1 TS_RAW; CUpdate 0]; App [CConfig 0 1 TS_SIGN; CUpdate 0]; Ready 0 1 false (Some (RdData [1;2;3;4])) false []] in
  forallb (polite [0%nat]) vs = true /\ run half st_init vs = Bad NullLapd.
Proof. split; vm_compute; reflexivity. Qed.
(** configuring for signalling without updating, then data arrives *)
Theorem C60_no_update : run real st_init (start ++ [App [CConfig 0 3 TS_SIGN]; Ready 0 3 false (Some (RdData [1;2;3;4])) false []]) = Bad NullLapd.
Proof. vm_compute. reflexivity. Qed.
(** the application, given a message, unconfigures that timeslot: what is then written goes to
    descriptor 0; makes an I.460 timeslot of a TRAU timeslot, or a signalling timeslot of a raw one *)
Theorem C60_own_timeslot_stray : sees (run real st_init (start ++ [Ready 0 1 false (Some (RdData (repeat 2 160))) false [CConfig 0 1 TS_NONE; CUpdate 0]])) (fun s => existsb (fun e => match e with DStray 0 1 None _ => true | _ => false end) (out s)) = Some true.
Proof. vm_compute. reflexivity. Qed.
Theorem C60_own_timeslot_mux : run real st_init (start ++ [Ready 0 1 false (Some (RdData (repeat 2 160))) false [CConfig 0 1 TS_I460; CUpdate 0]]) = Bad MuxGone.
Proof. vm_compute. reflexivity. Qed.
Theorem C60_own_timeslot_link : run real st_init (start ++ [App [CSend 0 0 4 [1]]; Ready 0 0 false (Some (RdData [1;2;3;4])) true [CUnlink 0 0 4; CUnlink 0 0 7; CConfig 0 0 TS_RAW; CUpdate 0; CSend 0 0 0 [1]]]) = Bad BadLink.
Proof. vm_compute. reflexivity. Qed.
(** a signalling timeslot configured otherwise while it has links *)
Theorem C60_links_left_reached : forallb (polite [0%nat; 1%nat]) (start ++ [App [CConfig 0 0 TS_RAW; CUpdate 0]]) = true /\ run real st_init (start ++ [App [CConfig 0 0 TS_RAW; CUpdate 0]]) = Bad LinksLeft.
Proof. split; vm_compute; reflexivity. Qed.
(** a signalling timeslot made an HDLC one keeps its LAPD instance, which goes on writing *)
Theorem C60_lapd_stays : sees (run real st_init [Create 0 0; App [CConfig 0 0 TS_SIGN; CUpdate 0]; App [CConfig 0 0 TS_HDLC; CUpdate 0]; LapdOut 0 0 [9]]) (fun s => (e_type (tsl s 0 0), skipn 11 (out s))) = Some (TS_HDLC, [DRet 0 0; DLapdWr 0 0 1 [9] [0; 0] 160]).
Proof. vm_compute. reflexivity. Qed.
(** a line moved to another port keeps the channels of the old one; so does a line whose span
    is renumbered, and another line then opens the same channel *)
Theorem C60_port_moved : sees (run real st_init [Create 0 0; App [CConfig 0 0 TS_RAW; CUpdate 0; CPort 0 1; CUpdate 0]; Create 1 0; App [CConfig 1 0 TS_RAW; CUpdate 1]]) (fun s => filter (fun e => match e with DOpen _ _ _ _ | DClose _ _ _ | DRet _ _ => true | _ => false end) (out s)) =
  Some [DOpen 0 0 1 1; DRet 0 0; DRet 0 0; DOpen 1 0 1 8; DRet 1 0].
Proof. vm_compute. reflexivity. Qed.
Definition hotplug : kern := mkK 32 (fun _ => true) (fun n p => match p with 1%nat => if (n =? 0)%nat then None else Some 31%nat | 2%nat => Some 31%nat | _ => None end) (fun _ => OpOk) (fun _ => true) (fun _ => true) (fun _ => 160) (fun _ => None) (fun _ => []) (fun _ => (0, 0)).
Theorem C60_renumbered : sees (run hotplug st_init [Create 0 1; App [CConfig 0 0 TS_RAW; CUpdate 0]; Create 1 0; App [CConfig 1 0 TS_RAW; CUpdate 1; CUpdate 0]]) (fun s => filter (fun e => match e with DOpen _ _ _ _ | DClose _ _ _ | DRet _ _ => true | _ => false end) (out s)) =
  Some [DOpen 0 0 1 1; DRet 0 0; DOpen 1 0 1 5; DRet 1 0; DRet 0 0].
Proof. vm_compute. reflexivity. Qed.

(** ** refuted: messages that wait for ever *)
(** an update of the line forgets that a message waits to be written *)
Theorem C61_update_stalls : sees (run real st_init (start ++ [App [CSend 0 3 0 [1]; CUpdate 0]])) (fun s => (e_reg (tsl s 0 3), e_q (tsl s 0 3), e_wr (tsl s 0 3), e_tmr (tsl s 0 3))) = Some (true, [(0%nat, [[1]])], false, false).
Proof. vm_compute. reflexivity. Qed.
(** taking down a link stops the delay timer, for which the messages of another link wait *)
Theorem C61_unlink_stalls : sees (run real st_init (start ++ [App [CSend 0 0 4 [1]; CSend 0 0 7 [2]]; Ready 0 0 false None true []; App [CUnlink 0 0 4]])) (fun s => (e_reg (tsl s 0 0), e_q (tsl s 0 0), e_wr (tsl s 0 0), e_tmr (tsl s 0 0))) = Some (true, [(7%nat, [[2]])], false, false).
Proof. vm_compute. reflexivity. Qed.
(** a link that always has something to send keeps later links from sending: however long, the
    message of link 7 waits *)
Fixpoint busy (n : nat) : list ev := match n with 0%nat => [] | S n => [App [CSend 0 0 4 [1]]; Ready 0 0 false None true []; TxTimer 0 0] ++ busy n end.
Definition at00 (s : st) (w tm : bool) (q : queues) : Prop := exist s 0%nat = true /\ exists fd, tsl s 0%nat 0%nat = mkE TS_SIGN fd true w true q tm.
Definition starving (s : st) : Prop := at00 s true false [(4%nat, []); (7%nat, [[2]])].
Lemma starving_turn k s : starving s -> exists s', run k s (busy 1) = Ok s' /\ starving s'.
Proof.
  intros A. cbn [busy app run].
  assert (B : exists s', step k s (App [CSend 0 0 4 [1]]) = Ok s' /\ at00 s' true false [(4%nat, [[1]]); (7%nat, [[2]])]).
  { destruct A as (EX & fd & T). cbn [step execs exec]. unfold valid. rewrite EX. cbn [andb Nat.ltb Nat.leb]. unfold send. rewrite T. cbn [e_q has existsb fst Nat.eqb orb negb e_type append e_tmr app].
    unfold want_write, set_ts, emit, upd. cbn [tsl Nat.eqb e_type w_q]. eexists. split; [reflexivity|]. split; [exact EX|]. exists fd. reflexivity. }
  destruct B as (s1 & -> & B). clear A.
  assert (C : exists s', step k s1 (Ready 0 0 false None true []) = Ok s' /\ at00 s' false true [(4%nat, []); (7%nat, [[2]])]).
  { destruct B as (EX & fd & T). cbn [step]. rewrite T. cbn [e_reg e_wr andb]. unfold fd_cb. rewrite T. cbn [e_type]. unfold sign_write, tx_ts. cbv zeta. cbn [set_ts tsl]. unfold upd. cbn [Nat.eqb]. rewrite T. cbn [w_wr e_type e_q take]. unfold set_ts at 1. cbn [tsl]. unfold upd at 1 2. cbn [Nat.eqb w_q e_type].
    unfold set_ts at 1. cbn [tsl]. unfold upd at 1 2. cbn [Nat.eqb w_q e_lapd]. eexists. split; [reflexivity|]. split; [exact EX|]. exists fd. reflexivity. }
  destruct C as (s2 & -> & C). clear B. destruct C as (EX & fd & T). cbn [step]. rewrite T. cbn [e_tmr]. eexists. split; [reflexivity|]. split; [|exists fd]; unfold want_write, set_ts, upd; cbn [tsl Nat.eqb w_q e_type]; rewrite ?T; [exact EX|reflexivity].
Qed.
Lemma run_app k s vs ws : run k s (vs ++ ws) = match run k s vs with Ok s => run k s ws | Bad r => Bad r end.
Proof. revert s. induction vs as [|v r IH]; intros s; cbn [run app]; [easy|]. destruct (step k s v); [apply IH|easy]. Qed.
Theorem C61_starvation n : exists s, run real st_init (start ++ [App [CSend 0 0 7 [2]]] ++ busy n) = Ok s /\ queue 7 (e_q (tsl s 0 0)) = [[2]].
Proof.
  assert (B : exists s, run real st_init (start ++ [App [CSend 0 0 7 [2]]]) = Ok s /\ starving s).
  { destruct (run real st_init (start ++ [App [CSend 0 0 7 [2]]])) as [s|q] eqn:E; [|exfalso; assert (X : sees (run real st_init (start ++ [App [CSend 0 0 7 [2]]])) (fun _ => tt) = Some tt) by (vm_compute; reflexivity); rewrite E in X; discriminate].
    exists s. split; [easy|]. assert (X : sees (run real st_init (start ++ [App [CSend 0 0 7 [2]]])) (fun s => (exist s 0%nat, tsl s 0%nat 0%nat)) = Some (true, mkE TS_SIGN (Open 1) true true true [(4%nat, []); (7%nat, [[2]])] false)) by (vm_compute; reflexivity).
    rewrite E in X. cbn [sees] in X. injection X as X1 X2. split; [easy|eauto]. }
  destruct B as (s & R & S1). rewrite app_assoc, run_app, R. clear R. revert s S1. induction n as [|n IH]; intros s S1.
  - exists s. split; [reflexivity|]. destruct S1 as (_ & fd & ->). reflexivity.
  - destruct (starving_turn real s S1) as (s' & R & S2). change (busy (Datatypes.S n)) with (busy 1 ++ busy n). rewrite run_app, R. now apply IH.
Qed.
(** a write that fails loses its message *)
Theorem C61_failed_write_lost : sees (run (mkK 32 (fun _ => true) (fun _ p => Some 31%nat) (fun _ => OpOk) (fun _ => true) (fun _ => true) (fun _ => -1) (fun _ => None) (fun _ => []) (fun _ => (0, 0))) st_init
    [Create 0 0; App [CConfig 0 2 TS_HDLC; CUpdate 0; CSend 0 2 0 [5]]; Ready 0 2 false None true []]) (fun s => (e_q (tsl s 0 2), skipn 6 (out s))) = Some ([(0%nat, [])], [DAcc 0 2 0 [5]; DSend 0 2 0 1 [5] [0; 0] (-1)]).
Proof. vm_compute. reflexivity. Qed.
