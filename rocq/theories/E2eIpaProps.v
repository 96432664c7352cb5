(** C82: Abis over IP end to end.  What a BTS and a BSC send each other over one TCP connection
    arrives at the signalling link for it, complete and in order, whatever the network does to the
    boundaries between messages and whatever else the two sides do meanwhile. *)
From Coq Require Import List Arith Lia Bool ZArith.
From Verif Require Import Base IpaccessModel E2eIpaModel E2eIpaProofs.
From Verif Require IpaccessBtsModel E2eIpaBts.
Import ListNotations.
Open Scope Z_scope.

(** ** What is said and heard *)
(** an IPA message: stream identifier (a link's TEI) and payload *)
Definition message : Type := Z * list Z.
(** the octets of messages, one after the other: length (16 bit), stream identifier, payload *)
Definition octets (fs : list message) : list Z :=
  flat_map (fun f => [Z.of_nat (length (snd f)) / 256 mod 256; Z.of_nat (length (snd f)) mod 256; fst f] ++ snd f) fs.
(** the blocks written on a stream, a connection *)
Definition bts_blocks (x : nat) (es : list IpaccessBtsModel.beff) : list (list Z) :=
  flat_map (fun e => match e with IpaccessBtsModel.BSend _ c b => if Nat.eqb c x then [b] else [] | _ => [] end) es.
Definition bsc_blocks (x : nat) (es : list eff) : list (list Z) :=
  flat_map (fun e => match e with ESend _ c b => if Nat.eqb c x then [b] else [] | _ => [] end) es.
(** the payloads with stream identifier [tei] among messages *)
Definition for_tei (tei : Z) (fs : list message) : list (list Z) := map snd (filter (fun f => fst f =? tei) fs).
(** what link [id] was given *)
Definition bts_got (id : nat) (es : list IpaccessBtsModel.beff) : list (list Z) :=
  flat_map (fun e => match e with IpaccessBtsModel.BDeliver i d => if Nat.eqb i id then [d] else [] | _ => [] end) es.
Definition bsc_got (id : nat) (es : list eff) : list (list Z) :=
  flat_map (fun e => match e with EDeliver i d => if Nat.eqb i id then [d] else [] | _ => [] end) es.
(** link [id] is the one for [tei] on the timeslot (line [l], timeslot [t]) whose connection is
    [c]: that timeslot, configured for signalling, has this connection and no other, the link is
    the first there with this TEI and SAPI 0 *)
Definition on (l t : nat) (tei : Z) (k : lk) : Prop := l_line k = l /\ l_ts k = t /\ l_tei k = tei /\ l_sapi k = 0.
Definition bsc_hears (s : st) (c l t : nat) (tei : Z) (id : nat) : Prop :=
  (exists n, lines s l = Some n /\ t_sign (n_ts n t) = true) /\
  In (mkC c (Some (l, t))) (conns s) /\ (forall x, In x (conns s) -> c_at x = Some (l, t) \/ c_id x = c -> x = mkC c (Some (l, t))) /\
  (exists a k b, lks s = a ++ k :: b /\ l_id k = id /\ on l t tei k /\ forall y, In y a -> ~ on l t tei y) /\
  (forall k, In k (lks s) -> l_id k = id -> on l t tei k).
Definition bon (t : nat) (tei : Z) (k : lk) : Prop := l_ts k = t /\ l_tei k = tei /\ l_sapi k = 0.
Definition bts_hears (s : IpaccessBtsModel.bst) (x t : nat) (tei : Z) (id : nat) : Prop :=
  In (IpaccessBtsModel.mkCli x t true) (IpaccessBtsModel.clis s) /\
  (forall y, In y (IpaccessBtsModel.clis s) -> IpaccessBtsModel.c_ts y = t \/ IpaccessBtsModel.c_id y = x -> y = IpaccessBtsModel.mkCli x t true) /\
  (exists a k b, IpaccessBtsModel.lks s = a ++ k :: b /\ l_id k = id /\ bon t tei k /\ forall y, In y a -> ~ bon t tei y) /\
  (forall k, In k (IpaccessBtsModel.lks s) -> l_id k = id -> bon t tei k).
(** at every moment of a run *)
Fixpoint throughout (P : pair -> Prop) (x c : nat) (p : pair) (vs : list pev) : Prop :=
  P p /\ match vs with [] => True | v :: r => forall q, pstep x c p v = Some q -> throughout P x c q r end.
(** messages no longer than the length field of the header can tell *)
Definition bts_small (es : list IpaccessBtsModel.beff) : Prop := forall i c b, In (IpaccessBtsModel.BSend i c b) es -> Z.of_nat (length b) < 65536 + 3.
Definition bsc_small (es : list eff) : Prop := forall i c b, In (ESend i c b) es -> Z.of_nat (length b) < 65536 + 3.
Definition ccm_small (vs : list pev) : Prop := forall m, In (UpCcm m) vs \/ In (DnCcm m) vs -> Z.of_nat (length m) < 65536.
Definition idle (ch : chan) : Prop := wire ch = [] /\ buf ch = [].

(** ** Channel *)
Lemma octets_framed fs : octets fs = concat (map framed fs).
Proof. unfold octets. induction fs as [|f fs IH]; [reflexivity|]. cbn [flat_map map concat]. now rewrite IH. Qed.
Lemma octets_app a b : octets (a ++ b) = octets a ++ octets b. Proof. apply flat_map_app. Qed.
Lemma for_app tei a b : for_tei tei (a ++ b) = for_tei tei a ++ for_tei tei b.
Proof. unfold for_tei. now rewrite filter_app, map_app. Qed.
Definition carries (ch : chan) (fs : list message) : Prop := Forall short fs /\ buf ch ++ wire ch = octets fs.
Lemma carries_put ch fs gs : carries ch fs -> Forall short gs -> carries (put (octets gs) ch) (fs ++ gs).
Proof. intros [A B] G. split; [now apply Forall_app|]. cbn. now rewrite app_assoc, B, octets_app. Qed.
Lemma carries_move n ch fs : carries ch fs -> carries (move n ch) fs.
Proof. intros [A B]. split; [easy|]. cbn. rewrite <- B, <- app_assoc. now rewrite firstn_skipn. Qed.
Lemma carries_read ch fs f r : carries ch fs -> cut (buf ch) = Some (f, r) -> exists gs, fs = f :: gs /\ carries (mkCh (wire ch) r) gs.
Proof.
  intros [A B] C. rewrite octets_framed in B. destruct (cut_prefix fs _ _ f r A B C) as (gs & -> & E). exists gs. split; [easy|]. apply Forall_cons_iff in A as [_ A]. split; [easy|].
  cbn. now rewrite octets_framed.
Qed.
(** blocks that are messages *)
Lemma blocks_msgs bs : Forall (fun b => exists f, b = framed f) bs -> Forall (fun b => Z.of_nat (length b) < 65536 + 3) bs ->
  exists fs, concat bs = octets fs /\ Forall short fs /\ bs = map framed fs.
Proof.
  induction 1 as [|b bs (f & ->) F IH]; intros S; [exists []; easy|]. apply Forall_cons_iff in S as [S1 S2]. destruct (IH S2) as (fs & A & B & ->). exists (f :: fs).
  split; [|split; [|reflexivity]].
  - rewrite octets_framed. reflexivity.
  - constructor; [|easy]. unfold short, framed in *. rewrite app_length in S1. cbn [ipa_header length] in S1. lia.
Qed.
Lemma news_app {A} (a b : list A) : news a (a ++ b) = b.
Proof. unfold news. now rewrite skipn_app, skipn_all, Nat.sub_diag. Qed.

(** ** Steps of the BSC *)
Lemma bsc_blocks_ok c es : Forall okE es -> Forall (fun b => exists f, b = framed f) (bsc_blocks c es).
Proof. induction 1 as [|e es O F IH]; [constructor|]. unfold bsc_blocks. cbn [flat_map]. apply Forall_app. split; [|exact IH]. destruct e; try constructor. cbn [okE] in O. destruct (Nat.eqb _ _); [|constructor]. constructor; [exact O|constructor]. Qed.
Lemma bsc_blocks_small c es : bsc_small es -> Forall (fun b => Z.of_nat (length b) < 65536 + 3) (bsc_blocks c es).
Proof. intros S. apply Forall_forall. intros b I. apply in_flat_map in I as (e & I & J). destruct e; try easy. destruct (Nat.eqb _ _); [|easy]. destruct J as [<-|[]]. exact (S _ _ _ I). Qed.
Lemma bsc_concat c es : bsc_octets c es = concat (bsc_blocks c es).
Proof. induction es as [|e es IH]; [reflexivity|]. unfold bsc_octets, bsc_blocks in *. cbn [flat_map]. rewrite concat_app, IH. f_equal. destruct e; try reflexivity. destruct (Nat.eqb _ _); [|reflexivity]. cbn. now rewrite app_nil_r. Qed.
Lemma nodel_ok es : Forall nodel es -> Forall okE es.
Proof. apply Forall_impl. intros e. now destruct e. Qed.
Lemma nodel_got id es : Forall nodel es -> bsc_got id es = [].
Proof. induction 1 as [|e es O F IH]; [reflexivity|]. unfold bsc_got in *. cbn [flat_map]. rewrite IH. now destruct e. Qed.
Lemma bsc_got_app id a b : bsc_got id (a ++ b) = bsc_got id a ++ bsc_got id b. Proof. apply flat_map_app. Qed.
Lemma bsc_blocks_app id a b : bsc_blocks id (a ++ b) = bsc_blocks id a ++ bsc_blocks id b. Proof. apply flat_map_app. Qed.
Lemma on_look s l t tei k : lookup_link s l t tei 0 = Some k -> In k (lks s) /\ on l t tei k.
Proof. intros H. apply find_some in H as [H E]. split; [easy|]. repeat (apply andb_prop in E as [E ?]). apply Nat.eqb_eq in E. unfold on. rewrite Nat.eqb_eq, !Z.eqb_eq in *. auto. Qed.
Definition due (c : nat) (tei : Z) (v : ev) : list (list Z) :=
  match v with Rx _ c' (Some (p, d)) => if Nat.eqb c' c && (p =? tei) then [d] else [] | _ => [] end.
Lemma bsc_step s v s' c l t tei id : bsc_hears s c l t tei id -> tei <> 0xfe -> step s v = Some s' ->
  exists es, out s' = out s ++ es /\ Forall okE es /\ bsc_got id es = due c tei v.
Proof.
  intros ((n & L & SG) & CI & CU & (a & k & b & LE & KI & KO & KF) & KU) NT H.
  assert (LK : lookup_link s l t tei 0 = Some k).
  { unfold lookup_link. rewrite LE. clear - KO KF. destruct KO as (A & B & C & D). induction a as [|y a IH]; cbn [app find].
    - rewrite A, B, C, D, !Nat.eqb_refl, !Z.eqb_refl. reflexivity.
    - destruct (Nat.eqb (l_line y) l && Nat.eqb (l_ts y) t && (l_sapi y =? 0) && (l_tei y =? tei)) eqn:E.
      + exfalso. apply (KF y); [now left|]. repeat (apply andb_prop in E as [E ?]). apply Nat.eqb_eq in E. unfold on. rewrite Nat.eqb_eq, !Z.eqb_eq in *. auto.
      + apply IH. intros z Z1. apply KF. now right. }
  destruct (step_bsc s v s' H) as [(es & O & N)|(i & d & es & HD & O & N)].
  - exists es. split; [easy|]. split; [now apply nodel_ok|]. rewrite (nodel_got id es N). symmetry.
    destruct v as [| |e c' [[p d]|]| |]; try reflexivity. cbn [due]. destruct (Nat.eqb_spec c' c) as [->|NE]; [|reflexivity]. destruct (Z.eqb_spec p tei) as [->|NE]; [|reflexivity]. exfalso.
    (* it would have been handed over *)
    cbn [step] in H. destruct (find_conn s c) as [x|] eqn:F.
    2:{ unfold find_conn in F. pose proof (find_none _ _ F _ CI) as Q. cbn in Q. rewrite Nat.eqb_refl in Q. discriminate Q. }
    pose proof F as F'. apply find_some in F' as [F1 F2]. apply Nat.eqb_eq in F2. pose proof (CU x F1 (or_intror F2)) as ->. unfold read_cb in H. rewrite F in H. cbn [c_at] in H. rewrite L in H. cbv zeta in H.
    replace (tei =? PROTO_IPACCESS) with false in H by (symmetry; apply Z.eqb_neq; exact NT). rewrite SG in H. cbn [negb] in H. rewrite LK in H.
    destruct (execs (e_act e) (emit s (EDeliver (l_id k) d))) as [s1|] eqn:Q; [|discriminate H]. apply g_execs in Q. assert (X : s' = s1) by (destruct (e_rc e); [destruct (lines s1 l); [|discriminate H]|]; now injection H as <-). subst s'.
    destruct Q as (fs & O2 & N2). rewrite O in O2. cbn in O2. rewrite <- app_assoc in O2. apply app_inv_head in O2. subst es. apply Forall_inv in N. exact N.
  - exists (EDeliver i d :: es). split; [easy|]. split; [constructor; [exact Logic.I|now apply nodel_ok]|]. change (EDeliver i d :: es) with ([EDeliver i d] ++ es). rewrite bsc_got_app, (nodel_got id es N), app_nil_r.
    destruct HD as (e & c' & p & x & l' & t' & k' & -> & F & A & NP & LK' & KI'). destruct (on_look _ _ _ _ _ LK') as [IN ON]. cbn [due bsc_got flat_map]. rewrite app_nil_r.
    apply find_some in F as [F1 F2]. apply Nat.eqb_eq in F2.
    destruct (Nat.eqb_spec i id) as [->|NE].
    + pose proof (KU k' IN KI') as (A1 & A2 & A3 & A4). destruct ON as (B1 & B2 & B3 & B4). assert (E1 : c_at x = Some (l, t)) by congruence. assert (E2 : p = tei) by congruence.
      pose proof (CU x F1 (or_introl E1)) as X. assert (E3 : c' = c) by (rewrite <- F2, X; reflexivity). rewrite E3, E2. now rewrite Nat.eqb_refl, Z.eqb_refl.
    + destruct (Nat.eqb_spec c' c) as [->|N1]; [|reflexivity]. destruct (Z.eqb_spec p tei) as [->|N2]; [|reflexivity]. exfalso. apply NE.
      pose proof (CU x F1 (or_intror F2)) as X. rewrite X in A. cbn in A. injection A as <- <-. rewrite LK in LK'. injection LK' as <-. congruence.
Qed.

(** ** Steps of the BTS *)
Definition okB (e : IpaccessBtsModel.beff) : Prop := match e with IpaccessBtsModel.BSend _ _ b => exists f, b = framed f | _ => True end.
Lemma bts_blocks_ok c es : Forall okB es -> Forall (fun b => exists f, b = framed f) (bts_blocks c es).
Proof. induction 1 as [|e es O F IH]; [constructor|]. unfold bts_blocks. cbn [flat_map]. apply Forall_app. split; [|exact IH]. destruct e; try constructor. cbn [okB] in O. destruct (Nat.eqb _ _); [|constructor]. constructor; [exact O|constructor]. Qed.
Lemma bts_blocks_small c es : bts_small es -> Forall (fun b => Z.of_nat (length b) < 65536 + 3) (bts_blocks c es).
Proof. intros S. apply Forall_forall. intros b I. apply in_flat_map in I as (e & I & J). destruct e; try easy. destruct (Nat.eqb _ _); [|easy]. destruct J as [<-|[]]. exact (S _ _ _ I). Qed.
Lemma bts_concat c es : bts_octets c es = concat (bts_blocks c es).
Proof. induction es as [|e es IH]; [reflexivity|]. unfold bts_octets, bts_blocks in *. cbn [flat_map]. rewrite concat_app, IH. f_equal. destruct e; try reflexivity. destruct (Nat.eqb _ _); [|reflexivity]. cbn. now rewrite app_nil_r. Qed.
Lemma bnodel_ok es : Forall E2eIpaBts.nodel es -> Forall okB es.
Proof. apply Forall_impl. intros e. now destruct e. Qed.
Lemma bnodel_got id es : Forall E2eIpaBts.nodel es -> bts_got id es = [].
Proof. induction 1 as [|e es O F IH]; [reflexivity|]. unfold bts_got in *. cbn [flat_map]. rewrite IH. now destruct e. Qed.
Lemma bts_got_app id a b : bts_got id (a ++ b) = bts_got id a ++ bts_got id b. Proof. apply flat_map_app. Qed.
Lemma bts_blocks_app id a b : bts_blocks id (a ++ b) = bts_blocks id a ++ bts_blocks id b. Proof. apply flat_map_app. Qed.
Lemma bon_look s t tei k : IpaccessBtsModel.lookup_link s t tei 0 = Some k -> In k (IpaccessBtsModel.lks s) /\ bon t tei k.
Proof. intros H. apply find_some in H as [H E]. split; [easy|]. repeat (apply andb_prop in E as [E ?]). apply Nat.eqb_eq in E. unfold bon. rewrite !Z.eqb_eq in *. auto. Qed.
Definition bdue (c : nat) (tei : Z) (v : IpaccessBtsModel.ev) : list (list Z) :=
  match v with IpaccessBtsModel.Rx _ c' (Some (p, d)) => if Nat.eqb c' c && (p =? tei) then [d] else [] | _ => [] end.
Lemma bts_any s v s' : IpaccessBtsModel.step s v = IpaccessBtsModel.Ok s' -> exists es, IpaccessBtsModel.out s' = IpaccessBtsModel.out s ++ es /\ Forall okB es.
Proof.
  intros H. destruct (E2eIpaBts.step_bts s v s' H) as [(es & O & N)|(i & d & es & _ & O & N)].
  - exists es. split; [easy|]. now apply bnodel_ok.
  - eexists. split; [exact O|]. constructor; [exact Logic.I|]. now apply bnodel_ok.
Qed.
Lemma bsc_any s v s' : step s v = Some s' -> exists es, out s' = out s ++ es /\ Forall okE es.
Proof.
  intros H. destruct (step_bsc s v s' H) as [(es & O & N)|(i & d & es & _ & O & N)].
  - exists es. split; [easy|]. now apply nodel_ok.
  - eexists. split; [exact O|]. constructor; [exact Logic.I|]. now apply nodel_ok.
Qed.
Lemma bts_step s v s' x t tei id : bts_hears s x t tei id -> tei <> 0xfe -> IpaccessBtsModel.step s v = IpaccessBtsModel.Ok s' ->
  exists es, IpaccessBtsModel.out s' = IpaccessBtsModel.out s ++ es /\ Forall okB es /\ bts_got id es = bdue x tei v.
Proof.
  intros (CI & CU & (a & k & b & LE & KI & KO & KF) & KU) NT H.
  assert (LK : IpaccessBtsModel.lookup_link s t tei 0 = Some k).
  { unfold IpaccessBtsModel.lookup_link. rewrite LE. clear - KO KF. destruct KO as (B & C & D). induction a as [|y a IH]; cbn [app find].
    - rewrite B, C, D, !Nat.eqb_refl, !Z.eqb_refl. reflexivity.
    - destruct (Nat.eqb (l_ts y) t && (l_sapi y =? 0) && (l_tei y =? tei)) eqn:E.
      + exfalso. apply (KF y); [now left|]. repeat (apply andb_prop in E as [E ?]). apply Nat.eqb_eq in E. unfold bon. rewrite !Z.eqb_eq in *. auto.
      + apply IH. intros z Z1. apply KF. now right. }
  destruct (E2eIpaBts.step_bts s v s' H) as [(es & O & N)|(i & d & es & HD & O & N)].
  - exists es. split; [easy|]. split; [now apply bnodel_ok|]. rewrite (bnodel_got id es N). symmetry.
    destruct v as [| | |e c' [[p d]|]|]; try reflexivity. cbn [bdue]. destruct (Nat.eqb_spec c' x) as [->|NE]; [|reflexivity]. destruct (Z.eqb_spec p tei) as [->|NE]; [|reflexivity]. exfalso.
    cbn [IpaccessBtsModel.step] in H. unfold IpaccessBtsModel.if_open in H. destruct (IpaccessBtsModel.find_cli s x) as [y|] eqn:F.
    2:{ unfold IpaccessBtsModel.find_cli in F. pose proof (find_none _ _ F _ CI) as Q. cbn in Q. rewrite Nat.eqb_refl in Q. discriminate Q. }
    pose proof F as F'. apply find_some in F' as [F1 F2]. apply Nat.eqb_eq in F2. pose proof (CU y F1 (or_intror F2)) as ->. cbn [IpaccessBtsModel.c_open] in H.
    unfold IpaccessBtsModel.read_cb in H. cbv zeta in H. cbn [IpaccessBtsModel.c_ts] in H.
    replace (tei =? PROTO_IPACCESS) with false in H by (symmetry; apply Z.eqb_neq; exact NT). destruct (negb _); [discriminate H|]. rewrite LK in H.
    apply E2eIpaBts.g_execs in H. destruct H as (fs & O2 & N2). rewrite O in O2. cbn in O2. rewrite <- app_assoc in O2. apply app_inv_head in O2. subst es. apply Forall_inv in N. exact N.
  - exists (IpaccessBtsModel.BDeliver i d :: es). split; [easy|]. split; [constructor; [exact Logic.I|now apply bnodel_ok]|]. change (IpaccessBtsModel.BDeliver i d :: es) with ([IpaccessBtsModel.BDeliver i d] ++ es). rewrite bts_got_app, (bnodel_got id es N), app_nil_r.
    destruct HD as (e & c' & p & y & k' & -> & F & A & NP & LK' & KI'). destruct (bon_look _ _ _ _ LK') as [IN ON]. cbn [bdue bts_got flat_map]. rewrite app_nil_r.
    apply find_some in F as [F1 F2]. apply Nat.eqb_eq in F2.
    destruct (Nat.eqb_spec i id) as [->|NE].
    + pose proof (KU k' IN KI') as (A2 & A3 & A4). destruct ON as (B2 & B3 & B4). assert (E1 : IpaccessBtsModel.c_ts y = t) by congruence. assert (E2 : p = tei) by congruence.
      pose proof (CU y F1 (or_introl E1)) as X. assert (E3 : c' = x) by (rewrite <- F2, X; reflexivity). rewrite E3, E2. now rewrite Nat.eqb_refl, Z.eqb_refl.
    + destruct (Nat.eqb_spec c' x) as [->|N1]; [|reflexivity]. destruct (Z.eqb_spec p tei) as [->|N2]; [|reflexivity]. exfalso. apply NE.
      pose proof (CU y F1 (or_intror F2)) as X. rewrite X in LK'. cbn [IpaccessBtsModel.c_ts] in LK'. rewrite LK in LK'. injection LK' as <-. congruence.
Qed.

(** ** Both together *)
Lemma pstep_bts x p v q : bts_does x p v = Some q -> exists s es, IpaccessBtsModel.step (bts p) v = IpaccessBtsModel.Ok s /\ IpaccessBtsModel.out s = IpaccessBtsModel.out (bts p) ++ es /\
  Forall okB es /\ q = mkP s (bsc p) (put (concat (bts_blocks x es)) (up p)) (dn p).
Proof.
  unfold bts_does. destruct (IpaccessBtsModel.step (bts p) v) as [s|] eqn:H; [|intros Q; discriminate Q]. destruct (bts_any _ _ _ H) as (es & O & N). intros Q. exists s, es. split; [reflexivity|]. split; [easy|]. split; [easy|].
  injection Q as <-. now rewrite O, news_app, bts_concat.
Qed.
Lemma pstep_bsc c p v q : bsc_does c p v = Some q -> exists s es, step (bsc p) v = Some s /\ out s = out (bsc p) ++ es /\
  Forall okE es /\ q = mkP (bts p) s (up p) (put (concat (bsc_blocks c es)) (dn p)).
Proof.
  unfold bsc_does. destruct (step (bsc p) v) as [s|] eqn:H; [|intros Q; discriminate Q]. destruct (bsc_any _ _ _ H) as (es & O & N). intros Q. exists s, es. split; [reflexivity|]. split; [easy|]. split; [easy|].
  injection Q as <-. now rewrite O, news_app, bsc_concat.
Qed.
(** messages of one step, told apart *)
Lemma ccm_framed m : ccm m = octets [(0xfe, m)].
Proof. unfold octets. cbn [flat_map]. now rewrite app_nil_r. Qed.
(** what a step does to the way up *)
Lemma step_up x c l t tei id p v q pend : pstep x c p v = Some q -> bsc_hears (bsc p) c l t tei id -> tei <> 0xfe -> carries (up p) pend -> ccm_small [v] ->
  exists es fs, IpaccessBtsModel.out (bts q) = IpaccessBtsModel.out (bts p) ++ es /\ out (bsc q) = out (bsc p) ++ fs /\
    (bts_small es -> exists ms pend', bts_blocks x es = map framed ms /\ carries (up q) pend' /\ for_tei tei pend ++ for_tei tei ms = bsc_got id fs ++ for_tei tei pend').
Proof.
  intros H B NT C CS.
  assert (BTS : forall v, bts_does x p v = Some q -> exists es fs, IpaccessBtsModel.out (bts q) = IpaccessBtsModel.out (bts p) ++ es /\ out (bsc q) = out (bsc p) ++ fs /\
    (bts_small es -> exists ms pend', bts_blocks x es = map framed ms /\ carries (up q) pend' /\ for_tei tei pend ++ for_tei tei ms = bsc_got id fs ++ for_tei tei pend')).
  { intros w Q. destruct (pstep_bts _ _ _ _ Q) as (s & es & E & O & K & ->). exists es, []. cbn [bts bsc up]. split; [easy|]. split; [now rewrite app_nil_r|]. intros S.
    destruct (blocks_msgs _ (bts_blocks_ok x es K) (bts_blocks_small x es S)) as (ms & M1 & M2 & M3). exists ms, (pend ++ ms). split; [easy|]. split; [rewrite M1; now apply carries_put|]. now rewrite for_app. }
  assert (BSC : forall w, due c tei w = [] -> bsc_does c p w = Some q -> exists es fs, IpaccessBtsModel.out (bts q) = IpaccessBtsModel.out (bts p) ++ es /\ out (bsc q) = out (bsc p) ++ fs /\
    (bts_small es -> exists ms pend', bts_blocks x es = map framed ms /\ carries (up q) pend' /\ for_tei tei pend ++ for_tei tei ms = bsc_got id fs ++ for_tei tei pend')).
  { intros w D Q. destruct (pstep_bsc _ _ _ _ Q) as (s & fs & E & O & K & ->). destruct (bsc_step _ _ _ _ _ _ _ _ B NT E) as (fs' & O' & _ & G). assert (fs' = fs) as -> by (rewrite O in O'; now apply app_inv_head in O').
    exists [], fs. cbn [bts bsc up]. split; [now rewrite app_nil_r|]. split; [easy|]. intros _. exists [], pend. split; [reflexivity|]. split; [easy|]. rewrite G, D. cbn [for_tei filter map app]. now rewrite app_nil_r. }
  assert (QUIET : bts q = bts p -> bsc q = bsc p -> carries (up q) pend -> exists es fs, IpaccessBtsModel.out (bts q) = IpaccessBtsModel.out (bts p) ++ es /\ out (bsc q) = out (bsc p) ++ fs /\
    (bts_small es -> exists ms pend', bts_blocks x es = map framed ms /\ carries (up q) pend' /\ for_tei tei pend ++ for_tei tei ms = bsc_got id fs ++ for_tei tei pend')).
  { intros -> -> U. exists [], []. rewrite !app_nil_r. split; [easy|]. split; [easy|]. intros _. exists [], pend. split; [reflexivity|]. split; [easy|]. cbn. now rewrite app_nil_r. }
  destruct v as [w|w|m|m|n|n|e|e]; cbn [pstep] in H.
  - destruct w as [| | |e y [m|]|]; try exact (BTS _ H). destruct (Nat.eqb y x); [|exact (BTS _ H)]. injection H as <-. now apply QUIET.
  - destruct w as [| |e y [[pr m]|]| |]; try (refine (BSC _ _ H); reflexivity). destruct (Nat.eqb y c) eqn:NE; [injection H as <-; now apply QUIET|]. refine (BSC _ _ H). cbn [due]. now rewrite NE.
  - injection H as <-. cbn [bts bsc up]. exists [], []. rewrite !app_nil_r. split; [easy|]. split; [easy|]. intros _. exists [], (pend ++ [(0xfe, m)]). split; [reflexivity|].
    split.
    + rewrite ccm_framed. apply carries_put; [easy|]. constructor; [|constructor]. unfold short. apply (CS m). left. now left.
    + rewrite for_app. unfold for_tei at 2 4. cbn [filter fst]. replace (0xfe =? tei) with false by (symmetry; apply Z.eqb_neq; congruence). reflexivity.
  - injection H as <-. now apply QUIET.
  - injection H as <-. apply QUIET; [easy..|]. now apply carries_move.
  - injection H as <-. now apply QUIET.
  - destruct (cut (buf (up p))) as [[f r]|] eqn:CT; [|injection H as <-; now apply QUIET]. destruct (carries_read _ _ _ _ C CT) as (gs & -> & C').
    destruct (pstep_bsc _ _ _ _ H) as (s & fs & E & O & K & ->). cbn [bts bsc up dn] in *. destruct (bsc_step _ _ _ _ _ _ _ _ B NT E) as (fs' & O' & _ & G). assert (fs' = fs) as -> by (rewrite O in O'; now apply app_inv_head in O').
    exists [], fs. split; [now rewrite app_nil_r|]. split; [easy|]. intros _. exists [], gs. split; [reflexivity|]. split; [easy|]. rewrite G. destruct f as [pr m]. cbn [due]. rewrite Nat.eqb_refl. cbn [andb].
    unfold for_tei. cbn [filter fst map]. destruct (pr =? tei); cbn [map app snd]; now rewrite app_nil_r.
  - destruct (cut (buf (dn p))) as [[f r]|] eqn:CT; [|injection H as <-; now apply QUIET].
    destruct (pstep_bts _ _ _ _ H) as (s & es & E & O & K & ->). cbn [bts bsc up dn] in *. exists es, []. split; [easy|]. split; [now rewrite app_nil_r|]. intros S.
    destruct (blocks_msgs _ (bts_blocks_ok x es K) (bts_blocks_small x es S)) as (ms & M1 & M2 & M3). exists ms, (pend ++ ms). split; [easy|]. split; [rewrite M1; now apply carries_put|]. now rewrite for_app.
Qed.
Lemma step_grows x c q w r : pstep x c q w = Some r -> (exists a, IpaccessBtsModel.out (bts r) = IpaccessBtsModel.out (bts q) ++ a) /\ exists b, out (bsc r) = out (bsc q) ++ b.
Proof.
  intros Q.
  assert (BT : forall p w, bts p = bts q -> bsc p = bsc q -> bts_does x p w = Some r -> (exists a, IpaccessBtsModel.out (bts r) = IpaccessBtsModel.out (bts q) ++ a) /\ exists b, out (bsc r) = out (bsc q) ++ b).
  { intros p0 w0 E1 E2 U. destruct (pstep_bts _ _ _ _ U) as (s & es & _ & O & _ & ->). cbn [bts bsc]. rewrite E1 in O. rewrite E2. split; [now exists es|]. exists []. now rewrite app_nil_r. }
  assert (BS : forall p w, bts p = bts q -> bsc p = bsc q -> bsc_does c p w = Some r -> (exists a, IpaccessBtsModel.out (bts r) = IpaccessBtsModel.out (bts q) ++ a) /\ exists b, out (bsc r) = out (bsc q) ++ b).
  { intros p0 w0 E1 E2 U. destruct (pstep_bsc _ _ _ _ U) as (s & es & _ & O & _ & ->). cbn [bts bsc]. rewrite E2 in O. rewrite E1. split; [|now exists es]. exists []. now rewrite app_nil_r. }
  assert (NO : bts r = bts q -> bsc r = bsc q -> (exists a, IpaccessBtsModel.out (bts r) = IpaccessBtsModel.out (bts q) ++ a) /\ exists b, out (bsc r) = out (bsc q) ++ b).
  { intros -> ->. split; exists []; now rewrite app_nil_r. }
  destruct w as [w|w|m|m|n|n|e|e]; cbn [pstep] in Q; try (injection Q as <-; now apply NO).
  - destruct w as [| | |e y [m|]|]; try exact (BT q _ eq_refl eq_refl Q). destruct (Nat.eqb y x); [injection Q as <-; now apply NO|exact (BT q _ eq_refl eq_refl Q)].
  - destruct w as [| |e y [m|]| |]; try exact (BS q _ eq_refl eq_refl Q). destruct (Nat.eqb y c); [injection Q as <-; now apply NO|exact (BS q _ eq_refl eq_refl Q)].
  - destruct (cut _) as [[f g]|]; [|injection Q as <-; now apply NO]. revert Q. now apply BS.
  - destruct (cut _) as [[f g]|]; [|injection Q as <-; now apply NO]. revert Q. now apply BT.
Qed.
Lemma run_grows x c vs : forall q r, prun x c q vs = Some r -> (exists a, IpaccessBtsModel.out (bts r) = IpaccessBtsModel.out (bts q) ++ a) /\ exists b, out (bsc r) = out (bsc q) ++ b.
Proof.
  induction vs as [|w ws IHw]; intros q r H; cbn [prun] in H.
  - injection H as <-. split; exists []; now rewrite app_nil_r.
  - destruct (pstep x c q w) as [p|] eqn:Q; [|discriminate H]. destruct (IHw p r H) as [(a & A) (b & D)]. destruct (step_grows _ _ _ _ _ Q) as [(a1 & A1) (b1 & B1)].
    split; [exists (a1 ++ a); now rewrite A, A1, app_assoc|]. exists (b1 ++ b). now rewrite D, B1, app_assoc.
Qed.
Lemma run_up x c l t tei id vs : forall p p' pend, prun x c p vs = Some p' -> carries (up p) pend -> tei <> 0xfe ->
  throughout (fun q => bsc_hears (bsc q) c l t tei id) x c p vs -> ccm_small vs ->
  exists es fs, IpaccessBtsModel.out (bts p') = IpaccessBtsModel.out (bts p) ++ es /\ out (bsc p') = out (bsc p) ++ fs /\
    (bts_small es -> exists ms pend', bts_blocks x es = map framed ms /\ carries (up p') pend' /\ for_tei tei pend ++ for_tei tei ms = bsc_got id fs ++ for_tei tei pend').
Proof.
  induction vs as [|v vs IH]; intros p p' pend H C NT TH CS.
  - cbn [prun] in H. injection H as <-. exists [], []. rewrite !app_nil_r. split; [easy|]. split; [easy|]. intros _. exists [], pend. split; [reflexivity|]. split; [easy|]. cbn. now rewrite app_nil_r.
  - cbn [prun] in H. destruct (pstep x c p v) as [q|] eqn:Q; [|discriminate H]. cbn [throughout] in TH. destruct TH as [B TH].
    assert (C1 : ccm_small [v]) by (intros m [[E|[]]|[E|[]]]; apply (CS m); [left|right]; now left). assert (C2 : ccm_small vs) by (intros m [E|E]; apply (CS m); [left|right]; now right).
    destruct (step_up _ _ _ _ _ _ _ _ _ _ Q B NT C C1) as (es & fs & E1 & E2 & K).
    (* the rest of the run says what it says whatever is pending *)
    assert (R : forall pend2, carries (up q) pend2 -> exists es fs, IpaccessBtsModel.out (bts p') = IpaccessBtsModel.out (bts q) ++ es /\ out (bsc p') = out (bsc q) ++ fs /\
      (bts_small es -> exists ms pend', bts_blocks x es = map framed ms /\ carries (up p') pend' /\ for_tei tei pend2 ++ for_tei tei ms = bsc_got id fs ++ for_tei tei pend')).
    { intros pend2 C3. exact (IH q p' pend2 H C3 NT (TH q Q) C2). }
    destruct (run_grows _ _ _ _ _ H) as [(es' & A) (fs' & D)].
    exists (es ++ es'), (fs ++ fs'). split; [now rewrite A, E1, app_assoc|]. split; [now rewrite D, E2, app_assoc|]. intros S.
    assert (S1 : bts_small es) by (intros i k b J; apply (S i k b); apply in_or_app; now left). assert (S2 : bts_small es') by (intros i k b J; apply (S i k b); apply in_or_app; now right).
    destruct (K S1) as (ms & pend2 & M1 & M2 & M3). destruct (R pend2 M2) as (es2 & fs2 & A' & D' & R'). assert (es2 = es') as -> by (rewrite A in A'; symmetry in A'; now apply app_inv_head in A'). assert (fs2 = fs') as -> by (rewrite D in D'; symmetry in D'; now apply app_inv_head in D').
    destruct (R' S2) as (ms2 & pend' & N1 & N2 & N3). exists (ms ++ ms2), pend'. split; [now rewrite bts_blocks_app, map_app, M1, N1|]. split; [easy|].
    rewrite for_app, bsc_got_app, app_assoc, M3, <- !app_assoc, N3. reflexivity.
Qed.
Lemma idle_carries ch : idle ch -> carries ch [].
Proof. intros [A B]. split; [constructor|]. now rewrite A, B. Qed.
Lemma drained ch fs : carries ch fs -> wire ch = [] -> cut (buf ch) = None -> fs = [].
Proof.
  intros [A B] W C. rewrite W, app_nil_r in B. destruct fs as [|f fs]; [easy|]. exfalso. rewrite B, octets_framed in C. cbn [map concat] in C. apply Forall_inv in A. now rewrite (cut_framed f _ A) in C.
Qed.

(** ** C82, from the BTS to the BSC *)
(** What a BTS writes on a stream ([bts_blocks]) is whole messages; what the BSC's link for a TEI is
    given ([bsc_got]) are their payloads with this TEI, every one of them, once, in the order
    written, up to those still on their way; there are none on their way once the network has
    delivered all octets and no complete message is unread. *)
Theorem C82_up : forall x c l t tei id vs p p', prun x c p vs = Some p' -> idle (up p) -> tei <> 0xfe ->
  throughout (fun q => bsc_hears (bsc q) c l t tei id) x c p vs -> ccm_small vs ->
  let written := news (IpaccessBtsModel.out (bts p)) (IpaccessBtsModel.out (bts p')) in
  let heard := bsc_got id (news (out (bsc p)) (out (bsc p'))) in
  bts_small written ->
  exists ms rest, bts_blocks x written = map (fun m => octets [m]) ms /\ for_tei tei ms = heard ++ rest /\
    (wire (up p') = [] -> cut (buf (up p')) = None -> rest = [] /\ buf (up p') = []).
Proof.
  cbv zeta. intros x c l t tei id vs p p' H ID NT TH CS S. destruct (run_up _ _ _ _ _ _ _ _ _ [] H (idle_carries _ ID) NT TH CS) as (es & fs & E1 & E2 & K).
  rewrite E1, news_app in *. rewrite E2, news_app. destruct (K S) as (ms & pend & M1 & M2 & M3). exists ms, (for_tei tei pend). split; [|split; [exact M3|]].
  - rewrite M1. apply map_ext. intros f. rewrite octets_framed. cbn. now rewrite app_nil_r.
  - intros W C. assert (pend = []) as -> by now apply (drained (up p')). split; [reflexivity|]. destruct M2 as [_ M2]. rewrite W, app_nil_r in M2. exact M2.
Qed.

(** ** And down *)
Lemma step_down x c t tei id p v q pend : pstep x c p v = Some q -> bts_hears (bts p) x t tei id -> tei <> 0xfe -> carries (dn p) pend -> ccm_small [v] ->
  exists es fs, IpaccessBtsModel.out (bts q) = IpaccessBtsModel.out (bts p) ++ es /\ out (bsc q) = out (bsc p) ++ fs /\
    (bsc_small fs -> exists ms pend', bsc_blocks c fs = map framed ms /\ carries (dn q) pend' /\ for_tei tei pend ++ for_tei tei ms = bts_got id es ++ for_tei tei pend').
Proof.
  intros H B NT C CS.
  assert (BSC : forall w, bsc_does c p w = Some q -> exists es fs, IpaccessBtsModel.out (bts q) = IpaccessBtsModel.out (bts p) ++ es /\ out (bsc q) = out (bsc p) ++ fs /\
    (bsc_small fs -> exists ms pend', bsc_blocks c fs = map framed ms /\ carries (dn q) pend' /\ for_tei tei pend ++ for_tei tei ms = bts_got id es ++ for_tei tei pend')).
  { intros w Q. destruct (pstep_bsc _ _ _ _ Q) as (s & fs & E & O & K & ->). exists [], fs. cbn [bts bsc dn]. split; [now rewrite app_nil_r|]. split; [easy|]. intros S.
    destruct (blocks_msgs _ (bsc_blocks_ok c fs K) (bsc_blocks_small c fs S)) as (ms & M1 & M2 & M3). exists ms, (pend ++ ms). split; [easy|]. split; [rewrite M1; now apply carries_put|]. now rewrite for_app. }
  assert (BTS : forall w, bdue x tei w = [] -> bts_does x p w = Some q -> exists es fs, IpaccessBtsModel.out (bts q) = IpaccessBtsModel.out (bts p) ++ es /\ out (bsc q) = out (bsc p) ++ fs /\
    (bsc_small fs -> exists ms pend', bsc_blocks c fs = map framed ms /\ carries (dn q) pend' /\ for_tei tei pend ++ for_tei tei ms = bts_got id es ++ for_tei tei pend')).
  { intros w D Q. destruct (pstep_bts _ _ _ _ Q) as (s & es & E & O & K & ->). destruct (bts_step _ _ _ _ _ _ _ B NT E) as (es' & O' & _ & G). assert (es' = es) as -> by (rewrite O in O'; now apply app_inv_head in O').
    exists es, []. cbn [bts bsc dn]. split; [easy|]. split; [now rewrite app_nil_r|]. intros _. exists [], pend. split; [reflexivity|]. split; [easy|]. rewrite G, D. cbn [for_tei filter map app]. now rewrite app_nil_r. }
  assert (QUIET : bts q = bts p -> bsc q = bsc p -> carries (dn q) pend -> exists es fs, IpaccessBtsModel.out (bts q) = IpaccessBtsModel.out (bts p) ++ es /\ out (bsc q) = out (bsc p) ++ fs /\
    (bsc_small fs -> exists ms pend', bsc_blocks c fs = map framed ms /\ carries (dn q) pend' /\ for_tei tei pend ++ for_tei tei ms = bts_got id es ++ for_tei tei pend')).
  { intros -> -> U. exists [], []. rewrite !app_nil_r. split; [easy|]. split; [easy|]. intros _. exists [], pend. split; [reflexivity|]. split; [easy|]. cbn. now rewrite app_nil_r. }
  destruct v as [w|w|m|m|n|n|e|e]; cbn [pstep] in H.
  - destruct w as [| | |e y [[pr m]|]|]; try (refine (BTS _ _ H); reflexivity). destruct (Nat.eqb y x) eqn:NE; [injection H as <-; now apply QUIET|]. refine (BTS _ _ H). cbn [bdue]. now rewrite NE.
  - destruct w as [| |e y [m|]| |]; try exact (BSC _ H). destruct (Nat.eqb y c); [|exact (BSC _ H)]. injection H as <-. now apply QUIET.
  - injection H as <-. now apply QUIET.
  - injection H as <-. cbn [bts bsc dn]. exists [], []. rewrite !app_nil_r. split; [easy|]. split; [easy|]. intros _. exists [], (pend ++ [(0xfe, m)]). split; [reflexivity|].
    split.
    + rewrite ccm_framed. apply carries_put; [easy|]. constructor; [|constructor]. unfold short. apply (CS m). right. now left.
    + rewrite for_app. unfold for_tei at 2 4. cbn [filter fst]. replace (0xfe =? tei) with false by (symmetry; apply Z.eqb_neq; congruence). reflexivity.
  - injection H as <-. now apply QUIET.
  - injection H as <-. apply QUIET; [easy..|]. now apply carries_move.
  - destruct (cut (buf (up p))) as [[f r]|] eqn:CT; [|injection H as <-; now apply QUIET].
    destruct (pstep_bsc _ _ _ _ H) as (s & fs & E & O & K & ->). cbn [bts bsc up dn] in *. exists [], fs. split; [now rewrite app_nil_r|]. split; [easy|]. intros S.
    destruct (blocks_msgs _ (bsc_blocks_ok c fs K) (bsc_blocks_small c fs S)) as (ms & M1 & M2 & M3). exists ms, (pend ++ ms). split; [easy|]. split; [rewrite M1; now apply carries_put|]. now rewrite for_app.
  - destruct (cut (buf (dn p))) as [[f r]|] eqn:CT; [|injection H as <-; now apply QUIET]. destruct (carries_read _ _ _ _ C CT) as (gs & -> & C').
    destruct (pstep_bts _ _ _ _ H) as (s & es & E & O & K & ->). cbn [bts bsc up dn] in *. destruct (bts_step _ _ _ _ _ _ _ B NT E) as (es' & O' & _ & G). assert (es' = es) as -> by (rewrite O in O'; now apply app_inv_head in O').
    exists es, []. split; [easy|]. split; [now rewrite app_nil_r|]. intros _. exists [], gs. split; [reflexivity|]. split; [easy|]. rewrite G. destruct f as [pr m]. cbn [bdue]. rewrite Nat.eqb_refl. cbn [andb].
    unfold for_tei. cbn [filter fst map]. destruct (pr =? tei); cbn [map app snd]; now rewrite app_nil_r.
Qed.
Lemma run_down x c t tei id vs : forall p p' pend, prun x c p vs = Some p' -> carries (dn p) pend -> tei <> 0xfe ->
  throughout (fun q => bts_hears (bts q) x t tei id) x c p vs -> ccm_small vs ->
  exists es fs, IpaccessBtsModel.out (bts p') = IpaccessBtsModel.out (bts p) ++ es /\ out (bsc p') = out (bsc p) ++ fs /\
    (bsc_small fs -> exists ms pend', bsc_blocks c fs = map framed ms /\ carries (dn p') pend' /\ for_tei tei pend ++ for_tei tei ms = bts_got id es ++ for_tei tei pend').
Proof.
  induction vs as [|v vs IH]; intros p p' pend H C NT TH CS.
  - cbn [prun] in H. injection H as <-. exists [], []. rewrite !app_nil_r. split; [easy|]. split; [easy|]. intros _. exists [], pend. split; [reflexivity|]. split; [easy|]. cbn. now rewrite app_nil_r.
  - cbn [prun] in H. destruct (pstep x c p v) as [q|] eqn:Q; [|discriminate H]. cbn [throughout] in TH. destruct TH as [B TH].
    assert (C1 : ccm_small [v]) by (intros m [[E|[]]|[E|[]]]; apply (CS m); [left|right]; now left). assert (C2 : ccm_small vs) by (intros m [E|E]; apply (CS m); [left|right]; now right).
    destruct (step_down _ _ _ _ _ _ _ _ _ Q B NT C C1) as (es & fs & E1 & E2 & K).
    destruct (run_grows _ _ _ _ _ H) as [(es' & A) (fs' & D)]. exists (es ++ es'), (fs ++ fs'). split; [now rewrite A, E1, app_assoc|]. split; [now rewrite D, E2, app_assoc|]. intros S.
    assert (S1 : bsc_small fs) by (intros i k b J; apply (S i k b); apply in_or_app; now left). assert (S2 : bsc_small fs') by (intros i k b J; apply (S i k b); apply in_or_app; now right).
    destruct (K S1) as (ms & pend2 & M1 & M2 & M3). destruct (IH q p' pend2 H M2 NT (TH q Q) C2) as (es2 & fs2 & A' & D' & R'). assert (es2 = es') as -> by (rewrite A in A'; symmetry in A'; now apply app_inv_head in A'). assert (fs2 = fs') as -> by (rewrite D in D'; symmetry in D'; now apply app_inv_head in D').
    destruct (R' S2) as (ms2 & pend' & N1 & N2 & N3). exists (ms ++ ms2), pend'. split; [now rewrite bsc_blocks_app, map_app, M1, N1|]. split; [easy|].
    rewrite for_app, bts_got_app, app_assoc, M3, <- !app_assoc, N3. reflexivity.
Qed.
(** the same from the BSC to the BTS *)
Theorem C82_down : forall x c t tei id vs p p', prun x c p vs = Some p' -> idle (dn p) -> tei <> 0xfe ->
  throughout (fun q => bts_hears (bts q) x t tei id) x c p vs -> ccm_small vs ->
  let written := news (out (bsc p)) (out (bsc p')) in
  let heard := bts_got id (news (IpaccessBtsModel.out (bts p)) (IpaccessBtsModel.out (bts p'))) in
  bsc_small written ->
  exists ms rest, bsc_blocks c written = map (fun m => octets [m]) ms /\ for_tei tei ms = heard ++ rest /\
    (wire (dn p') = [] -> cut (buf (dn p')) = None -> rest = [] /\ buf (dn p') = []).
Proof.
  cbv zeta. intros x c t tei id vs p p' H ID NT TH CS S. destruct (run_down _ _ _ _ _ _ _ _ [] H (idle_carries _ ID) NT TH CS) as (es & fs & E1 & E2 & K).
  rewrite E2, news_app in *. rewrite E1, news_app. destruct (K S) as (ms & pend & M1 & M2 & M3). exists ms, (for_tei tei pend). split; [|split; [exact M3|]].
  - rewrite M1. apply map_ext. intros f. rewrite octets_framed. cbn. now rewrite app_nil_r.
  - intros W C. assert (pend = []) as -> by now apply (drained (dn p')). split; [reflexivity|]. destruct M2 as [_ M2]. rewrite W, app_nil_r in M2. exact M2.
Qed.

(** ** A case *)
Definition ex_bts : list IpaccessBtsModel.ev :=
  [IpaccessBtsModel.App (IpaccessBtsModel.UUpdate 7 true []); IpaccessBtsModel.Connected 0;
   IpaccessBtsModel.Rx (IpaccessBtsModel.mkE true true [IpaccessBtsModel.UCreate 0 OML 255 0] true [] []) 0 (Some (0xfe, [4]))].
Definition ex_bsc : list ev := [OmlAccept true []; Rx (mkE 0 (Some 0%nat) [UCreate 1 0 OML 255 0] (Some 3%nat) [] false []) 2 (Some (0xfe, [5]))].
Definition ex_start : option pair :=
  match IpaccessBtsModel.run (IpaccessBtsModel.bst_init true true 0) ex_bts, run (st_init true) ex_bsc with
  | IpaccessBtsModel.Ok b, Some s => Some (mkP b s (mkCh [] []) (mkCh [] []))
  | _, _ => None
  end.
Definition ex_quiet : env := mkE 1 None [] None [USend 3 [9; 9; 9]] false [].
(** two messages and a ping go up, torn apart on the way; the BSC answers the first at once *)
Definition ex_vs : list pev :=
  [AtBts (IpaccessBtsModel.App (IpaccessBtsModel.USend 2 [7; 8])); UpMove 4; UpRead ex_quiet; UpCcm [0]; AtBts (IpaccessBtsModel.App (IpaccessBtsModel.USend 2 [5]));
   UpMove 3; UpRead ex_quiet; DnMove 10; DnRead (IpaccessBtsModel.mkE false true [] true [] []); UpMove 9; UpRead ex_quiet; UpRead ex_quiet].
Example C82_example : exists p p', ex_start = Some p /\ prun 0 2 p ex_vs = Some p' /\ idle (up p) /\ idle (dn p) /\
  throughout (fun q => bsc_hears (bsc q) 2 1 0 255 3) 0 2 p ex_vs /\ throughout (fun q => bts_hears (bts q) 0 0 255 2) 0 2 p ex_vs /\
  bsc_got 3 (news (out (bsc p)) (out (bsc p'))) = [[7; 8]; [5]] /\ bts_got 2 (news (IpaccessBtsModel.out (bts p)) (IpaccessBtsModel.out (bts p'))) = [[9; 9; 9]] /\
  wire (dn p') = [0; 3; 255; 9; 9; 9].
Proof.
  eexists. eexists. split; [vm_compute; reflexivity|]. split; [vm_compute; reflexivity|]. split; [easy|]. split; [easy|].
  Ltac on1 := match goal with |- exists a k b, ?l = _ /\ _ => match eval vm_compute in l with [?k] => exists [], k, []; split; [vm_compute; reflexivity|]; split; [reflexivity|]; split; [repeat split|]; intros y [] end end.
  Ltac onlyin H := vm_compute in H; repeat match type of H with _ \/ _ => destruct H as [H|H] end; try contradiction.
  Ltac hears := split; [eexists; split; [vm_compute; reflexivity|vm_compute; reflexivity]|]; split; [vm_compute; tauto|]; split; [intros y Y _; onlyin Y; now rewrite <- Y|]; split; [on1|]; intros y Y _; onlyin Y; rewrite <- Y; repeat split.
  Ltac bhears := split; [vm_compute; tauto|]; split; [intros y Y _; onlyin Y; now rewrite <- Y|]; split; [on1|]; intros y Y _; onlyin Y; rewrite <- Y; repeat split.
  Ltac walk h := split; [h|]; try exact Logic.I; let q := fresh "q" in let Q := fresh "Q" in intros q Q; vm_compute in Q; injection Q as <-.
  split; [do 12 (walk hears); walk hears|]. split; [do 12 (walk bhears); walk bhears|]. vm_compute. auto.
Qed.
