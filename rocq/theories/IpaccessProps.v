(** C53, C54: connections, lines and signalling links of the ip.access driver (BSC). *)
From Coq Require Import List Arith Lia Bool ZArith.
From Verif Require Import Base ProxyProofs IpaccessModel IpaccessProofs.
Import ListNotations.
Open Scope Z_scope.

(** ** What is asked of the application and of the peer *)
(** connection [c], on line [l], has been identified as TRX [trx] and sign_link_up runs.
    The application does not close that connection itself; if it returns a link of another
    line, then TRX [trx] exists, the connection is not supervised already (it was not
    attached before), and the TRX's timeslot of that line is configured for signalling and
    has no connection. *)
Definition polite_up (e : env) (s : st) (c l : nat) (ty : Z) (trx : nat) : Prop :=
  forall s', execs (e_up e) (emit s (EUp l ty)) = Some s' ->
  (exists x, In x (conns s') /\ c_id x = c) /\
  (ty = RSL -> forall k, up_ret s' e = Some k -> l_line k <> l ->
     (1 + trx < 32)%nat /\ (forall k', kas s' k' <> Some c) /\
     forall nn, lines s' (l_line k) = Some nn -> t_data (n_ts nn (1 + trx)) = None /\ t_sign (n_ts nn (1 + trx)) = true).
Definition polite (s : st) (v : ev) : Prop :=
  match v with
  | Rx e c (Some (proto, d)) => forall l t n, In (mkC c (Some (l, t))) (conns s) -> lines s l = Some n ->
    if proto =? PROTO_IPACCESS then
      hd 0 d = MSGT_ID_RESP -> e_base e = 0 -> forall trx, e_unit e = Some trx ->
      (t_priv (n_ts n t) = OML -> polite_up e s c l OML trx) /\ (t_priv (n_ts n t) = RSL -> polite_up e s c l RSL trx)
    else (* sign_link does not return an error after it closed the line *)
      e_rc e = true -> forall k s', lookup_link s l t proto 0 = Some k ->
      execs (e_act e) (emit s (EDeliver (l_id k) d)) = Some s' -> lines s' l <> None
  | _ => True
  end.
Fixpoint polite_run (s : st) (vs : list ev) : Prop :=
  match vs with
  | [] => True
  | v :: r => polite s v /\ forall s', step s v = Some s' -> polite_run s' r
  end.

Lemma good_emit El Et D s e : quiet e = true -> Good El Et D s -> Good El Et D (emit s e).
Proof. intros Q [C T]. split; [now apply core_emit|exact T]. Qed.
Lemma frame_emit s e : frame s (emit s e).
Proof. unfold frame, emit; fsg. split; [lia|]. split; [easy|]. exists [e]. auto. Qed.

Lemma attach_ok s c l t n nl nt nn q : Good E0 E1 D0 s -> In (mkC c (Some (l, t))) (conns s) -> lines s l = Some n -> lines s nl = Some nn -> nl <> l ->
  (nt < 32)%nat -> t_data (n_ts nn nt) = None -> t_sign (n_ts nn nt) = true -> t_ka (n_ts n t) = None ->
  exists s', (do s <- line_get s nl Tbfd;
        do nn <- lines s nl;
        let y := n_ts nn nt in
        let s := set_line s nl (Some (set_ts nn nt (mkT (Some c) q (t_ka y) (t_sign y)))) in
        do _x <- find_conn s c;
        let s := set_at s c (Some (nl, nt)) in
        do n <- lines s l;
        let z := n_ts n t in
        if negb (match t_data z with Some d => Nat.eqb d c | None => false end) then None else
        let s := set_line s l (Some (set_ts n t (mkT None (t_priv z) (t_ka z) (t_sign z)))) in
        do s <- line_put s l Tbfd;
        do s <- ka_alloc s nl nt c;
        write_cb s nl nt) = Some s' /\ Good E0 E1 D0 s' /\ (nxt s <= nxt s')%nat /\ kap s' = kap s /\
    conns s' = rep c_id c (fun x => mkC (c_id x) (Some (nl, nt))) (conns s) /\ lks s' = map (clr nl nt) (lks s) /\
    (lines s' l = None <-> n_bfd n + n_lnk n + n_tmp n = 1) /\ (exists n', lines s' nl = Some n' /\ (kap s = true -> exists k, t_ka (n_ts n' nt) = Some k /\ kas s' k = Some c)) /\
    exists ks, out s' = out s ++ (if n_bfd n + n_lnk n + n_tmp n =? 1 then [EFreeLine l] else []) ++ ks ++ sent nl nt c (lks s) /\
      if kap s then exists k, ks = [EKaStart k c] /\ kas s' k = Some c else ks = [].
Proof.
  intros G I L LN NL TT DN SN KN. pose proof G as [C T].
  assert (FI : find_conn s c = Some (mkC c (Some (l, t)))) by exact (find_in _ _ _ _ _ C I).
  destruct (g_us _ _ _ _ C l n L) as (U1 & U2 & U3 & U4).
  assert (B : 0 < n_bfd n). { rewrite U1. apply (cnt_in _ _ _ I). cbn [atl c_at]. apply Nat.eqb_refl. }
  assert (DA : t_data (n_ts n t) = Some c).
  { destruct (g_at _ _ _ _ C _ l t I eq_refl) as (_ & m & E & F). rewrite L in E. now injection E as ->. }
  assert (KNN : t_ka (n_ts nn nt) = None).
  { destruct (t_ka (n_ts nn nt)) as [k|] eqn:E; [|easy]. destruct (g_ka _ _ _ _ C nl nn nt k LN E) as (d & _ & F). congruence. }
  unfold line_get. rewrite LN. cbn [set_line lines]. unfold upd at 1. rewrite Nat.eqb_refl. cbn [use_add n_ts]. rewrite KNN. cbn zeta.
  change (find_conn (set_line (set_line s nl _) nl _) c) with (find_conn s c). rewrite FI.
  cbn [set_at set_conns set_line lines]. pose proof NL as NL'. apply not_eq_sym, Nat.eqb_neq in NL'. unfold upd at 1. rewrite NL'. unfold upd at 1. rewrite NL', L, DA, Nat.eqb_refl, KN.
  cbn [negb].
  set (nn' := set_ts _ nt _). set (n' := set_ts n t _).
  unfold line_put. cbn [set_line lines]. unfold upd at 1. rewrite Nat.eqb_refl. cbn [use_of use_add]. subst n'. unfold set_ts at 1 2 3 4 5 6 7 8; fsg.
  destruct (Z.leb_spec (n_bfd n) 0) as [|_]; [lia|].
  set (n' := mkN (n_bfd n + -1) (n_lnk n) (n_tmp n) (upd (n_ts n) t (mkT None (t_priv (n_ts n t)) None (t_sign (n_ts n t))))).
  (* the state in which the old line is still held once more *)
  set (s1 := mkSt (fun i => if Nat.eqb i l then Some (mkN (n_bfd n - 1) (n_lnk n) (n_tmp n + 1) (n_ts n')) else if Nat.eqb i nl then Some nn' else lines s i)
                  (rep c_id c (fun x => mkC (c_id x) (Some (nl, nt))) (conns s)) (kas s) (lks s) (kap s) (nxt s) (out s)).
  assert (C1 : Core E0 (bump E1 l) D0 s1).
  { eapply (core_move E0 E1 D0 s c l t n nl nt nn s1 _ nn' (t_priv (n_ts n t)) q C I L LN NL TT DN KN); subst s1 n' nn'; unfold set_ts; fsg; try reflexivity; lia. }
  assert (T1 : Td (Some (nl, nt)) s1).
  { intros k m d J A F. subst s1; fs. destruct (Nat.eqb_spec (l_line k) l) as [E|N].
    - injection A as <-. fs. subst n'; fs. unfold upd in F. destruct (Nat.eqb (l_ts k) t); [discriminate|]. left. destruct (T k n d J) as [|X]; try easy. now rewrite E.
    - destruct (Nat.eqb_spec (l_line k) nl) as [E|N'].
      + injection A as <-. subst nn'. unfold set_ts in F; fs. unfold upd in F. destruct (Nat.eqb_spec (l_ts k) nt) as [E'|]; [right; congruence|].
        left. destruct (T k nn d J) as [|X]; try easy. now rewrite E.
      + left. destruct (T k m d J) as [|X]; easy. }
  (* releasing it *)
  set (fre := n_bfd n + n_lnk n + n_tmp n =? 1).
  assert (exists s2, (if n_bfd n + -1 + n_lnk n + n_tmp n =? 0
      then Some (emit (set_line (set_line (mkSt (upd (upd (lines s) nl (Some (mkN (n_bfd nn + 1) (n_lnk nn) (n_tmp nn) (n_ts nn)))) nl (Some nn'))
              (map (fun x => if Nat.eqb (c_id x) c then mkC (c_id x) (Some (nl, nt)) else x) (conns s)) (kas s) (lks s) (kap s) (nxt s) (out s)) l
              (Some (mkN (n_bfd n) (n_lnk n) (n_tmp n) (upd (n_ts n) t (mkT None (t_priv (n_ts n t)) None (t_sign (n_ts n t))))))) l None) (EFreeLine l))
      else Some (set_line (set_line (mkSt (upd (upd (lines s) nl (Some (mkN (n_bfd nn + 1) (n_lnk nn) (n_tmp nn) (n_ts nn)))) nl (Some nn'))
              (map (fun x => if Nat.eqb (c_id x) c then mkC (c_id x) (Some (nl, nt)) else x) (conns s)) (kas s) (lks s) (kap s) (nxt s) (out s)) l
              (Some (mkN (n_bfd n) (n_lnk n) (n_tmp n) (upd (n_ts n) t (mkT None (t_priv (n_ts n t)) None (t_sign (n_ts n t))))))) l (Some n'))) = Some s2 /\
     Core E0 E1 D0 s2 /\ Td (Some (nl, nt)) s2 /\ lines s2 nl = Some nn' /\ conns s2 = rep c_id c (fun x => mkC (c_id x) (Some (nl, nt))) (conns s) /\
     lks s2 = lks s /\ nxt s2 = nxt s /\ kap s2 = kap s /\ out s2 = out s ++ (if fre then [EFreeLine l] else []) /\ (lines s2 l = None <-> fre = true)) as (s2 & S2 & C2 & T2 & L2 & CC2 & LK2 & N2 & P2 & O2 & LF2).
  { pose proof (core_tokens E0 (bump E1 l) E0 E1 D0 s1 l (mkN (n_bfd n - 1) (n_lnk n) (n_tmp n + 1) (n_ts n')) n' C1) as CT.
    pose proof (core_free E0 (bump E1 l) E0 E1 D0 s1 l (mkN (n_bfd n - 1) (n_lnk n) (n_tmp n + 1) (n_ts n')) C1) as CF.
    assert (Ls1 : lines s1 l = Some (mkN (n_bfd n - 1) (n_lnk n) (n_tmp n + 1) (n_ts n'))) by (subst s1; fsg; now rewrite Nat.eqb_refl).
    pose proof (cnt_nn (onl l) (lks s)) as Q1. unfold E0 in U2. unfold E1 in U3.
    assert (E1p : 0 <= E1 l) by apply b2_nn.
    assert (O : forall i, i <> l -> E0 i = E0 i /\ E1 i = bump E1 l i).
    { intros i N. split; [easy|]. unfold bump. apply Nat.eqb_neq in N. rewrite N. cbn [b2]. lia. }
    subst fre. destruct (Z.eqb_spec (n_bfd n + -1 + n_lnk n + n_tmp n) 0) as [Z|Z].
    - replace (n_bfd n + n_lnk n + n_tmp n =? 1) with true by (symmetry; apply Z.eqb_eq; lia).
      eexists. split; [reflexivity|]. unfold E1 in E1p. split; [|split; [|split; [|repeat split]]].
      + eapply core_pw; [apply CF; fsg; try easy; try lia; try (unfold E1; lia); subst s1; fsg; lia| | | | | |]; subst s1; unfold emit, set_line; fsg; try reflexivity.
        intros i. unfold upd. destruct (Nat.eqb_spec i l); [easy|]. now destruct (Nat.eqb_spec i nl).
      + eapply td_pw; [apply (td_free s1 l _ T1)| |]; subst s1; unfold emit, set_line; fsg; try reflexivity.
        intros i. unfold upd. destruct (Nat.eqb_spec i l); [easy|]. now destruct (Nat.eqb_spec i nl).
      + unfold emit, set_line; fsg. unfold upd. apply Nat.eqb_neq in NL. rewrite NL, Nat.eqb_refl. reflexivity.
      + intros _. unfold emit, set_line; fsg. unfold upd. now rewrite Nat.eqb_refl.
    - replace (n_bfd n + n_lnk n + n_tmp n =? 1) with false by (symmetry; apply Z.eqb_neq; lia).
      eexists. split; [reflexivity|]. split; [|split; [|split; [|repeat split]]].
      + eapply core_pw; [apply CT; subst s1 n'; fsg; try easy; try lia; try (unfold E0, E1; lia)| | | | | |]; subst s1; unfold set_line; fsg; try reflexivity.
        intros i. unfold upd. destruct (Nat.eqb_spec i l); [easy|]. now destruct (Nat.eqb_spec i nl).
      + eapply td_pw; [apply (td_line s1 l _ n' _ Ls1); [reflexivity|exact T1]| |]; subst s1; unfold set_line; fsg; try reflexivity.
        intros i. unfold upd. destruct (Nat.eqb_spec i l); [easy|]. now destruct (Nat.eqb_spec i nl).
      + unfold set_line; fsg. unfold upd. apply Nat.eqb_neq in NL. rewrite NL, Nat.eqb_refl. reflexivity.
      + cbn. now rewrite app_nil_r.
      + unfold set_line; fsg. unfold upd. now rewrite Nat.eqb_refl.
      + easy. }
  match goal with |- exists s', match ?X with Some _ => _ | None => _ end = _ /\ _ => assert (X = Some s2) as -> by exact S2 end. clear S2.
  assert (DN2 : t_data (n_ts nn' nt) = Some c) by (subst nn'; unfold set_ts, upd; fsg; now rewrite Nat.eqb_refl).
  assert (SN2 : t_sign (n_ts nn' nt) = true) by (subst nn'; unfold set_ts, upd; fsg; now rewrite Nat.eqb_refl).
  assert (KN2 : t_ka (n_ts nn' nt) = None) by (subst nn'; unfold set_ts, upd; fsg; now rewrite Nat.eqb_refl).
  destruct (ka_alloc_ok _ _ _ _ s2 nl nt nn' c C2 T2 L2 DN2) as (s3 & -> & C3 & T3 & (NX & PX & _) & CC3 & LK3 & LO3 & m & L3 & TS3 & KA3).
  unfold write_cb. rewrite L3. destruct (TS3 nt) as (-> & -> & _). rewrite DN2, SN2.
  assert (I3 : In (mkC c (Some (nl, nt))) (conns s3)).
  { rewrite CC3, CC2. exact (in_rep_same c_id (fun x => mkC (c_id x) (Some (nl, nt))) (conns s) _ I). }
  pose proof (find_in _ _ _ _ _ C3 I3) as FI3. cbn [c_id] in FI3. rewrite FI3. cbn [negb].
  eexists. split; [reflexivity|]. split; [now apply core_write|]. rewrite write_all. fsg. rewrite LK3, LK2.
  split; [lia|]. split; [congruence|]. split; [congruence|]. split; [easy|].
  rewrite KN2, P2 in KA3. split; [|split].
  - rewrite LO3 by congruence. rewrite LF2. subst fre. apply Z.eqb_eq.
  - exists m. split; [easy|]. intros KP. rewrite KP in KA3. destruct KA3 as (k & K1 & K2 & _). eauto.
  - fold fre. destruct (kap s).
    + destruct KA3 as (k & _ & K2 & O3). cbn [term_of app] in O3. exists [EKaStart k c]. split; [|now exists k]. rewrite O3, O2, <- !app_assoc. reflexivity.
    + destruct KA3 as (_ & O3). cbn [term_of] in O3. exists []. split; [|easy]. rewrite O3, O2, <- !app_assoc. reflexivity.
Qed.

Lemma grown_refl s : grown s s. Proof. apply frame_grown, frame_refl. Qed.
Lemma err_ok s c l t down : Inv s -> In (mkC c (Some (l, t))) (conns s) -> exists s', srv_destroy (execs down) s c = Some s' /\ Inv s' /\ grown s s' /\ ~ In c (map c_id (conns s')).
Proof.
  intros [G P] I. destruct (destroy_ok (execs down) _ _ _ s c l t (execs_ok down) G I) as (s' & -> & G' & F & N & _).
  exists s'. split; [easy|]. split; [split; [easy|destruct F; lia]|]. split; [now apply frame_grown|easy].
Qed.
Lemma grown_trans s s1 s' : grown s s1 -> grown s1 s' -> grown s s'.
Proof.
  intros (N1 & P1 & e1 & O1 & S1 & R1) (N & P & es & O & S & R). split; [lia|]. split; [congruence|]. exists (e1 ++ es).
  rewrite O, O1, app_assoc. split; [easy|]. split.
  - intros x I. rewrite in_app_iff. destruct (S1 x I) as [(y & J & E)|]; [|auto]. destruct (S y J) as [(z & J' & E')|]; [left; exists z; split; congruence|]. rewrite <- E. auto.
  - intros x I. destruct (R x I) as [(y & J & E)|]; [|right; lia]. rewrite <- E. auto.
Qed.
Lemma step_ok s v : Inv s -> polite s v -> exists s', step s v = Some s' /\ Inv s' /\ grown s s'.
Proof.
  intros I PO. pose proof I as [G P0]. pose proof G as [C T]. destruct v as [i d|i d|e c m|k d|u]; cbn [step].
  - now apply oml_ok.
  - now apply rsl_ok.
  - destruct (find_conn s c) as [x|] eqn:F; [|exists s; split; [easy|split; [easy|apply grown_refl]]].
    unfold read_cb. rewrite F. apply (find_id_some c_id) in F as [IX <-].
    destruct (c_at x) as [[l t]|] eqn:A; [|destruct (g_de _ _ _ _ C x IX A)].
    assert (IX' : In (mkC (c_id x) (Some (l, t))) (conns s)) by (rewrite <- A; now destruct x).
    destruct (g_at _ _ _ _ C x l t IX A) as (TT & n & L & DA). rewrite L.
    assert (ERR : forall s1, Good E0 E1 D0 s1 -> frame s s1 -> (exists y, In y (conns s1) /\ c_id y = c_id x) ->
              exists s', srv_destroy (execs (e_down e)) s1 (c_id x) = Some s' /\ Inv s' /\ grown s s').
    { intros s1 G1 F1 (y & J & E). pose proof F1 as (NF & PF & es & OF & SF & RF). pose proof (SF y J) as J0.
      assert (y = x) as -> by (now apply (id_inj c_id (conns s) y x (g_cn _ _ _ _ C))).
      destruct (err_ok s1 (c_id x) l t (e_down e)) as (s' & -> & I' & R' & _); [split; [easy|lia]|rewrite <- A; now destruct x|].
      destruct R' as (N2 & P2 & e2 & O2 & S2 & R2). exists s'. split; [easy|]. split; [easy|]. split; [lia|]. split; [congruence|]. exists (es ++ e2).
      rewrite O2, OF, app_assoc. split; [easy|]. split.
      - intros z Z. rewrite in_app_iff. destruct (RF z Z) as [Z'|]; [|auto]. destruct (S2 z Z'); auto.
      - intros z Z. destruct (R2 z Z) as [(y & Y & E')|]; [left; eauto|right; lia]. }
    destruct m as [[proto d]|]; [|apply ERR; [easy|apply frame_refl|eauto]].
    cbn [polite] in PO. specialize (PO l t n IX' L). destruct (proto =? PROTO_IPACCESS) eqn:PR.
    + unfold rcvmsg. rewrite (find_in _ _ _ _ _ C IX), A, L.
      assert (exists s1, (match t_ka (n_ts n t) with Some k => if hd 0 d =? MSGT_PONG then do _c <- kas s k; Some (emit s (EKaPong k)) else Some s | None => Some s end) = Some s1 /\
        Good E0 E1 D0 s1 /\ frame s s1 /\ conns s1 = conns s /\ (hd 0 d = MSGT_ID_RESP -> s1 = s)) as (s1 & -> & G1 & F1 & CC1 & IDR).
      { destruct (t_ka (n_ts n t)) as [k|] eqn:TK; [|exists s; split; [easy|split; [easy|split; [apply frame_refl|easy]]]].
        destruct (Z.eqb_spec (hd 0 d) MSGT_PONG) as [E|]; [|exists s; split; [easy|split; [easy|split; [apply frame_refl|easy]]]].
        destruct (g_ka _ _ _ _ C l n t k L TK) as (d' & -> & _). eexists. split; [reflexivity|]. split; [now apply good_emit|]. split; [apply frame_emit|]. split; [easy|].
        intros E'. rewrite E in E'. discriminate. }
      cbn zeta. destruct (Z.eqb_spec (e_base e) 1) as [|B1].
      { exists s1. split; [easy|]. split; [split; [easy|destruct F1; lia]|now apply frame_grown]. }
      assert (EX : exists y, In y (conns s1) /\ c_id y = c_id x) by (rewrite CC1; eauto).
      destruct (Z.eqb_spec (e_base e) 0) as [B0|B0]; cbn [negb]; [|now apply ERR].
      destruct (Z.eqb_spec (hd 0 d) MSGT_ID_RESP) as [MT|MT]; cbn [negb]; [|now apply ERR].
      destruct (e_unit e) as [trx|] eqn:UN; [|now apply ERR]. rewrite (IDR MT) in *. clear IDR EX CC1 F1 G1 s1.
      destruct (PO MT B0 trx eq_refl) as [PO1 PO2].
      destruct (Z.eqb_spec (t_priv (n_ts n t)) OML) as [PV|PV]; [|destruct (Z.eqb_spec (t_priv (n_ts n t)) RSL) as [PV'|PV']].
      * destruct (execs_ok (e_up e) E0 E1 D0 (emit s (EUp l OML))) as (s1 & S1 & G1 & F1); [now apply good_emit|]. rewrite S1.
        destruct (PO1 PV s1 S1) as [EX _].
        assert (F1' : frame s s1) by (eapply frame_trans; [apply frame_emit|exact F1]).
        destruct (up_ret s1 e); [|now apply ERR]. destruct EX as (y & J & E). pose proof F1' as (NF & PF & es & OF & SF & RF).
        assert (y = x) as -> by (now apply (id_inj c_id (conns s) y x (g_cn _ _ _ _ C)); auto). destruct G1 as [C1 T1]. rewrite (find_in _ _ _ _ _ C1 J).
        destruct (g_at _ _ _ _ C1 x l t J A) as (_ & n1 & L1 & D1).
        destruct (ka_alloc_ok _ _ _ _ s1 l t n1 (c_id x) C1 T1 L1 D1) as (s2 & -> & C2 & T2 & F2 & _).
        exists s2. split; [easy|]. split; [split; [split; easy|destruct F2; lia]|]. apply frame_grown. eapply frame_trans; eauto.
      * destruct (execs_ok (e_up e) E0 E1 D0 (emit s (EUp l RSL))) as (s1 & S1 & G1 & F1); [now apply good_emit|]. rewrite S1.
        destruct (PO2 PV' s1 S1) as [EX PU].
        assert (F1' : frame s s1) by (eapply frame_trans; [apply frame_emit|exact F1]).
        destruct (up_ret s1 e) as [k|] eqn:UR; [|now apply ERR]. destruct EX as (y & J & E). pose proof F1' as (NF & PF & es & OF & SF & RF).
        assert (y = x) as -> by (now apply (id_inj c_id (conns s) y x (g_cn _ _ _ _ C)); auto).
        destruct (Nat.eqb_spec (l_line k) l) as [NE|NE].
        { exists s1. split; [easy|]. split; [split; [easy|lia]|]. now apply frame_grown. }
        pose proof G1 as [C1 T1]. destruct (PU eq_refl k eq_refl NE) as (TR & KN & PN).
        assert (IK : In k (lks s1)). { unfold up_ret in UR. destruct (e_ret e); [|discriminate]. now apply (find_id_some l_id) in UR. }
        destruct (g_lk _ _ _ _ C1 k IK) as (_ & _ & nn & LN & _). destruct (PN nn LN) as [DN SN].
        destruct (g_at _ _ _ _ C1 x l t J A) as (_ & n1 & L1 & D1).
        assert (K1 : t_ka (n_ts n1 t) = None).
        { destruct (t_ka (n_ts n1 t)) as [k0|] eqn:K0; [|easy]. destruct (g_ka _ _ _ _ C1 l n1 t k0 L1 K0) as (c' & KC & DC). exfalso. apply (KN k0). congruence. }
        destruct (attach_ok s1 (c_id x) l t n1 (l_line k) (1 + trx) nn (RSL + Z.of_nat trx) G1) as (s2 & S2 & G2 & N2 & P2 & CC2 & LK2 & _ & _ & ks & O2 & _); try easy.
        { rewrite <- A. now destruct x. }
        assert (RT : rsl_ts trx = Some (1 + trx)%nat). { unfold rsl_ts. apply Nat.ltb_lt in TR. unfold NUM_E1_TS. now rewrite TR. }
        exists s2. split; [|split; [split; [easy|lia]|]].
        -- cbn zeta. rewrite <- S2. unfold line_get. rewrite LN, RT. reflexivity.
        -- apply (grown_trans s s1); [now apply frame_grown|]. split; [easy|]. split; [easy|]. eexists. split; [exact O2|]. rewrite CC2. split.
           ++ intros z Z. left. destruct (Nat.eq_dec (c_id z) (c_id x)) as [E'|N'].
              ** eexists. split; [rewrite <- E'; apply (in_rep_same c_id (fun z => mkC (c_id z) (Some (l_line k, (1 + trx)%nat))) (conns s1) z Z)|easy].
              ** exists z. split; [now apply in_rep_other|easy].
           ++ intros z Z. left. apply in_rep in Z as (y & Y & ->). exists y. split; [easy|]. now destruct (Nat.eqb (c_id y) (c_id x)).
      * exists s. split; [easy|]. split; [easy|apply grown_refl].
    + destruct (t_sign (n_ts n t)); cbn [negb]; [|apply ERR; [easy|apply frame_refl|eauto]].
      destruct (lookup_link s l t proto 0) as [k|] eqn:LO; [|apply ERR; [easy|apply frame_refl|eauto]].
      destruct (execs_ok (e_act e) E0 E1 D0 (emit s (EDeliver (l_id k) d))) as (s1 & S1 & G1 & F1); [now apply good_emit|]. rewrite S1.
      assert (F1' : frame s s1) by (eapply frame_trans; [apply frame_emit|exact F1]).
      exists s1. split; [|split; [split; [easy|destruct F1'; lia]|now apply frame_grown]].
      destruct (e_rc e) eqn:RC; [|easy]. destruct (lines s1 l) eqn:L1; [easy|]. exfalso. now apply (PO eq_refl k s1 eq_refl S1).
  - unfold ka_timeout. destruct (kas s k) as [c|] eqn:K; [|exists s; split; [easy|split; [easy|apply grown_refl]]].
    destruct (g_ko _ _ _ _ C k c K) as (l & n & t & L & TK). destruct (g_ka _ _ _ _ C l n t k L TK) as (c' & K' & DA). rewrite K in K'. injection K' as <-.
    destruct (err_ok s c l t d I (g_da _ _ _ _ C l n t c L DA)) as (s' & -> & I' & R' & _). eauto.
  - destruct (exec_ok u E0 E1 D0 s G) as (s' & -> & G' & F'). exists s'. split; [easy|]. split; [split; [easy|destruct F'; lia]|now apply frame_grown].
Qed.
Lemma run_ok vs : forall s, Inv s -> polite_run s vs -> exists s', run s vs = Some s' /\ Inv s' /\ grown s s'.
Proof.
  induction vs as [|v r IH]; intros s I P.
  - exists s. split; [easy|]. split; [easy|apply grown_refl].
  - destruct P as [P1 P2]. cbn [run]. destruct (step_ok s v I P1) as (s1 & S1 & I1 & R1). rewrite S1.
    destruct (IH s1 I1 (P2 s1 S1)) as (s2 & -> & I2 & R2). exists s2. split; [easy|]. split; [easy|]. now apply (grown_trans s s1).
Qed.

(** ** C53 *)
Definition reach (s : st) : Prop := exists k vs, polite_run (st_init k) vs /\ run (st_init k) vs = Some s.
Lemma reach_inv s : reach s -> Inv s.
Proof. intros (k & vs & P & R). destruct (run_ok vs _ (init_ok k) P) as (s' & R' & I & _). rewrite R in R'. now injection R' as ->. Qed.

(** what holds between any two events *)
Record Tidy (s : st) : Prop := {
  (* a connection is on one timeslot, which refers back to it; nothing refers to a connection that is gone *)
  y_one : NoDup (map c_id (conns s));
  y_at : forall x, In x (conns s) -> exists l t, c_at x = Some (l, t) /\ (t < 32)%nat;
  y_back : forall c l t, In (mkC c (Some (l, t))) (conns s) <-> exists n, lines s l = Some n /\ t_data (n_ts n t) = Some c;
  (* a line exists as long as it is used, and its use counts are what they should be *)
  y_line : forall l, lines s l <> None <-> l = 0%nat \/ (exists c t, In (mkC c (Some (l, t))) (conns s)) \/ (exists k, In k (lks s) /\ l_line k = l);
  y_use : forall l n, lines s l = Some n ->
     n_bfd n = Z.of_nat (length (filter (fun x => match c_at x with Some (l', _) => Nat.eqb l' l | None => false end) (conns s))) /\
     n_lnk n = Z.of_nat (length (filter (fun k => Nat.eqb (l_line k) l) (lks s))) /\
     n_tmp n = if Nat.eqb l 0 then 1 else 0;
  (* a keepalive machine supervises the connection of the timeslot that refers to it; none is lost *)
  y_ka : forall k c, kas s k = Some c <-> exists l n t, lines s l = Some n /\ t_ka (n_ts n t) = Some k /\ t_data (n_ts n t) = Some c;
  y_ka_used : forall l n t k, lines s l = Some n -> t_ka (n_ts n t) = Some k -> exists c, kas s k = Some c;
  (* closed once, freed once *)
  y_close : forall c, (In (EClose c) (out s) -> ~ In c (map c_id (conns s))) /\ (length (filter (fun e => match e with EClose c' => Nat.eqb c' c | _ => false end) (out s)) <= 1)%nat;
  y_free : forall l, (In (EFreeLine l) (out s) -> lines s l = None) /\ (length (filter (fun e => match e with EFreeLine l' => Nat.eqb l' l | _ => false end) (out s)) <= 1)%nat
}.
Lemma cnt_len {A} (f : A -> bool) l : cnt f l = Z.of_nat (length (filter f l)).
Proof. induction l as [|x l IH]; [easy|]. cbn [cnt filter]. destruct (f x); cbn [b2 length]; lia. Qed.
Lemma inv_tidy s : Inv s -> Tidy s.
Proof.
  intros [[C T] P]. assert (AT : forall x, In x (conns s) -> exists l t, c_at x = Some (l, t)).
  { intros x J. destruct (c_at x) as [[l t]|] eqn:A; [eauto|]. destruct (g_de _ _ _ _ C x J A). }
  constructor.
  - apply (g_cn _ _ _ _ C).
  - intros x J. destruct (AT x J) as (l & t & A). exists l, t. split; [easy|]. now destruct (g_at _ _ _ _ C x l t J A).
  - intros c l t. split.
    + intros J. destruct (g_at _ _ _ _ C _ l t J eq_refl) as (_ & n & L & D). eauto.
    + intros (n & L & D). exact (g_da _ _ _ _ C l n t c L D).
  - intros l. split.
    + intros N. destruct (lines s l) as [n|] eqn:L; [|easy]. destruct (g_us _ _ _ _ C l n L) as (U1 & U2 & U3 & U4). unfold E0 in U2. unfold E1 in U3.
      destruct (Nat.eqb_spec l 0); [now left|]. cbn [b2] in U3. right. rewrite cnt_len in U1. rewrite cnt_len in U2.
      destruct (filter (atl l) (conns s)) as [|x r] eqn:F.
      * right. destruct (filter (onl l) (lks s)) as [|k r'] eqn:F'; [cbn in U1, U2; lia|].
        exists k. assert (In k (filter (onl l) (lks s))) as J by (rewrite F'; now left). apply filter_In in J as [J1 J2]. split; [easy|]. now apply Nat.eqb_eq in J2.
      * left. assert (In x (filter (atl l) (conns s))) as J by (rewrite F; now left). apply filter_In in J as [J1 J2]. unfold atl in J2.
        destruct (c_at x) as [[l' t]|] eqn:A; [|easy]. apply Nat.eqb_eq in J2. subst l'. exists (c_id x), t. rewrite <- A. now destruct x.
    + intros [->|[(c & t & J)|(k & J & <-)]].
      * apply (g_ex _ _ _ _ C). unfold E0, E1. cbn. lia.
      * destruct (g_at _ _ _ _ C _ l t J eq_refl) as (_ & n & -> & _). easy.
      * destruct (g_lk _ _ _ _ C k J) as (_ & _ & n & -> & _). easy.
  - intros l n L. destruct (g_us _ _ _ _ C l n L) as (U1 & U2 & U3 & U4). unfold E0 in U2. unfold E1 in U3. rewrite cnt_len in U1. rewrite cnt_len in U2.
    split; [exact U1|]. split; [unfold onl in U2; lia|]. rewrite U3. now destruct (Nat.eqb l 0).
  - intros k c. split.
    + intros K. destruct (g_ko _ _ _ _ C k c K) as (l & n & t & L & TK). destruct (g_ka _ _ _ _ C l n t k L TK) as (c' & K' & D). rewrite K in K'. injection K' as <-. eauto 6.
    + intros (l & n & t & L & TK & D). destruct (g_ka _ _ _ _ C l n t k L TK) as (c' & K' & D'). congruence.
  - intros l n t k L TK. destruct (g_ka _ _ _ _ C l n t k L TK) as (c' & K' & D'). eauto.
  - intros c. split.
    + intros J K. apply in_map_iff in K as (x & <- & K). apply (g_cl _ _ _ _ C x K); [|easy]. destruct (AT x K) as (l & t & ->). easy.
    + pose proof (g_c1 _ _ _ _ C c) as Q. rewrite cnt_len in Q. lia.
  - intros l. split.
    + intros J. destruct (lines s l) eqn:L; [|easy]. exfalso. apply (g_fl _ _ _ _ C l); [congruence|easy].
    + pose proof (g_f1 _ _ _ _ C l) as Q. rewrite cnt_len in Q. lia.
Qed.

(** no history (of accepted connections, messages, timeouts and actions of the application
    in and outside its callbacks) touches a freed object, underflows a use count or
    leaves the books in disorder *)
Theorem C53_safe : forall k vs, polite_run (st_init k) vs -> exists s, run (st_init k) vs = Some s /\ Tidy s.
Proof. intros k vs P. destruct (run_ok vs _ (init_ok k) P) as (s & R & I & _). exists s. split; [easy|now apply inv_tidy]. Qed.

(** a connection is there until it is closed, and it is closed exactly once *)
Theorem C53_closed_once : forall s vs s' c, reach s -> polite_run s vs -> run s vs = Some s' -> In c (map c_id (conns s)) ->
  (In c (map c_id (conns s')) /\ ~ In (EClose c) (out s')) \/
  (~ In c (map c_id (conns s')) /\ length (filter (fun e => match e with EClose c' => Nat.eqb c' c | _ => false end) (out s')) = 1%nat).
Proof.
  intros s vs s' c R P E J. apply reach_inv in R. destruct (run_ok vs s R P) as (s2 & E2 & I2 & (N & _ & es & O & S & _)). rewrite E in E2. injection E2 as <-.
  pose proof (inv_tidy _ I2) as Y. apply in_map_iff in J as (x & <- & J). destruct (in_dec Nat.eq_dec (c_id x) (map c_id (conns s'))) as [D|D].
  - left. split; [easy|]. intros Q. now apply (y_close _ Y (c_id x)).
  - right. split; [easy|]. destruct (S x J) as [(y & Y1 & Y2)|Q]; [exfalso; apply D; rewrite <- Y2; now apply in_map|].
    pose proof (proj2 (y_close _ Y (c_id x))) as LE.
    assert (In (EClose (c_id x)) (filter (fun e => match e with EClose c' => Nat.eqb c' (c_id x) | _ => false end) (out s'))) as F.
    { apply filter_In. rewrite Nat.eqb_refl, O, in_app_iff. auto. }
    destruct (filter _ (out s')) as [|a [|b r]]; [easy|easy|cbn in LE; lia].
Qed.

(** closing: when the peer closes, a keepalive times out or the ts fails, the socket is closed, the keepalive
    machine (if any) is terminated and sign_link_down is called for the line, in this order *)
Definition supervised (s : st) (l t : nat) : list eff :=
  match lines s l with Some n => match t_ka (n_ts n t) with Some k => [EKaTerm k] | None => [] end | None => [] end.
Theorem C53_close : forall s e c l t, reach s -> In (mkC c (Some (l, t))) (conns s) ->
  exists s' es, step s (Rx e c None) = Some s' /\ ~ In c (map c_id (conns s')) /\
  out s' = out s ++ [EClose c] ++ supervised s l t ++ [EDown l] ++ es.
Proof.
  intros s e c l t R J. apply reach_inv in R. pose proof R as [G P]. pose proof G as [C T]. cbn [step].
  pose proof (find_in _ _ _ _ _ C J) as F. cbn [c_id] in F. rewrite F. unfold read_cb. rewrite F. cbn [c_at].
  destruct (destroy_ok (execs (e_down e)) _ _ _ s c l t (execs_ok _) G J) as (s' & S' & _ & _ & N & n & L & es & O). rewrite L.
  exists s', es. split; [easy|]. split; [easy|]. rewrite O. unfold supervised. now rewrite L.
Qed.
Theorem C53_timeout : forall s k c d, reach s -> kas s k = Some c ->
  exists l t s' es, In (mkC c (Some (l, t))) (conns s) /\ step s (KaTimeout k d) = Some s' /\ ~ In c (map c_id (conns s')) /\ (forall k', kas s' k' <> Some c) /\
  out s' = out s ++ [EClose c; EKaTerm k; EDown l] ++ es.
Proof.
  intros s k c d R K. apply reach_inv in R. pose proof R as [G P]. pose proof G as [C T].
  destruct (g_ko _ _ _ _ C k c K) as (l & n & t & L & TK). destruct (g_ka _ _ _ _ C l n t k L TK) as (c' & K' & DA). rewrite K in K'. injection K' as <-.
  pose proof (g_da _ _ _ _ C l n t c L DA) as J.
  destruct (destroy_ok (execs d) _ _ _ s c l t (execs_ok _) G J) as (s' & S' & [C' T'] & _ & N & n' & L' & es & O).
  exists l, t, s', es. split; [easy|]. cbn [step]. unfold ka_timeout. rewrite K. split; [easy|]. split; [easy|]. rewrite L in L'. injection L' as <-. rewrite TK in O.
  split; [|exact O]. intros k' K'. destruct (g_ko _ _ _ _ C' k' c K') as (l2 & n2 & t2 & L2 & TK2). destruct (g_ka _ _ _ _ C' l2 n2 t2 k' L2 TK2) as (c2 & K2 & D2).
  rewrite K' in K2. injection K2 as <-. apply N. change c with (c_id (mkC c (Some (l2, t2)))). apply in_map. exact (g_da _ _ _ _ C' l2 n2 t2 c L2 D2).
Qed.

(** ** C54 *)
(** IPA framing: 16-bit length, stream identifier (the link's TEI), the message *)
Definition framed (tei : Z) (m : list Z) : list Z := [Z.of_nat (length m) / 256 mod 256; Z.of_nat (length m) mod 256; tei] ++ m.
(** a message given to a link whose timeslot has a connection is sent on it at once *)
Theorem C54_send : forall s k n c m, reach s -> In k (lks s) -> lines s (l_line k) = Some n -> t_data (n_ts n (l_ts k)) = Some c ->
  In (l_type k) [OML; RSL; OSMO] ->
  exists s', step s (App (USend (l_id k) m)) = Some s' /\ out s' = out s ++ [EQueue (l_id k) m; ESend (l_id k) c (framed (l_tei k) m)] /\
  lks s' = lks s /\ conns s' = conns s.
Proof.
  intros s k n c m R I L D TY. apply reach_inv in R as [G _]. cbn [step exec]. destruct (send_now _ _ _ s k m n c G I L D) as (s' & -> & _ & E2 & E3 & E4).
  exists s'. split; [easy|]. split; [|easy]. rewrite E4. unfold send_msg.
  assert (known_type (l_type k) = true) as ->; [|reflexivity]. unfold known_type. cbn in TY. destruct TY as [<-|[<-|[<-|[]]]]; reflexivity.
Qed.
(** on a timeslot that has none it waits *)
Theorem C54_wait : forall s k n m, reach s -> In k (lks s) -> lines s (l_line k) = Some n -> t_data (n_ts n (l_ts k)) = None ->
  exists s', step s (App (USend (l_id k) m)) = Some s' /\ out s' = out s ++ [EQueue (l_id k) m] /\ conns s' = conns s /\
  lks s' = map (fun x => if Nat.eqb (l_id x) (l_id k) then mkL (l_id x) (l_line x) (l_ts x) (l_type x) (l_tei x) (l_sapi x) (l_tx x ++ [m]) else x) (lks s).
Proof.
  intros s k n m R I L D. apply reach_inv in R as [G _]. cbn [step exec]. rewrite (send_later _ _ _ s k m n G I L D). eexists. split; [reflexivity|]. easy.
Qed.
(** over any history: what a link was given is, in order, what it has sent and what still
    waits, and something waits only while the timeslot has no connection *)
Theorem C54_order : forall s k, reach s -> In k (lks s) -> In (l_type k) [OML; RSL; OSMO] ->
  map (framed (l_tei k)) (flat_map (fun e => match e with EQueue i m => if Nat.eqb i (l_id k) then [m] else [] | _ => [] end) (out s)) =
  flat_map (fun e => match e with ESend i _ b => if Nat.eqb i (l_id k) then [b] else [] | ETxDrop i b => if Nat.eqb i (l_id k) then [b] else [] | _ => [] end) (out s)
  ++ map (framed (l_tei k)) (l_tx k) /\
  (l_tx k <> [] -> exists n, lines s (l_line k) = Some n /\ t_data (n_ts n (l_ts k)) = None).
Proof.
  intros s k R I TY. apply reach_inv in R as [[C T] _].
  assert (W : forall m, wire k m = framed (l_tei k) m).
  { intros m. unfold wire. assert (known_type (l_type k) = true) as ->; [|reflexivity]. unfold known_type. cbn in TY. destruct TY as [<-|[<-|[<-|[]]]]; reflexivity. }
  split.
  - pose proof (g_tx _ _ _ _ C k I) as E. rewrite !(map_ext _ _ W) in E. exact E.
  - intros N. destruct (g_lk _ _ _ _ C k I) as (_ & _ & n & L & _). exists n. split; [easy|].
    destruct (t_data (n_ts n (l_ts k))) as [c|] eqn:D; [|easy]. destruct (T k n c I L D); [contradiction|discriminate].
Qed.
(** links of other types lose what they are given *)
Theorem C54_drop : forall s k n c m, reach s -> In k (lks s) -> lines s (l_line k) = Some n -> t_data (n_ts n (l_ts k)) = Some c ->
  ~ In (l_type k) [OML; RSL; OSMO] ->
  exists s', step s (App (USend (l_id k) m)) = Some s' /\ out s' = out s ++ [EQueue (l_id k) m; ETxDrop (l_id k) m] /\ lks s' = lks s.
Proof.
  intros s k n c m R I L D TY. apply reach_inv in R as [G _]. cbn [step exec]. destruct (send_now _ _ _ s k m n c G I L D) as (s' & -> & _ & E2 & E3 & E4).
  exists s'. split; [easy|]. split; [|easy]. rewrite E4. unfold send_msg.
  assert (known_type (l_type k) = false) as ->; [|reflexivity]. unfold known_type. cbn in TY.
  destruct (Z.eqb_spec (l_type k) OML) as [E|]; [exfalso; auto|]. destruct (Z.eqb_spec (l_type k) RSL) as [E|]; [exfalso; auto|]. destruct (Z.eqb_spec (l_type k) OSMO) as [E|]; [exfalso; auto|]. reflexivity.
Qed.
(** an identified RSL connection moves to its TRX's timeslot of the line the application
    chose: it is supervised there if so configured, what waited there is sent, in order and
    before anything else, and the line it came from is freed if nothing else uses it *)
Theorem C54_attach : forall s e c l t n trx d s1 k, reach s -> In (mkC c (Some (l, t))) (conns s) -> lines s l = Some n -> t_priv (n_ts n t) = RSL ->
  polite s (Rx e c (Some (PROTO_IPACCESS, MSGT_ID_RESP :: d))) -> e_base e = 0 -> e_unit e = Some trx ->
  execs (e_up e) (emit s (EUp l RSL)) = Some s1 -> up_ret s1 e = Some k -> l_line k <> l ->
  exists s' fr ka, step s (Rx e c (Some (PROTO_IPACCESS, MSGT_ID_RESP :: d))) = Some s' /\
  (forall x, In x (conns s') <-> x = mkC c (Some (l_line k, (1 + trx)%nat)) \/ (In x (conns s1) /\ c_id x <> c)) /\
  out s' = out s1 ++ fr ++ ka ++
     flat_map (fun y => if Nat.eqb (l_line y) (l_line k) && Nat.eqb (l_ts y) (1 + trx) then map (send_msg y c) (l_tx y) else []) (lks s1) /\
  (fr = [] \/ fr = [EFreeLine l]) /\ (lines s' l = None <-> fr = [EFreeLine l]) /\
  (if kap s then exists i, ka = [EKaStart i c] /\ kas s' i = Some c else ka = []).
Proof.
  intros s e c l t n trx d s1 k R J L PV PO B0 UN S1 UR NE. apply reach_inv in R. pose proof R as [G P0]. pose proof G as [C T].
  destruct (step_ok s _ R PO) as (s' & ST & I' & _). pose proof ST as ST'. cbn [step] in ST'.
  pose proof (find_in _ _ _ _ _ C J) as F. cbn [c_id] in F. rewrite F in ST'. unfold read_cb in ST'. rewrite F in ST'. cbn [c_at] in ST'. rewrite L in ST'.
  change (PROTO_IPACCESS =? PROTO_IPACCESS) with true in ST'. cbv beta match in ST'. unfold rcvmsg in ST'. rewrite F in ST'. cbn [c_at] in ST'. rewrite L in ST'. cbn [hd] in ST'.
  change (MSGT_ID_RESP =? MSGT_PONG) with false in ST'. cbv beta match in ST'.
  assert ((match t_ka (n_ts n t) with Some k => Some s | None => Some s end) = Some s) as EQ by now destruct (t_ka (n_ts n t)). rewrite EQ in ST'. clear EQ.
  rewrite B0, UN in ST'. change (0 =? 1) with false in ST'. change (negb (0 =? 0)) with false in ST'. change (negb (MSGT_ID_RESP =? MSGT_ID_RESP)) with false in ST'. cbv beta match zeta in ST'.
  rewrite PV in ST'. change (RSL =? OML) with false in ST'. change (RSL =? RSL) with true in ST'. cbv beta match in ST'. rewrite S1, UR in ST'.
  pose proof NE as NE'. apply Nat.eqb_neq in NE'. rewrite NE' in ST'.
  cbn [polite] in PO. specialize (PO l t n J L). change (PROTO_IPACCESS =? PROTO_IPACCESS) with true in PO. cbv beta match in PO.
  destruct (PO eq_refl B0 trx UN) as [_ PO2]. destruct (PO2 PV s1 S1) as [(y & YI & YE) PU]. destruct (PU eq_refl k UR NE) as (TR & KN & PN).
  destruct (execs_ok (e_up e) E0 E1 D0 (emit s (EUp l RSL))) as (s1' & S1' & G1 & F1); [now apply good_emit|]. rewrite S1 in S1'. injection S1' as <-.
  assert (F1' : frame s s1) by (eapply frame_trans; [apply frame_emit|exact F1]). pose proof F1' as (NF & PF & es & OF & SF & RF).
  assert (y = mkC c (Some (l, t))) as -> by (apply (id_inj c_id (conns s) y _ (g_cn _ _ _ _ C)); auto).
  pose proof G1 as [C1 T1].
  assert (IK : In k (lks s1)). { unfold up_ret in UR. destruct (e_ret e); [|discriminate]. now apply (find_id_some l_id) in UR. }
  destruct (g_lk _ _ _ _ C1 k IK) as (_ & _ & nn & LN & _). destruct (PN nn LN) as [DN SN].
  destruct (g_at _ _ _ _ C1 _ l t YI eq_refl) as (_ & n1 & L1 & D1).
  assert (K1 : t_ka (n_ts n1 t) = None).
  { destruct (t_ka (n_ts n1 t)) as [k0|] eqn:K0; [|easy]. destruct (g_ka _ _ _ _ C1 l n1 t k0 L1 K0) as (c' & KC & DC). exfalso. apply (KN k0). cbn [c_id] in D1. congruence. }
  destruct (attach_ok s1 c l t n1 (l_line k) (1 + trx) nn (RSL + Z.of_nat trx) G1) as (s2 & S2 & G2 & N2 & P2 & CC2 & LK2 & LF2 & _ & ka & O2 & KA2); try easy.
  assert (RT : rsl_ts trx = Some (1 + trx)%nat). { unfold rsl_ts. apply Nat.ltb_lt in TR. unfold NUM_E1_TS. now rewrite TR. }
  assert (Some s' = Some s2) as X. { rewrite <- ST', <- S2. unfold line_get. rewrite LN, RT. reflexivity. }
  injection X as ->. eexists s2, _, ka. split; [exact ST|]. split; [|split; [exact O2|split; [|split]]].
  - intros x. rewrite CC2. split.
    + intros X. apply in_rep in X as (z & Z & ->). destruct (Nat.eqb_spec (c_id z) c) as [->|]; auto.
    + intros [->|[Z1 Z2]]; [|now apply in_rep_other]. exact (in_rep_same c_id (fun z => mkC (c_id z) (Some (l_line k, (1 + trx)%nat))) (conns s1) _ YI).
  - destruct (n_bfd n1 + n_lnk n1 + n_tmp n1 =? 1); auto.
  - rewrite LF2. destruct (Z.eqb_spec (n_bfd n1 + n_lnk n1 + n_tmp n1) 1); easy.
  - rewrite PF in KA2. exact KA2.
Qed.

(** a message from the peer goes to the oldest link of the connection's timeslot that has
    the stream identifier as TEI and SAPI 0; if there is none the connection is closed *)
Definition wants (l t : nat) (proto : Z) (k : lk) : Prop := l_line k = l /\ l_ts k = t /\ l_tei k = proto /\ l_sapi k = 0.
Theorem C54_receive : forall s e c l t proto d, reach s -> In (mkC c (Some (l, t))) (conns s) -> proto <> 0xfe ->
  polite s (Rx e c (Some (proto, d))) ->
  exists s' es, step s (Rx e c (Some (proto, d))) = Some s' /\
  ((exists a k b, lks s = a ++ k :: b /\ wants l t proto k /\ (forall x, In x a -> ~ wants l t proto x) /\
      out s' = out s ++ [EDeliver (l_id k) d] ++ es /\ (e_act e = [] -> es = [] /\ conns s' = conns s /\ lks s' = lks s)) \/
   ((forall x, In x (lks s) -> ~ wants l t proto x) /\ ~ In c (map c_id (conns s')) /\ out s' = out s ++ [EClose c] ++ es)).
Proof.
  intros s e c l t proto d R J NP PO. apply reach_inv in R. pose proof R as [G P0]. pose proof G as [C T].
  destruct (step_ok s _ R PO) as (s' & ST & I' & _). exists s'. pose proof ST as ST'. cbn [step] in ST'.
  pose proof (find_in _ _ _ _ _ C J) as F. cbn [c_id] in F. rewrite F in ST'. unfold read_cb in ST'. rewrite F in ST'. cbn [c_at] in ST'.
  destruct (g_at _ _ _ _ C _ l t J eq_refl) as (_ & n & L & _). rewrite L in ST'.
  replace (proto =? PROTO_IPACCESS) with false in ST' by (symmetry; now apply Z.eqb_neq).
  assert (ERR : srv_destroy (execs (e_down e)) s c = Some s' -> exists es, ~ In c (map c_id (conns s')) /\ out s' = out s ++ [EClose c] ++ es).
  { intros E. destruct (destroy_ok (execs (e_down e)) _ _ _ s c l t (execs_ok _) G J) as (s2 & S2 & _ & _ & N & n' & _ & es & O). rewrite E in S2. injection S2 as <-. eauto. }
  assert (W : forall k, Nat.eqb (l_line k) l && Nat.eqb (l_ts k) t && (l_sapi k =? 0) && (l_tei k =? proto) = true <-> wants l t proto k).
  { intros k. unfold wants. rewrite !andb_true_iff, !Nat.eqb_eq, !Z.eqb_eq. tauto. }
  assert (NO : forall A, (forall x, In x (lks s) -> ~ wants l t proto x) -> srv_destroy (execs (e_down e)) s c = Some s' -> exists es, step s (Rx e c (Some (proto, d))) = Some s' /\
     (A \/ (forall x, In x (lks s) -> ~ wants l t proto x) /\ ~ In c (map c_id (conns s')) /\ out s' = out s ++ [EClose c] ++ es)).
  { intros A N E. destruct (ERR E) as (es & N2 & O). exists es. split; [exact ST|]. right. auto. }
  destruct (t_sign (n_ts n t)) eqn:SG; cbn [negb] in ST'.
  2:{ assert (N : forall x, In x (lks s) -> ~ wants l t proto x).
      { intros x X (W1 & W2 & _). destruct (g_lk _ _ _ _ C x X) as (_ & _ & m & LM & SM). rewrite W1, L in LM. injection LM as <-. rewrite W2 in SM. congruence. }
      destruct (ERR ST') as (es & N2 & O). exists es. split; [exact ST|]. right. auto. }
  unfold lookup_link in ST'. destruct (find _ (lks s)) as [k|] eqn:FL.
  - destruct (execs_ok (e_act e) E0 E1 D0 (emit s (EDeliver (l_id k) d))) as (s1 & S1 & G1 & (_ & _ & es & O1 & _)); [now apply good_emit|]. rewrite S1 in ST'.
    assert (s' = s1) as -> by (destruct (e_rc e); [destruct (lines s1 l); [congruence|discriminate]|congruence]).
    exists es. split; [exact ST|]. left.
    assert (exists a b, lks s = a ++ k :: b /\ forall x, In x a -> (Nat.eqb (l_line x) l && Nat.eqb (l_ts x) t && (l_sapi x =? 0) && (l_tei x =? proto)) = false) as (a & b & AB & NA).
    { clear - FL. revert FL. induction (lks s) as [|y r IH]; [discriminate|]. cbn [find].
      destruct (Nat.eqb (l_line y) l && Nat.eqb (l_ts y) t && (l_sapi y =? 0) && (l_tei y =? proto)) eqn:Y.
      - intros E. injection E as ->. exists [], r. easy.
      - intros E. destruct (IH E) as (a & b & -> & N). exists (y :: a), b. split; [easy|]. intros x [<-|X]; auto. }
    exists a, k, b. split; [easy|]. split; [apply W; now apply find_some in FL|]. split; [intros x X; rewrite <- W, NA by easy; easy|].
    split; [rewrite O1; cbn [emit out]; now rewrite <- app_assoc|]. intros EA. rewrite EA in S1. cbn [execs] in S1. injection S1 as <-. cbn [emit out] in O1.
    split; [|easy]. rewrite <- app_nil_r in O1 at 1. now apply app_inv_head in O1.
  - assert (N : forall x, In x (lks s) -> ~ wants l t proto x).
    { intros x X. rewrite <- W. rewrite (find_none _ _ FL x X). easy. }
    destruct (ERR ST') as (es & N2 & O). exists es. split; [exact ST|]. right. auto.
Qed.

(** ** A history the theorems apply to: OML and RSL connect, are identified, exchange
    messages and are closed *)
Definition ex_id (trx : nat) (up : list ucmd) (ret : nat) : env := mkE 0 (Some trx) up (Some ret) [] false [].
Definition ex_act (a : list ucmd) : env := mkE 0 None [] None a false [].
Definition ex_run : list ev :=
  [OmlAccept true []; Rx (ex_id 0 [UCreate 1 0 OML 255 0] 3) 2 (Some (0xfe, [5]));
   RslAccept true []; Rx (ex_id 0 [UConfig 1 1; UCreate 1 1 RSL 0 0; USend 7 [1; 2]] 7) 6 (Some (0xfe, [5]));
   App (USend 3 [9]); Rx (ex_act [USend 7 [8]]) 6 (Some (0, [7]))].
Definition ex_down : ev := Rx (mkE 0 None [] None [] false [UDestroy 3 []; UDestroy 7 []]) 2 None.
Ltac stepc H := cbn [step] in H; vm_compute in H; injection H as <-.
Lemma ex_polite : polite_run (st_init true) (ex_run ++ [ex_down]).
Proof.
  unfold ex_run. cbn [app polite_run]. split; [exact I|]. intros s1 H1. split.
  - vm_compute in H1. injection H1 as <-. cbn [polite]. intros l t n J L. vm_compute in J. destruct J as [J|[]]. injection J as <- <-.
    vm_compute in L. injection L as <-. change (0xfe =? PROTO_IPACCESS) with true. cbv beta match. intros _ _ trx _. split; [|discriminate].
    intros _ s' E. vm_compute in E. injection E as <-. split; [|discriminate]. cbn [conns]. eexists. split; [now left|reflexivity].
  - intros s2 H2. vm_compute in H1. injection H1 as <-. vm_compute in H2. injection H2 as <-. split; [exact I|]. intros s3 H3.
    vm_compute in H3. injection H3 as <-. split.
    + cbn [polite]. intros l t n J L. vm_compute in J. destruct J as [J|[J|[]]]; [|discriminate]. injection J as <- <-.
      vm_compute in L. injection L as <-. change (0xfe =? PROTO_IPACCESS) with true. cbv beta match. intros _ _ trx U. injection U as <-. split; [discriminate|].
      intros _ s' E. vm_compute in E. injection E as <-. split; [cbn [conns]; eexists; split; [now left|reflexivity]|]. intros _ k UR NE. vm_compute in UR. injection UR as <-.
      split; [lia|]. split.
      * intros k'. cbn [kas]. do 5 (destruct k' as [|k']; [vm_compute; discriminate|]). vm_compute; discriminate.
      * intros nn E. vm_compute in E. injection E as <-. vm_compute. easy.
    + intros s4 H4. vm_compute in H4. injection H4 as <-. split; [exact I|]. intros s5 H5. vm_compute in H5. injection H5 as <-. split.
      * cbn [polite]. intros l t n J L. change (0 =? PROTO_IPACCESS) with false. cbv beta match. discriminate.
      * intros s6 H6. vm_compute in H6. injection H6 as <-. split; [exact I|]. easy.
Qed.
Lemma ex_out : option_map out (run (st_init true) (ex_run ++ [ex_down])) = Some
  [EUp 1 OML; EKaStart 4 2; EUp 5 RSL; EQueue 7 [1; 2]; EFreeLine 5; EKaStart 8 6; ESend 7 6 [0; 2; 0; 1; 2];
   EQueue 3 [9]; ESend 3 2 [0; 1; 255; 9]; EDeliver 7 [7]; EQueue 7 [8]; ESend 7 6 [0; 1; 0; 8];
   EClose 2; EKaTerm 4; EDown 1; EClose 6; EKaTerm 8; EDown 1; EFreeLine 1].
Proof. vm_compute. reflexivity. Qed.

(** ** Each rule is needed *)
(** a second connection identified as a TRX that is connected takes over the timeslot; when
    the first one is closed, the second stays open but nothing is sent on it any more *)
Definition r_take : list ev := ex_run ++ [RslAccept true []; Rx (ex_id 0 [] 7) 10 (Some (0xfe, [5])); Rx (ex_act []) 6 None; App (USend 7 [1])].
Theorem C53_refuted_reconnect : exists s k n, run (st_init true) r_take = Some s /\ In (mkC 10 (Some (1, 1)%nat)) (conns s) /\
  In k (lks s) /\ l_line k = 1%nat /\ l_ts k = 1%nat /\ l_tx k = [[1]] /\ lines s 1 = Some n /\ t_data (n_ts n 1) = None /\ n_bfd n = 2.
Proof. eexists _, _, _. split; [vm_compute; reflexivity|]. cbn [conns lks]. split; [now left|]. split; [right; left; reflexivity|]. repeat split. Qed.
(** a TRX that identifies itself again, now for another line, leaves a reference to its
    keepalive machine behind, which is used after it was freed *)
Definition r_again : list ev := ex_run ++ [OmlAccept true []; Rx (ex_id 0 [UCreate 9 0 OML 255 0] 11) 10 (Some (0xfe, [5]));
  Rx (ex_id 0 [UConfig 9 1; UCreate 9 1 RSL 0 0] 13) 6 (Some (0xfe, [5])); Rx (ex_act []) 6 None].
Theorem C53_refuted_identified_twice : run (st_init true) r_again <> None /\ run (st_init true) (r_again ++ [App (UDestroy 7 [])]) = None.
Proof. split; vm_compute; [discriminate|reflexivity]. Qed.
(** an application that drops the old OML link when a BTS identifies itself again on the
    same connection has the connection used after it was freed *)
Theorem C53_refuted_oml_restart : run (st_init true) (ex_run ++ [Rx (ex_id 0 [UDestroy 3 []; UCreate 1 0 OML 255 0] 9) 2 (Some (0xfe, [5]))]) = None.
Proof. vm_compute. reflexivity. Qed.
(** TRX numbers from 31 on have no timeslot: null pointer *)
Theorem C53_refuted_trx_number : forall trx, (31 <= trx)%nat ->
  run (st_init true) (ex_run ++ [RslAccept true []; Rx (ex_id trx [] 7) 10 (Some (0xfe, [5]))]) = None.
Proof.
  intros trx H. assert (rsl_ts trx = None) as R. { unfold rsl_ts. destruct (Nat.ltb_spec (1 + trx) NUM_E1_TS) as [L|]; [unfold NUM_E1_TS in L; lia|easy]. }
  assert (A : forall a b s, run s (a ++ b) = do s <- run s a; run s b). { induction a as [|v a IH]; intros b s; [easy|]. cbn [app run]. destruct (step s v); [apply IH|easy]. }
  change (ex_run ++ [RslAccept true []; Rx (ex_id trx [] 7) 10 (Some (0xfe, [5]))]) with ((ex_run ++ [RslAccept true []]) ++ [Rx (ex_id trx [] 7) 10 (Some (0xfe, [5]))]).
  rewrite A. remember (run (st_init true) (ex_run ++ [RslAccept true []])) as o eqn:O. vm_compute in O. subst o.
  cbn [run step]. match goal with |- (do _s <- ?X; _) = None => enough (X = None) as -> by reflexivity end.
  unfold find_conn. cbn [conns find c_id Nat.eqb]. unfold read_cb, find_conn. cbn [conns find c_id Nat.eqb c_at lines]. 
  change (0xfe =? PROTO_IPACCESS) with true. cbv beta match. unfold rcvmsg, find_conn. cbn [conns find c_id Nat.eqb c_at lines hd ex_id e_base e_unit e_up e_ret execs].
  rewrite R. vm_compute. reflexivity.
Qed.
(** the timeslot of the TRX must have been configured: null list *)
Theorem C53_refuted_not_configured : run (st_init true) [OmlAccept true []; Rx (ex_id 0 [UCreate 1 0 OML 255 0] 3) 2 (Some (0xfe, [5]));
   RslAccept true []; Rx (ex_id 0 [] 3) 6 (Some (0xfe, [5]))] = None.
Proof. vm_compute. reflexivity. Qed.
(** sign_link closes the line and returns an error: the message about it reads the freed line *)
Theorem C53_refuted_sign_link_error : run (st_init true) (ex_run ++ [Rx (mkE 0 None [] None [UDestroy 7 []; UDestroy 3 []] true []) 6 (Some (0, [1]))]) = None.
Proof. vm_compute. reflexivity. Qed.
