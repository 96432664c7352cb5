(** Invariants of the serial port driver. *)
From Coq Require Import List Arith Lia Bool ZArith.
From Verif Require Import Base Rs232Model Rs232Spec.
Import ListNotations.
Open Scope Z_scope.

Definition done (es : list eff) : list (list Z) := flat_map (fun e => match e with ERx o _ => [o] | ELeak o => [o] | _ => [] end) es.
Definition l2_ok (o : list Z) (l2 : option (list Z)) : Prop := l2 = if (10 <? length o)%nat then Some (skipn 10 o) else None.
Definition held (b : buf) (miss : Z) (rest : list Z) : Prop :=
  match b with
  | NoBuf => rest = []
  | Buf b => rest = b /\ ((length b < 2)%nat \/ exists h l body, b = h :: l :: body /\ miss = 256 * h + l - Z.of_nat (length body) /\ (body = [] \/ 0 < miss))
  | Freed => True
  end.
Record Inv (s : st) : Prop := {
  i_rx : exists rest, reads (out s) = concat (done (out s)) ++ rest /\ held (rx s) (missing s) rest /\ partial rest;
  i_frames : Forall frame (done (out s));
  i_cb : (if cb s then map fst (received (out s)) = done (out s) else received (out s) = []) /\ Forall (fun p => l2_ok (fst p) (snd p)) (received (out s));
  i_reg : reg s = false -> rx s = NoBuf;
  i_err : rx s = Freed <-> exists f, In (EReadErr f) (out s);
  i_ids : NoDup (map fst (links s));
  i_q : forall i, waiting i [] (out s) = Some (queue i (links s));
  i_wire : ~ In EShort (out s) -> wire (out s) = concat (map build (sent (out s)))
}.

Lemma waiting_app i es : forall q es', waiting i q (es ++ es') = match waiting i q es with Some q => waiting i q es' | None => None end.
Proof. induction es as [|e r IH]; intros q es'; [easy|]. cbn [app waiting]. destruct (passes i q e); [apply IH|easy]. Qed.
Lemma land255 z : Z.land z 255 = z mod 256. Proof. change 255 with (Z.ones 8). now rewrite Z.land_ones by lia. Qed.
Lemma build_packed m : packed m (build m).
Proof.
  exists (Z.of_nat (length m)), (Z.of_nat (length m) mod 256). split; [easy|]. split; [apply Z.mod_pos_bound; lia|]. split; [exists (Z.of_nat (length m) / 256); apply Z.div_mod; lia|].
  intros N. set (n := Z.of_nat (length m)) in *. exists ((n + 8) / 256), ((n + 8) mod 256). unfold build. fold n. rewrite !land255, Z.shiftr_div_pow2 by lia. change (2 ^ 8) with 256. replace (n + 10 - 2) with (n + 8) by lia.
  rewrite (Z.mod_small ((n + 8) / 256)) by (split; [apply Z.div_pos; lia|apply Z.div_lt_upper_bound; lia]). split; [easy|]. split; [split; [apply Z.div_pos; lia|apply Z.div_lt_upper_bound; lia]|]. split; [apply Z.mod_pos_bound; lia|]. symmetry. apply Z.div_mod. lia.
Qed.
Lemma build_frame m : Z.of_nat (length m) + 8 < 65536 -> frame (build m) /\ exists body, skipn 2 (build m) = body /\ length body = (8 + length m)%nat.
Proof.
  intros N. split; [|exists (skipn 2 (build m)); split; [easy|]; unfold build; cbn; lia]. destruct (build_packed m) as (n & a & E & _ & _ & H). subst n. destruct (H N) as (h & l & -> & _ & _ & E). cbn [app]. eexists h, l, _. split; [reflexivity|]. cbn [length]. lia.
Qed.

(** queues *)
Lemma take_spec q : forall i m q', NoDup (map fst q) -> take q = Some (i, m, q') -> map fst q' = map fst q /\ queue i q = m :: queue i q' /\ forall j, j <> i -> queue j q' = queue j q.
Proof.
  induction q as [|[j ms] r IH]; intros i m q' N H; [discriminate|]. cbn [take] in H. cbn [map fst] in N. inversion N as [|? ? NI NR]; subst. destruct ms as [|x xs].
  - destruct (take r) as [[[i' m'] r']|] eqn:T; [|discriminate]. injection H as <- <- <-. destruct (IH i' m' r' NR eq_refl) as (A & B & C). cbn [map fst queue]. rewrite A. split; [easy|].
    assert (X : j <> i'). { intros ->. apply NI. clear -B. revert B. induction r as [|[a b] r IH]; [easy|]. cbn. destruct (Nat.eqb_spec a i'); [auto|]. intros B. right. now apply IH. }
    destruct (Nat.eqb_spec j i'); [easy|]. split; [exact B|]. intros l L. destruct (Nat.eqb_spec j l); [easy|auto].
  - injection H as <- <- <-. cbn [map fst queue]. rewrite Nat.eqb_refl. split; [easy|]. split; [easy|]. intros l L. destruct (Nat.eqb_spec j l); [congruence|easy].
Qed.
Lemma take_none q : take q = None -> forall i, queue i q = [].
Proof. induction q as [|[j [|x xs]] r IH]; intros H i; [easy| |discriminate]. cbn [take] in H. destruct (take r) as [[[? ?] ?]|]; [discriminate|]. cbn. destruct (Nat.eqb_spec j i); [easy|now apply IH]. Qed.
Lemma append_fst i m q : map fst (append i m q) = map fst q.
Proof. induction q as [|[j ms] r IH]; [easy|]. cbn. destruct (Nat.eqb_spec j i); cbn; congruence. Qed.
Lemma append_q i m q : has i q = true -> queue i (append i m q) = queue i q ++ [m].
Proof. induction q as [|[j ms] r IH]; [easy|]. cbn. destruct (Nat.eqb_spec j i) as [E|E]; cbn; [now rewrite (proj2 (Nat.eqb_eq j i) E)|]. rewrite (proj2 (Nat.eqb_neq j i) E). exact IH. Qed.
Lemma append_q' i m q j : j <> i -> queue j (append i m q) = queue j q.
Proof. intros N. induction q as [|[l ms] r IH]; [easy|]. cbn. destruct (Nat.eqb_spec l i); cbn; destruct (Nat.eqb_spec l j); try congruence. Qed.
Lemma queue_app i q j : queue i (q ++ [(j, [])]) = queue i q.
Proof. induction q as [|[l ms] r IH]; cbn; [now destruct (Nat.eqb j i)|]. destruct (Nat.eqb l i); auto. Qed.
Lemma queue_filter i q : queue i (filter (fun a => negb (Nat.eqb (fst a) i)) q) = [].
Proof. induction q as [|[l ms] r IH]; [easy|]. cbn. destruct (Nat.eqb_spec l i); cbn; [exact IH|]. destruct (Nat.eqb_spec l i); [easy|exact IH]. Qed.
Lemma queue_filter' i q j : j <> i -> queue j (filter (fun a => negb (Nat.eqb (fst a) i)) q) = queue j q.
Proof. intros N. induction q as [|[l ms] r IH]; [easy|]. cbn. destruct (Nat.eqb_spec l i); cbn; [destruct (Nat.eqb_spec l j); [congruence|exact IH]|]. destruct (Nat.eqb_spec l j); [easy|exact IH]. Qed.
Lemma has_in i q : has i q = true <-> In i (map fst q).
Proof. unfold has. rewrite existsb_exists, in_map_iff. split; [intros (x & H & E); apply Nat.eqb_eq in E; eauto|]. intros (x & E & H). exists x. split; [easy|]. now apply Nat.eqb_eq. Qed.
Lemma nodup_snoc {A} (l : list A) x : NoDup l -> ~ In x l -> NoDup (l ++ [x]).
Proof. intros N I. induction N as [|y r NI NR IH]; cbn; [constructor; [easy|constructor]|]. constructor; [rewrite in_app_iff; intros [H|[H|[]]]; [easy|]; apply I; now left|]. apply IH. intros H. apply I. now right. Qed.
Lemma nodup_filter (f : nat * list (list Z) -> bool) q : NoDup (map fst q) -> NoDup (map fst (filter f q)).
Proof. induction q as [|a r IH]; [easy|]. cbn. intros N. inversion N; subst. destruct (f a); [|auto]. cbn. constructor; [|auto]. intros H. apply H1. apply in_map_iff in H. destruct H as (x & E & H). apply filter_In in H. rewrite <- E. now apply in_map. Qed.

(** effects that do not concern what is read, delivered, queued or sent *)
Definition idle (e : eff) : bool := match e with EOpen _ | EClose _ | EReg _ | ERet _ | ELink _ => true | _ => false end.
Lemma snoc_facts es e : reads (es ++ [e]) = reads es ++ reads [e] /\ done (es ++ [e]) = done es ++ done [e] /\ received (es ++ [e]) = received es ++ received [e] /\ wire (es ++ [e]) = wire es ++ wire [e] /\ sent (es ++ [e]) = sent es ++ sent [e].
Proof. unfold reads, done, received, wire, sent. rewrite !flat_map_app. repeat split. Qed.
Ltac snoc := match goal with |- context [reads (?a ++ [?b])] => destruct (snoc_facts a b) as (-> & -> & -> & -> & ->) | |- context [done (?a ++ [?b])] => destruct (snoc_facts a b) as (_ & -> & -> & -> & ->) | |- context [received (?a ++ [?b])] => destruct (snoc_facts a b) as (_ & _ & -> & _) | |- context [wire (?a ++ [?b])] => destruct (snoc_facts a b) as (_ & _ & _ & -> & ->) end.
Lemma short_snoc es e : ~ In EShort (es ++ [e]) -> ~ In EShort es. Proof. intros H I. apply H, in_or_app. now left. Qed.
Lemma err_snoc es e : (exists f, In (EReadErr f) (es ++ [e])) <-> (exists f, In (EReadErr f) es) \/ exists f, e = EReadErr f.
Proof. split; [intros (f & H); apply in_app_or in H; destruct H as [H|[H|[]]]; eauto|intros [(f & H)|(f & ->)]; exists f; apply in_or_app; [now left|right; now left]]. Qed.
(** the parts of the invariant that are about reception only depend on this *)
Lemma inv_emit s e ls : Inv s -> (forall f, e <> EReadErr f) -> reads [e] = [] -> done [e] = [] -> received [e] = [] -> NoDup (map fst ls) -> (forall i, passes i (queue i (links s)) e = Some (queue i ls)) -> (~ In EShort (out s ++ [e]) -> wire (out s ++ [e]) = concat (map build (sent (out s ++ [e])))) -> Inv (emit (w_links s ls) e).
Proof.
  intros I NE R D V N Q W. destruct I as [A B C Er F G H J]. constructor; cbn [emit w_links out rx missing cb reg links].
  - destruct A as (rest & A1 & A2). exists rest. destruct (snoc_facts (out s) e) as (-> & -> & _). rewrite R, D, !app_nil_r. easy.
  - destruct (snoc_facts (out s) e) as (_ & -> & _). now rewrite D, app_nil_r.
  - destruct (snoc_facts (out s) e) as (_ & -> & -> & _). now rewrite D, V, !app_nil_r.
  - exact Er.
  - rewrite F, err_snoc. split; [auto|]. intros [X|(f & X)]; [easy|]. now elim (NE f).
  - exact N.
  - intros i. rewrite waiting_app, H. cbn [waiting]. now rewrite Q.
  - exact W.
Qed.
(** changes of what is not looked at *)
Lemma inv_ext s s' : Inv s -> rx s' = rx s -> missing s' = missing s -> out s' = out s -> links s' = links s -> cb s' = cb s -> (reg s' = false -> reg s = false) -> Inv s'.
Proof. intros [A B C Er F G H J] E1 E2 E3 E4 E5 E6. constructor; rewrite ?E1, ?E2, ?E3, ?E4, ?E5; auto. Qed.
Lemma links_same s : Inv s -> forall ls, ls = links s -> Inv (w_links s ls).
Proof. intros I ls ->. eapply inv_ext; eauto. Qed.
Lemma emit_idle s e : Inv s -> idle e = true -> Inv (emit s e).
Proof.
  intros I E. change (emit s e) with (emit (mkS (cb s) (fd s) (reg s) (wr s) (rx s) (missing s) (links s) (tick s) (out s)) e). change (emit (mkS (cb s) (fd s) (reg s) (wr s) (rx s) (missing s) (links s) (tick s) (out s)) e) with (emit (w_links s (links s)) e).
  apply inv_emit; auto; try (destruct e; easy). - apply I. - intros W. destruct (snoc_facts (out s) e) as (_ & _ & _ & -> & ->). rewrite (i_wire s I (short_snoc _ _ W)). destruct e; try easy; cbn; now rewrite !app_nil_r.
Qed.
Lemma setup_inv k s p : Inv s -> setup k s = Ok p -> Inv (fst p) /\ cb (fst p) = cb s.
Proof.
  intros I H. unfold setup in H. destruct (k_open k (tick s)); cbn [negb] in H; [|injection H as <-; split; [eapply inv_ext; eauto|easy]].
  set (s1 := next (emit (w_fd s (Some (tick s)) (reg s)) (EOpen (tick s)))) in *.
  assert (I1 : Inv s1) by (unfold s1; eapply inv_ext; [apply (emit_idle (w_fd s (Some (tick s)) (reg s)) (EOpen (tick s))); [eapply inv_ext; eauto|easy]|..]; easy).
  destruct (k_get k (tick s1)); cbn [negb] in H; [|injection H as <-; split; [eapply inv_ext; eauto|easy]].
  destruct (k_set k (tick (next s1))); cbn [negb] in H; [|injection H as <-; split; [eapply inv_ext; eauto|easy]].
  cbn [reg w_wr w_rx next] in H. destruct (reg s1) eqn:RG; [discriminate|].
  assert (I2 : Inv (w_wr (w_rx (next (next s1)) NoBuf 0) false)).
  { pose proof (i_reg s1 I1 RG) as NB. destruct I1 as [A B C Er F G Hq J]. rewrite NB in A, F. constructor; cbn [w_wr w_rx next out rx missing cb reg links]; auto. }
  assert (CB : cb (w_wr (w_rx (next (next s1)) NoBuf 0) false) = cb s) by easy. set (s2 := w_wr (w_rx (next (next s1)) NoBuf 0) false) in *. clearbody s2. destruct (k_reg k (tick s2)); cbn [negb] in H; injection H as <-; cbn [fst].
  - split; [|exact CB]. apply emit_idle; [|easy]. eapply inv_ext; [exact I2|..]; easy.
  - split; [|exact CB]. apply emit_idle; [|easy]. eapply inv_ext; [exact I2|..]; easy.
Qed.
Lemma exec_inv k s c s' : Inv s -> exec k s c = Ok s' -> Inv s' /\ cb s' = cb s.
Proof.
  intros I H. destruct c as [|i|i|i m]; cbn [exec] in H.
  - destruct (setup k s) as [p|r] eqn:P; [|discriminate]. injection H as <-. destruct (setup_inv k s p I P) as [A B]. split; [now apply emit_idle|exact B].
  - injection H as <-. destruct (has i (links s)) eqn:E; [easy|]. split; [|easy]. apply inv_emit; try easy.
    + rewrite map_app. apply nodup_snoc; [apply I|]. intros X. cbn [fst] in X. apply has_in in X. congruence.
    + intros j. cbn [passes]. now rewrite queue_app.
    + intros W. destruct (snoc_facts (out s) (ELink i)) as (_ & _ & _ & -> & ->). rewrite (i_wire s I (short_snoc _ _ W)). cbn. now rewrite !app_nil_r.
  - injection H as <-. destruct (has i (links s)) eqn:E; [|easy]. split; [|easy]. apply inv_emit; try easy.
    + apply nodup_filter, I.
    + intros j. cbn [passes]. destruct (Nat.eqb_spec i j) as [<-|N]; [now rewrite queue_filter|rewrite queue_filter'; auto].
    + intros W. destruct (snoc_facts (out s) (EUnlink i)) as (_ & _ & _ & -> & ->). rewrite (i_wire s I (short_snoc _ _ W)). cbn. now rewrite !app_nil_r.
  - injection H as <-. destruct (has i (links s)) eqn:E; [|easy]. split; [|easy].
    assert (X : Inv (emit (w_links s (append i m (links s))) (EAcc i m))).
    { apply inv_emit; try easy.
      + rewrite append_fst. apply I.
      + intros j. cbn [passes]. destruct (Nat.eqb_spec i j) as [<-|N]; [now rewrite append_q|rewrite append_q'; auto].
      + intros W. destruct (snoc_facts (out s) (EAcc i m)) as (_ & _ & _ & -> & ->). rewrite (i_wire s I (short_snoc _ _ W)). cbn. now rewrite !app_nil_r. }
    eapply inv_ext; [exact X|..]; easy.
Qed.
Lemma execs_inv k cs : forall s s', Inv s -> execs k cs s = Ok s' -> Inv s' /\ cb s' = cb s.
Proof.
  induction cs as [|c r IH]; intros s s' I H; cbn [execs] in H; [injection H as <-; easy|]. destruct (exec k s c) as [s1|] eqn:E; [|discriminate]. destruct (exec_inv _ _ _ _ I E) as [A B]. destruct (IH s1 s' A H) as [C D]. split; [easy|congruence].
Qed.
Lemma write_inv k f s : Inv s -> Inv (ser_write k f s) /\ cb (ser_write k f s) = cb s.
Proof.
  intros I. unfold ser_write. cbn [w_wr links]. destruct (take (links s)) as [[[i m] q]|] eqn:T; [|split; [eapply inv_ext; eauto|easy]]. split; [|destruct (_ <? _)%nat; easy].
  destruct (take_spec _ _ _ _ (i_ids s I) T) as (T1 & T2 & T3).
  set (n := k_write k _). set (o := build m). 
  destruct I as [A B C Er F G H J].
  assert (LO : forall e es, e = EWire f (firstn n o) :: es -> es = [] \/ es = [EShort] -> (es = [] -> (length o <= n)%nat) -> forall s', out s' = out s ++ ETake i m :: e -> rx s' = rx s -> missing s' = missing s -> cb s' = cb s -> reg s' = reg s -> links s' = q -> Inv s').
  { intros e es -> ES FU s' E1 E2 E3 E4 E5 E6. assert (NE : reads (ETake i m :: EWire f (firstn n o) :: es) = [] /\ done (ETake i m :: EWire f (firstn n o) :: es) = [] /\ received (ETake i m :: EWire f (firstn n o) :: es) = [] /\ sent (ETake i m :: EWire f (firstn n o) :: es) = [m] /\ wire (ETake i m :: EWire f (firstn n o) :: es) = firstn n o) by (destruct ES as [-> | ->]; cbn; now rewrite ?app_nil_r).
    destruct NE as (N1 & N2 & N3 & N4 & N5).
    assert (AP : reads (out s') = reads (out s) /\ done (out s') = done (out s) /\ received (out s') = received (out s)). { rewrite E1. unfold reads, done, received in *. rewrite !flat_map_app, N1, N2, N3, !app_nil_r. easy. }
    destruct AP as (P1 & P2 & P3). constructor; rewrite ?P1, ?P2, ?P3, ?E2, ?E3, ?E4, ?E5, ?E6; auto.
    - rewrite F, E1. split; intros (g & X); exists g; [apply in_or_app; now left|]. apply in_app_or in X. destruct X as [X|[X|[X|X]]]; try easy. destruct ES as [-> | ->]; [easy|]. destruct X as [X|[]]; easy.
    - now rewrite T1.
    - intros j. rewrite E1, waiting_app, H. cbn [waiting passes]. assert (Z : waiting j (queue j q) es = Some (queue j q)) by (destruct ES as [-> | ->]; easy). destruct (Nat.eqb_spec i j) as [<-|NJ]; [|rewrite <- T3; auto]. rewrite T2. destruct (list_eq_dec Z.eq_dec m m); [exact Z|easy].
    - rewrite E1. intros W. assert (E : es = []) by (destruct ES as [-> | ->]; [easy|]; elim W; apply in_or_app; right; right; right; now left). unfold wire, sent in *. rewrite !flat_map_app, N4, N5, J, map_app, concat_app, firstn_all2 by (try apply FU; auto; intros X; apply W, in_or_app; now left). cbn. now rewrite app_nil_r. }
  destruct (Nat.ltb_spec n (length o)) as [L|L].
  - eapply (LO [EWire f (firstn n o); EShort] [EShort]); try reflexivity; auto; [easy|]. cbn [emit next w_links w_wr out]. now rewrite <- !app_assoc.
  - eapply (LO [EWire f (firstn n o)] []); try reflexivity; auto. cbn [emit next w_links w_wr out]. now rewrite <- !app_assoc.
Qed.
Lemma okinj {A} (a b : A) : Ok a = Ok b -> b = a. Proof. now intros [= ->]. Qed.
Lemma read_inv k f s r act p : Inv s -> reg s = true -> ser_read k f s r act = Ok p -> Inv (fst p) /\ cb (fst p) = cb s.
Proof.
  intros I RG H. unfold ser_read in H. destruct (i_rx s I) as (rest & A1 & A2 & A3).
  assert (HB : exists b, rest = b /\ (rx s = Buf b \/ rx s = NoBuf /\ b = []) /\ ((length b < 2)%nat \/ exists h l body, b = h :: l :: body /\ missing s = 256 * h + l - Z.of_nat (length body) /\ (body = [] \/ 0 < missing s)) /\
     match r with
     | RdErr => Ok (emit (w_rx s Freed (missing s)) (EReadErr f), true)
     | Rd avail =>
       if (length b <? 2)%nat then
        let o := firstn (2 - length b) avail in
        try b <- fill b o;
        let s := emit s (ERead f o) in
        Ok (w_rx s (Buf b) (if (2 <=? length b)%nat then Z.shiftl (nth 0 b 0) 8 + nth 1 b 0 else missing s), false)
      else
        let o := firstn (Z.to_nat (missing s)) avail in
        try b <- fill b o;
        let s := emit s (ERead f o) in
        let miss := missing s - Z.of_nat (length o) in
        if miss =? 0 then
          let s := w_rx s NoBuf 0 in
          if negb (cb s) then Ok (emit s (ELeak b), true)
          else try s <- execs k act (emit s (ERx b (if (10 <? length b)%nat then Some (skipn 10 b) else None))); Ok (s, false)
        else Ok (w_rx s (Buf b) miss, false) end = Ok p).
  { destruct (rx s) as [|b|]; [exists []|exists b|discriminate]; cbn [held] in A2; [split; [easy|]; split; [now right|]; split; [left; cbn; lia|exact H]|]. destruct A2 as [A2 A4]. split; [easy|]. split; [now left|]. split; [exact A4|exact H]. }
  destruct HB as (b & -> & RX & SH & H'). clear H A2. assert (NF : rx s <> Freed) by (destruct RX as [X|[X _]]; congruence).
  assert (NE : forall f', ~ In (EReadErr f') (out s)) by (intros f' X; apply NF, (i_err s I); eauto).
  destruct r as [|avail].
  { apply okinj in H'; subst p. cbn [fst]. split; [|easy]. destruct I as [_ B C Er F G Hq J]. constructor; cbn [emit w_rx out rx missing cb reg links].
    - exists b. destruct (snoc_facts (out s) (EReadErr f)) as (-> & -> & _). cbn [reads done flat_map]. rewrite !app_nil_r. easy.
    - destruct (snoc_facts (out s) (EReadErr f)) as (_ & -> & _). cbn [done flat_map]. now rewrite app_nil_r.
    - destruct (snoc_facts (out s) (EReadErr f)) as (_ & -> & -> & _). cbn [done received flat_map]. now rewrite !app_nil_r.
    - congruence.
    - split; [intros _; exists f; apply in_or_app; right; now left|easy].
    - exact G.
    - intros i. rewrite waiting_app, Hq. reflexivity.
    - intros W. destruct (snoc_facts (out s) (EReadErr f)) as (_ & _ & _ & -> & ->). rewrite (J (short_snoc _ _ W)). cbn. now rewrite !app_nil_r. }
  (* what a read without completion leaves *)
  assert (RD : forall o b' m', b' = b ++ o -> ((length b' < 2)%nat \/ exists h l body, b' = h :: l :: body /\ m' = 256 * h + l - Z.of_nat (length body) /\ (body = [] \/ 0 < m')) -> Inv (w_rx (emit s (ERead f o)) (Buf b') m')).
  { intros o b' m' -> SH'. destruct I as [_ B C Er F G Hq J]. constructor; cbn [emit w_rx out rx missing cb reg links].
    - exists (b ++ o). destruct (snoc_facts (out s) (ERead f o)) as (-> & -> & _). cbn [reads done flat_map]. rewrite !app_nil_r, A1, <- app_assoc. split; [easy|]. split; [now cbn|]. destruct SH' as [L|(h & l & body & E & M & X)]; [now left|]. right. exists h, l, body. split; [easy|]. destruct X as [X|X]; [now left|]. right. lia.
    - destruct (snoc_facts (out s) (ERead f o)) as (_ & -> & _). cbn [done flat_map]. now rewrite app_nil_r.
    - destruct (snoc_facts (out s) (ERead f o)) as (_ & -> & -> & _). cbn [done received flat_map]. now rewrite !app_nil_r.
    - congruence.
    - split; [discriminate|]. intros (g & X). apply in_app_or in X. destruct X as [X|[X|[]]]; [|discriminate]. now elim (NE g).
    - exact G.
    - intros i. rewrite waiting_app, Hq. reflexivity.
    - intros W. destruct (snoc_facts (out s) (ERead f o)) as (_ & _ & _ & -> & ->). rewrite (J (short_snoc _ _ W)). cbn. now rewrite !app_nil_r. }
  destruct (Nat.ltb_spec (length b) 2) as [LB|LB].
  - unfold fill in H'. set (o := firstn (2 - length b) avail) in *. destruct (300 <? length (b ++ o))%nat; [discriminate|]. apply okinj in H'; subst p. cbn [fst]. split; [|easy]. apply RD; [easy|]. destruct (Nat.leb_spec 2 (length (b ++ o))) as [L2|L2]; [|now left]. right.
    assert (E : length (b ++ o) = 2%nat). { rewrite app_length in *. unfold o in *. pose proof (firstn_le_length (2 - length b) avail). lia. }
    destruct (b ++ o) as [|h [|l [|? ?]]]; try discriminate. exists h, l, []. cbn [nth length]. split; [easy|]. split; [|now left]. rewrite Z.shiftl_mul_pow2 by lia. change (2 ^ 8) with 256. lia.
  - destruct SH as [SH|(h & l & body & -> & M & X)]; [lia|]. unfold fill in H'. set (o := firstn (Z.to_nat (missing s)) avail) in *. destruct (300 <? length ((h :: l :: body) ++ o))%nat; [discriminate|]. cbn [emit missing] in H'. destruct (Z.eqb_spec (missing s - Z.of_nat (length o)) 0) as [Z0|Z0].
    + (* complete *)
      set (d := (h :: l :: body) ++ o) in *. assert (FD : frame d). { exists h, l, (body ++ o). split; [easy|]. rewrite app_length. lia. }
      assert (DI : forall e, (exists l2, e = ERx d l2 /\ l2_ok d l2 /\ cb s = true) \/ (e = ELeak d /\ cb s = false) -> Inv (emit (w_rx (emit s (ERead f o)) NoBuf 0) e)).
      { intros e HE. assert (N : reads [ERead f o; e] = o /\ done [ERead f o; e] = [d] /\ wire [ERead f o; e] = [] /\ sent [ERead f o; e] = [] /\ (forall j q, passes j q e = Some q) /\ e <> EShort /\ forall g, e <> EReadErr g). { destruct HE as [(l2 & -> & _)|(-> & _)]; cbn; rewrite ?app_nil_r; repeat split; easy. }
        destruct N as (N1 & N2 & N3 & N4 & N5 & N6 & N7). assert (OUT : out (emit (w_rx (emit s (ERead f o)) NoBuf 0) e) = out s ++ [ERead f o; e]) by (cbn; now rewrite <- app_assoc).
        assert (P : reads (out s ++ [ERead f o; e]) = reads (out s) ++ o /\ done (out s ++ [ERead f o; e]) = done (out s) ++ [d]) by (unfold reads, done in *; rewrite !flat_map_app, N1, N2; easy). destruct P as [P1 P2].
        destruct I as [_ B C Er F G Hq J]. constructor; rewrite ?OUT; cbn [emit w_rx rx missing cb reg links].
        - exists []. rewrite P1, P2, A1, concat_app. cbn [concat]. rewrite !app_nil_r, <- app_assoc. split; [easy|]. split; [easy|]. left. cbn. lia.
        - rewrite P2. apply Forall_app. split; [easy|]. now constructor.
        - rewrite P2. unfold received in *. rewrite flat_map_app. destruct HE as [(l2 & -> & O & CBs)|(-> & CBs)]; rewrite CBs in *; cbn [flat_map app]; (split; [|]).
          + rewrite map_app. cbn [map fst]. now rewrite (proj1 C).
          + apply Forall_app. split; [apply C|]. now constructor.
          + rewrite app_nil_r. apply C.
          + rewrite app_nil_r. apply C.
        - congruence.
        - split; [discriminate|]. intros (g & Y). apply in_app_or in Y. destruct Y as [Y|[Y|[Y|[]]]]; [|discriminate|]; [now elim (NE g)|now elim (N7 g)].
        - exact G.
        - intros i. rewrite waiting_app, Hq. cbn [waiting passes]. now rewrite N5.
        - intros W. unfold wire, sent in *. rewrite !flat_map_app, N3, N4, !app_nil_r. apply J. intros Y. apply W, in_or_app. now left. }
      cbn [w_rx cb] in H'. destruct (cb s) eqn:CB; cbn [emit cb negb] in H'; rewrite CB in H'; cbn [negb] in H'.
      * match type of H' with context [execs k act ?x] => destruct (execs k act x) as [s1|] eqn:EX; [|discriminate] end. apply okinj in H'; subst p. cbn [fst]. apply execs_inv in EX; [destruct EX as [I1 C1]; split; [exact I1|]; rewrite C1; exact CB|]. apply DI. left. eexists. split; [reflexivity|]. split; [reflexivity|easy].
      * apply okinj in H'; subst p. cbn [fst]. split; [|exact CB]. apply DI. now right.
    + apply okinj in H'; subst p. cbn [fst]. split; [|easy]. apply RD; [easy|]. right. exists h, l, (body ++ o). split; [easy|]. rewrite app_length. split; [lia|].
      assert (LO : (length o <= Z.to_nat (missing s))%nat) by (unfold o; apply firstn_le_length). destruct X as [->|X]; [|right; lia]. destruct o; [now left|right]. cbn [length] in *. lia.
Qed.
Lemma step_inv k s v s' : Inv s -> step k s v = Ok s' -> Inv s' /\ cb s' = cb s.
Proof.
  intros I H. destruct v as [cs|r w act]; cbn [step] in H; [now apply (execs_inv k cs s s')|]. destruct (fd s) as [f|]; [|injection H as <-; easy]. destruct (reg s) eqn:RG; [|injection H as <-; easy].
  unfold fd_cb in H. set (rr := match r with Some r => ser_read k f s r act | None => Ok (s, false) end) in *. assert (X : forall p, rr = Ok p -> Inv (fst p) /\ cb (fst p) = cb s). { intros p P. unfold rr in P. destruct r as [r|]; [now apply (read_inv k f s r act)|]. injection P as <-. easy. }
  destruct rr as [[s1 bad]|]; [|discriminate]. destruct (X _ eq_refl) as [I1 C1]. cbn [fst] in *. destruct (negb bad && (w && wr s)); injection H as <-; [|easy]. match goal with |- context [ser_write k ?g s1] => destruct (write_inv k g s1 I1) as [A B] end. split; [easy|congruence].
Qed.
Lemma run_inv k vs : forall s s', Inv s -> run k s vs = Ok s' -> Inv s' /\ cb s' = cb s.
Proof. induction vs as [|v r IH]; intros s s' I H; cbn [run] in H; [injection H as <-; easy|]. destruct (step k s v) as [s1|] eqn:E; [|discriminate]. destruct (step_inv _ _ _ _ I E) as [A B]. destruct (IH s1 s' A H). split; [easy|congruence]. Qed.
Lemma init_inv c : Inv (st_init c).
Proof.
  constructor; cbn; try easy.
  - exists []. split; [easy|]. split; [easy|]. left. cbn. lia.
  - destruct c; easy.
  - split; [discriminate|intros (f & [])].
  - constructor.
Qed.
Lemma reach_inv k c vs s : run k (st_init c) vs = Ok s -> Inv s /\ cb s = c.
Proof. intros R. exact (run_inv k vs _ _ (init_inv c) R). Qed.
