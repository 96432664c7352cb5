(** C80: the end of a LAPD instance. *)
From Coq Require Import List Arith Lia Bool ZArith Permutation.
From Verif Require Import Base LapdModel LapdFreeModel LapdSpec LapdProofs LapdProps.
Import ListNotations.

(** * specification *)
(** the data links ended by releases during a history, and by the end of the instance *)
Definition released (ops : list op) : list nat := flat_map (fun o => match o with CoreDl id DL_REL _ _ => [id] | _ => [] end) ops.
Definition ended (es : list feff) : list nat := flat_map (fun e => match e with LinkExit id => [id] | _ => [] end) es.
Definition freed (es : list feff) : list nat := flat_map (fun e => match e with SapFreed id => [id] | _ => [] end) es.
(** the data link an effect of a step is about *)
Definition about (o : out) : option nat := match o with CoreFrame id _ _ _ => Some id | CoreReq id _ _ => Some id | _ => None end.
Definition used (log : list (list out * ret)) (id : nat) : Prop := exists os r o, In (os, r) log /\ In o os /\ about o = Some id.

(** * proofs *)
Definition ids (l : list tei_ent) : list nat := flat_map (fun e => map sid (sap_list e)) l.
Definition acc (E : list nat) (li : inst) : Prop := Permutation (E ++ ids (tei_list li)) (seq 0 (next_id li)).

Lemma ids_upd t x l : (exists e, In e l /\ tei e = t) -> Permutation (ids (upd_tei t (fun e => mkTei (tei e) (tstate e) (x :: sap_list e)) l)) (sid x :: ids l).
Proof.
  induction l as [|e l IH]; intros (e' & I1 & T); [easy|]. cbn [upd_tei]. destruct (Z.eqb_spec (tei e) t) as [Q|Q].
  - unfold ids. cbn [flat_map sap_list map app]. apply Permutation_refl.
  - destruct I1 as [->|I1]; [easy|]. unfold ids in *. cbn [flat_map]. eapply perm_trans; [apply Permutation_app_head, IH; eauto|]. symmetry. apply Permutation_middle.
Qed.
Lemma ids_state t l : ids (upd_tei t (fun e => mkTei (tei e) TEI_ASSIGNED (sap_list e)) l) = ids l.
Proof. induction l as [|e l IH]; [easy|]. cbn [upd_tei]. destruct (tei e =? t)%Z; unfold ids in *; cbn [flat_map sap_list]; [easy|now rewrite IH]. Qed.
Lemma ids_free id l : ids (map (fun e => mkTei (tei e) (tstate e) (filter (fun x => negb (Nat.eqb (sid x) id)) (sap_list e))) l) = filter (fun i => negb (Nat.eqb i id)) (ids l).
Proof.
  induction l as [|e l IH]; [easy|]. unfold ids in *. cbn [map flat_map sap_list]. rewrite filter_app, IH. f_equal.
  induction (sap_list e) as [|x r IHr]; [easy|]. cbn [map filter]. destruct (negb (Nat.eqb (sid x) id)); cbn [map]; now rewrite IHr.
Qed.
Lemma filter_out id l : NoDup l -> In id l -> Permutation l (id :: filter (fun i => negb (Nat.eqb i id)) l).
Proof.
  induction l as [|a l IH]; intros N I1; [easy|]. inversion N as [|? ? A B]; subst. cbn [filter]. destruct (Nat.eqb_spec a id) as [->|Q]; cbn [negb].
  - assert (X : filter (fun i => negb (Nat.eqb i id)) l = l). { clear - A. induction l as [|b l IH]; [easy|]. cbn [filter]. destruct (Nat.eqb_spec b id) as [->|]; [exfalso; apply A; now left|]. cbn [negb]. f_equal. apply IH. intros Y; apply A; now right. } now rewrite X.
  - destruct I1 as [->|I1]; [easy|]. eapply perm_trans; [apply perm_skip, (IH B I1)|]. apply perm_swap.
Qed.
Lemma in_ids li id : In id (ids (tei_list li)) <-> sap_by_id li id <> None.
Proof.
  unfold ids. rewrite in_flat_map. split.
  - intros (e & A & B). apply in_map_iff in B as (x & C & D). destruct (proj1 (sap_by_id_in li id)) as (e' & x' & Q & _); [eauto|congruence].
  - intros H. destruct (sap_by_id li id) as [[e x]|] eqn:Q; [|congruence]. destruct (proj2 (sap_by_id_in li id)) as (e' & x' & A & B & C); [|exists e'; split; [easy|]; apply in_map_iff; eauto].
    clear H. assert (G : In e (tei_list li) /\ In x (sap_list e) /\ sid x = id); [|destruct G as (G1 & G2 & G3); exists e, x; auto].
    unfold sap_by_id in Q. induction (tei_list li) as [|f l IH]; [discriminate Q|]. cbn [fold_right] in Q. destruct (find _ (sap_list f)) as [y|] eqn:F.
    + injection Q as -> ->. apply find_some in F as (F1 & F2). apply Nat.eqb_eq in F2. split; [now left|auto].
    + destruct (IH Q) as (G1 & G2). split; [now right|exact G2].
Qed.
Lemma nodup_app_r {A} (a b : list A) : NoDup (a ++ b) -> NoDup b.
Proof. induction a as [|x a IH]; [easy|]. cbn. intros N. inversion N. auto. Qed.

Lemma alloc_acc E li t s li' x : acc E li -> (exists e, In e (tei_list li) /\ tei e = t) -> lapd_sap_alloc li t s = Some (li', x) -> acc E li' /\ sid x = next_id li /\ next_id li' = S (next_id li) /\ In (sid x) (ids (tei_list li')).
Proof.
  intros A T H. unfold lapd_sap_alloc in H. destruct (get _ _) as [k|]; [|discriminate H]. injection H as <- <-. unfold acc. cbn [tei_list next_id sid].
  match goal with |- context [upd_tei t ?f _] => set (F := f) end. assert (P := ids_upd t (mkSap (next_id li) s k (pn201 (prof li)) (pn200 (prof li)) (pn200 (prof li)) (pt200_sec (prof li)) (pt200_usec (prof li)) (pt203_sec (prof li)) (pt203_usec (prof li)) s t (network_side li)) (tei_list li) T).
  fold F in P. cbn [sid] in P. split; [|split; [easy|split; [easy|]]].
  - rewrite seq_S, Nat.add_0_l. eapply perm_trans; [apply Permutation_app_head, P|]. eapply perm_trans; [symmetry; apply Permutation_middle|]. eapply perm_trans; [apply perm_skip, A|]. apply Permutation_cons_append.
  - eapply Permutation_in; [symmetry; exact P|now left].
Qed.
Lemma find_in {A} (f : A -> bool) l x : find f l = Some x -> In x l. Proof. intros H. now apply find_some in H. Qed.
Lemma found_in li t e s x : teip_from_tei li t = Some e -> lapd_sap_find e s = Some x -> In (sid x) (ids (tei_list li)).
Proof. intros A B. apply find_in in A, B. unfold ids. apply in_flat_map. exists e. split; [easy|]. now apply in_map. Qed.

(** one step: the links stay accounted for, what it uses exists afterwards *)
Lemma step_acc E li o li' outs rc : acc E li -> step li o = Some (li', outs, rc) ->
  acc (E ++ released [o]) li' /\ forall w id, In w outs -> about w = Some id -> In id (ids (tei_list li')).
Proof.
  intros A H. destruct o as [m|t s|t s|t s m|t|p|id c hr m|id p t s]; cbn [step released flat_map] in *; rewrite ?app_nil_r.
  - unfold lapd_receive in H. destruct (parse_header m) as [[|[c i]]|]; [injection H as <- <- <-; now split|..|discriminate H].
    destruct (msgb_pull m i) as [data|]; [|discriminate H]. destruct (l_tei c =? 127)%Z.
    + unfold lapd_tei_receive in H. destruct (length data <? 5)%nat; [injection H as <- <- <-; split; [easy|]; intros w id [<-|[]]; discriminate|].
      destruct (get data 0) as [d0|], (get data 1) as [d1|], (get data 3) as [mt|], (get data 4) as [d4|]; try discriminate H. cbv zeta in H. destruct (mt =? 1)%Z; [|injection H as <- <- <-; split; [easy|]; intros w id [<-|[]]; discriminate].
      injection H as <- <- <-. split.
      * unfold acc. cbn [tei_list next_id]. rewrite ids_state. destruct (teip_from_tei li (Z.shiftr d4 1)); [exact A|]. cbn [lapd_tei_alloc fst tei_list next_id]. unfold ids. cbn [flat_map sap_list map app]. exact A.
      * intros w id [<-|[<-|[]]]; discriminate.
    + destruct (teip_from_tei li (l_tei c)) as [e|] eqn:T; [|injection H as <- <- <-; split; [easy|]; intros w id [<-|[]]; discriminate].
      destruct (lapd_sap_find e (l_sapi c)) as [x|] eqn:F.
      * destruct (dl_maxf x <? _)%Z; injection H as <- <- <-; (split; [easy|]; intros w id [<-|[]]; try discriminate). cbn [about]. injection 1 as <-. now apply (found_in li (l_tei c) e (l_sapi c) x).
      * destruct (lapd_sap_alloc li (tei e) (l_sapi c)) as [[l1 x]|] eqn:AL; [|discriminate H]. destruct (alloc_acc E li (tei e) (l_sapi c) l1 x A) as (A1 & _ & _ & I1); [exists e; split; [now apply find_in in T|easy]|exact AL|].
        destruct (dl_maxf x <? _)%Z; injection H as <- <- <-; (split; [easy|]; intros w id [<-|[]]; try discriminate). cbn [about]. now injection 1 as <-.
  - unfold lapd_sap_start in H.
    assert (X : exists l0 e, (match teip_from_tei li t with Some e => (li, e) | None => lapd_tei_alloc li t end) = (l0, e) /\ acc E l0 /\ In e (tei_list l0)).
    { destruct (teip_from_tei li t) as [e|] eqn:T; [exists li, e; split; [easy|]; split; [easy|]; now apply find_in in T|]. eexists _, _. split; [reflexivity|]. split; [exact A|now left]. }
    destruct X as (l0 & e & QQ & A0 & IE). rewrite QQ in H. destruct (lapd_sap_find e s) as [x|]; [injection H as <- <- <-; split; [easy|]; intros w id []|].
    destruct (lapd_sap_alloc l0 (tei e) s) as [[l1 x]|] eqn:AL; [|discriminate H]. destruct (alloc_acc E l0 (tei e) s l1 x A0) as (A1 & _ & _ & I1); [now exists e|exact AL|].
    injection H as <- <- <-. split; [easy|]. intros w id [<-|[]]. cbn [about]. now injection 1 as <-.
  - unfold lapd_sap_stop in H. destruct (teip_from_tei li t) as [e|] eqn:T; [|injection H as <- <- <-; split; [easy|]; intros w id []].
    destruct (lapd_sap_find e s) as [x|] eqn:F; injection H as <- <- <-; (split; [easy|]; intros w id W); [destruct W as [<-|[]]|destruct W]. cbn [about]. injection 1 as <-. now apply (found_in li t e s x).
  - unfold lapd_transmit in H. destruct (teip_from_tei li t) as [e|] eqn:T; [|injection H as <- <- <-; split; [easy|]; intros w id [<-|[]]; discriminate].
    destruct (lapd_sap_find e s) as [x|] eqn:F; injection H as <- <- <-; (split; [easy|]; intros w id [<-|[]]; try discriminate). cbn [about]. injection 1 as <-. now apply (found_in li t e s x).
  - injection H as <- <- <-. split; [exact A|]. intros w id [].
  - injection H as <- <- <-. split; [exact A|]. intros w id [].
  - unfold send_ph_data_req in H. destruct (sap_by_id li id); [|discriminate H]. destruct (encode_frame _ c hr m) as [[f|]|]; [..|discriminate H]; injection H as <- <- <-; (split; [easy|]; intros w i [<-|[]]; discriminate).
  - unfold send_dlsap in H. destruct (sap_by_id li id) as [y|] eqn:S; [|discriminate H]. injection H as <- <- <-. split; [|intros w i [<-|[]]; discriminate].
    destruct p; rewrite ?app_nil_r; try exact A. unfold acc, lapd_sap_free. cbn [tei_list next_id]. rewrite ids_free.
    assert (IN : In id (ids (tei_list li))) by (apply in_ids; congruence).
    assert (ND : NoDup (ids (tei_list li))) by (eapply nodup_app_r, Permutation_NoDup; [symmetry; exact A|apply seq_NoDup]).
    rewrite <- app_assoc. cbn [app]. eapply perm_trans; [|exact A]. apply Permutation_app_head. symmetry. now apply filter_out.
Qed.
Lemma run_acc ops : forall E li li' log, acc E li -> run li ops = Some (li', log) -> acc (E ++ released ops) li' /\ forall id, used log id -> In id (released ops ++ ids (tei_list li')).
Proof.
  induction ops as [|o ops IH]; intros E li li' log A H.
  - injection H as <- <-. rewrite app_nil_r. split; [easy|]. intros id (os & r & w & [] & _).
  - cbn [run] in H. destruct (step li o) as [[[l1 outs] rc]|] eqn:S; [|discriminate H]. destruct (run l1 ops) as [[l2 log2]|] eqn:R; [|discriminate H]. cbn [fst snd] in H. injection H as <- <-.
    destruct (step_acc E li o l1 outs rc A S) as (A1 & U1). destruct (IH _ _ _ _ A1 R) as (A2 & U2).
    assert (RL : released (o :: ops) = released [o] ++ released ops) by (unfold released; cbn [flat_map]; now rewrite app_nil_r). rewrite RL. split; [now rewrite app_assoc|].
    intros id (os & r & w & [X|X] & W & AB).
    + injection X as <- <-. specialize (U1 w id W AB).
      rewrite <- app_assoc. apply in_or_app. right.
(* id is among all, and not among those ended before *)
      assert (ALL : In id (seq 0 (next_id l2))).
      { assert (L : (next_id l1 <= next_id l2)%nat).
        { clear - R. revert l1 l2 log2 R. induction ops as [|o ops IH]; intros l1 l2 log2 R; [injection R as <- _; lia|]. cbn [run] in R. destruct (step l1 o) as [[[l3 outs] rc]|] eqn:S; [|discriminate R]. destruct (run l3 ops) as [[l4 log4]|] eqn:R4; [|discriminate R]. cbn [fst snd] in R. injection R as <- <-.
          apply IH in R4. enough ((next_id l1 <= next_id l3)%nat) by lia. clear - S.
          assert (AL : forall a t s b x, lapd_sap_alloc a t s = Some (b, x) -> (next_id a <= next_id b)%nat) by (intros a t s b x Y; unfold lapd_sap_alloc in Y; destruct (get _ _); [|discriminate Y]; injection Y as <- _; cbn [next_id]; lia).
          destruct o as [m|t s|t s|t s m|t|p|i c hr m|i p t s]; cbn [step] in S.
          - unfold lapd_receive in S. destruct (parse_header m) as [[|[c i]]|]; [injection S as <- _ _; lia|..|discriminate S]. destruct (msgb_pull m i) as [data|]; [|discriminate S]. destruct (l_tei c =? 127)%Z.
            + unfold lapd_tei_receive in S. destruct (length data <? 5)%nat; [injection S as <- _ _; lia|]. destruct (get data 0), (get data 1), (get data 3) as [mt|], (get data 4) as [d4|]; try discriminate S. cbv zeta in S. destruct (mt =? 1)%Z; injection S as <- _ _; [|lia]. cbn [next_id]. destruct (teip_from_tei l1 _); [lia|cbn; lia].
            + destruct (teip_from_tei l1 (l_tei c)) as [e|]; [|injection S as <- _ _; lia]. destruct (lapd_sap_find e (l_sapi c)) as [x|]; [destruct (dl_maxf x <? _)%Z; injection S as <- _ _; lia|]. destruct (lapd_sap_alloc l1 _ _) as [[l5 x]|] eqn:Y; [|discriminate S]. apply AL in Y. destruct (dl_maxf x <? _)%Z; injection S as <- _ _; lia.
          - unfold lapd_sap_start in S. destruct (teip_from_tei l1 t) as [e|]; cbn [lapd_tei_alloc] in S.
            + destruct (lapd_sap_find e s); [injection S as <- _ _; lia|]. destruct (lapd_sap_alloc l1 _ _) as [[l5 x]|] eqn:Y; [|discriminate S]. apply AL in Y. injection S as <- _ _. lia.
            + destruct (lapd_sap_find _ s); [injection S as <- _ _; cbn; lia|]. destruct (lapd_sap_alloc _ _ _) as [[l5 x]|] eqn:Y; [|discriminate S]. apply AL in Y. injection S as <- _ _. cbn in Y. lia.
          - unfold lapd_sap_stop in S. destruct (teip_from_tei l1 t) as [e|]; [destruct (lapd_sap_find e s)|]; injection S as <- _ _; lia.
          - unfold lapd_transmit in S. destruct (teip_from_tei l1 t) as [e|]; [destruct (lapd_sap_find e s)|]; injection S as <- _ _; lia.
          - injection S as <- _ _. cbn. lia.
          - injection S as <- _ _. cbn. lia.
          - unfold send_ph_data_req in S. destruct (sap_by_id l1 i); [|discriminate S]. destruct (encode_frame _ c hr m) as [[f|]|]; [..|discriminate S]; injection S as <- _ _; lia.
          - unfold send_dlsap in S. destruct (sap_by_id l1 i); [|discriminate S]. injection S as <- _ _. destruct p; cbn; lia. }
        assert (B : In id (seq 0 (next_id l1))) by (eapply Permutation_in; [exact A1|apply in_or_app; now right]). apply in_seq in B. apply in_seq. lia. }
      assert (M : In id ((E ++ released [o]) ++ released ops ++ ids (tei_list l2))) by (rewrite app_assoc; eapply Permutation_in; [symmetry; exact A2|exact ALL]).
      apply in_app_or in M as [M|M]; [exfalso|exact M]. assert (ND : NoDup ((E ++ released [o]) ++ ids (tei_list l1))) by (eapply Permutation_NoDup; [symmetry; exact A1|apply seq_NoDup]).
      clear - ND M U1. induction (E ++ released [o]) as [|a l IH]; [easy|]. inversion ND as [|? ? N1 N2]; subst. destruct M as [->|M]; [apply N1, in_or_app; now right|now apply IH].
    + rewrite <- app_assoc. apply in_or_app. right. apply U2. exists os, r, w. auto.
Qed.

Lemma ended_free li : ended (lapd_instance_free li) = ids (tei_list li) /\ freed (lapd_instance_free li) = ids (tei_list li).
Proof.
  assert (S : forall l, ended (saps_free l) = map sid l /\ freed (saps_free l) = map sid l).
  { induction l as [|x l [IH1 IH2]]; [now split|]. cbn [saps_free sap_free_effects app map]. unfold ended, freed in *. cbn [flat_map app]. now rewrite IH1, IH2. }
  unfold lapd_instance_free, ended, freed. rewrite !flat_map_app. cbn [flat_map]. rewrite !app_nil_r. induction (tei_list li) as [|e l IH]; [now split|]. cbn [teis_free]. unfold lapd_tei_free. rewrite !flat_map_app. cbn [flat_map]. destruct (S (sap_list e)) as (S1 & S2). unfold ended, freed in S1, S2. rewrite S1, S2, !app_nil_r.
  destruct IH as (-> & ->). now split.
Qed.
Lemma nil_acc n p : acc [] (lapd_instance_alloc2 n p). Proof. unfold acc. cbn. constructor. Qed.

(** * C80 *)
(** the data links are numbered in the order they are made; those the core reported released
    and those the end of the instance ends are together each of them exactly once; what the end
    of the instance ends it also frees *)
Theorem C80_each_link_ends_once : forall network p ops li log, run (lapd_instance_alloc2 network p) ops = Some (li, log) ->
  Permutation (released ops ++ ended (lapd_instance_free li)) (seq 0 (next_id li)) /\ freed (lapd_instance_free li) = ended (lapd_instance_free li).
Proof. intros n p ops li log H. destruct (run_acc ops [] _ _ _ (nil_acc n p) H) as (A & _). destruct (ended_free li) as (-> & ->). split; [exact A|reflexivity]. Qed.
(** every data link that was ever given a request or a frame is ended, once *)
Theorem C80_every_used_link_ends : forall network p ops li log, run (lapd_instance_alloc2 network p) ops = Some (li, log) ->
  NoDup (released ops ++ ended (lapd_instance_free li)) /\ forall id, used log id -> In id (released ops ++ ended (lapd_instance_free li)).
Proof.
  intros n p ops li log H. destruct (run_acc ops [] _ _ _ (nil_acc n p) H) as (A & U). destruct (ended_free li) as (-> & _). split; [|exact U].
  eapply Permutation_NoDup; [symmetry; exact A|apply seq_NoDup].
Qed.
(** once a data link is released the instance never gives it anything any more *)
Theorem C80_no_use_after_release : forall network p ops id t s ops2 li1 log1 li2 log2, run (lapd_instance_alloc2 network p) (ops ++ [CoreDl id DL_REL t s]) = Some (li1, log1) -> run li1 ops2 = Some (li2, log2) ->
  ~ used log2 id /\ ~ In id (released ops2 ++ ended (lapd_instance_free li2)).
Proof.
  intros n p ops id t s ops2 li1 log1 li2 log2 H R. destruct (run_acc _ [] _ _ _ (nil_acc n p) H) as (A & _). cbn [app] in A. destruct (run_acc ops2 _ _ _ _ A R) as (A2 & U). destruct (ended_free li2) as (-> & _).
  assert (N : ~ In id (released ops2 ++ ids (tei_list li2))); [|split; [intros X; now apply N, U|exact N]].
  assert (ND : NoDup (released (ops ++ [CoreDl id DL_REL t s]) ++ released ops2 ++ ids (tei_list li2))) by (rewrite app_assoc; eapply Permutation_NoDup; [symmetry; exact A2|apply seq_NoDup]).
  unfold released at 1 in ND. rewrite flat_map_app in ND. cbn [flat_map app] in ND. rewrite <- app_assoc in ND. apply nodup_app_r in ND. cbn [app] in ND. now inversion ND.
Qed.
(** a TEI is freed after its links, the instance last and once; nothing else happens: no frame
    is sent and no primitive is indicated *)
Theorem C80_order : forall li, exists a, lapd_instance_free li = a ++ [InstFreed] /\ ~ In InstFreed a /\ flat_map (fun e => match e with TeiFreed t => [t] | _ => [] end) a = map tei (tei_list li) /\
  forall e, In e (tei_list li) -> exists b c, a = b ++ TeiFreed (tei e) :: c /\ forall x, In x (sap_list e) -> In (LinkExit (sid x)) b /\ In (SapFreed (sid x)) b.
Proof.
  intros li. exists (teis_free (tei_list li)). split; [reflexivity|].
  assert (S0 : forall l, ~ In InstFreed (saps_free l)) by (induction l as [|x l IH]; [easy|]; cbn [saps_free sap_free_effects app]; intros [X|[X|X]]; [discriminate X..|now apply IH]).
  assert (S1 : forall l, flat_map (fun e => match e with TeiFreed t => [t] | _ => [] end) (saps_free l) = []) by (induction l as [|x l IH]; [easy|]; cbn [saps_free sap_free_effects app flat_map]; exact IH).
  assert (S2 : forall l x, In x l -> In (LinkExit (sid x)) (saps_free l) /\ In (SapFreed (sid x)) (saps_free l)).
  { induction l as [|y l IH]; intros x I1; [easy|]. cbn [saps_free sap_free_effects app]. destruct I1 as [->|I1]; [split; [now left|right; now left]|]. destruct (IH x I1) as (A & B). split; right; right; assumption. }
  induction (tei_list li) as [|e l (I0 & I1 & I2)]; [split; [easy|split; [easy|intros e []]]|]. cbn [teis_free map]. unfold lapd_tei_free. split; [|split].
  - intros X. apply in_app_or in X as [X|X]; [|now apply I0]. apply in_app_or in X as [X|[X|[]]]; [now apply S0 in X|discriminate X].
  - rewrite !flat_map_app, S1, I1. reflexivity.
  - intros e' [<-|I3].
    + exists (saps_free (sap_list e)), (teis_free l). split; [now rewrite <- app_assoc|]. apply S2.
    + destruct (I2 e' I3) as (b & c & -> & X). exists ((saps_free (sap_list e) ++ [TeiFreed (tei e)]) ++ b), c. split; [now rewrite <- !app_assoc|]. intros x Y. destruct (X x Y). split; apply in_or_app; right; assumption.
Qed.

(** three links, one released, one started anew; the end of the instance ends the two that are left *)
Definition ex_ops : list op := [SapStart 1 0; SapStart 1 62; CoreDl 0 DL_REL 1 0; SapStart 1 0; Transmit 1 62 [1%Z]].
Example ex_free : match run (lapd_instance_alloc2 true lapd_profile_abis) ex_ops with
  | Some (li, log) => (map fst log, released ex_ops, lapd_instance_free li) =
     ([[CoreReq 0 DL_EST []]; [CoreReq 1 DL_EST []]; [RxPrim DL_REL 1 0]; [CoreReq 2 DL_EST []]; [CoreReq 1 DL_DATA [1%Z]]], [0%nat], [LinkExit 2; SapFreed 2; LinkExit 1; SapFreed 1; TeiFreed 1; InstFreed])
  | None => False end.
Proof. vm_compute. reflexivity. Qed.
