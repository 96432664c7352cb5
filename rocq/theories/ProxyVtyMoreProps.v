(** C74: deleting an instance by command; identifiers with a sign; lines that are refused. *)
From Coq Require Import List Arith Lia Bool ZArith Ascii String.
From Verif Require Import Base ProxyModel ProxyProofs ProxyProps ProxyVtyModel ProxyVtySpec ProxyVtyProofs ProxyVtyProps.
From Verif Require VtyModel VtyProofs.
Import ListNotations.
Open Scope string_scope.
Open Scope Z_scope.

(** a name occurs in a route configured *)
Definition routed (s : st) (n : list Z) : Prop := exists p m q, In (n, p, m, q) (rconf s) \/ In (m, p, n, q) (rconf s).
Definition names (s : st) : list (list Z) := map i_name (insts s).

Lemma routed_uses s i : Inv s -> NoDup (names s) -> In i (insts s) -> routed s (i_name i) <-> 0 < uses (view s) (i_id i).
Proof.
  intros V N I. unfold uses. split.
  - intros (p & m & q & H).
    assert (X : exists t, In t (view s) /\ (let '(a, _, b, _) := t in Nat.eqb a (i_id i) || Nat.eqb b (i_id i)) = true).
    { destruct H as [H|H]; apply in_rconf in H; try exact V; destruct H as (a & b & A & B & E1 & E2 & H); eexists; (split; [exact H|]); cbv iota beta.
      - rewrite (name_inj s a i N A I E1), Nat.eqb_refl. reflexivity.
      - rewrite (name_inj s b i N B I E2), Nat.eqb_refl. apply orb_true_r. }
    destruct X as (t & X1 & X2). assert (Y : In t (filter (fun t => let '(a, _, b, _) := t in Nat.eqb a (i_id i) || Nat.eqb b (i_id i)) (view s))) by (apply filter_In; now split).
    match goal with |- 0 < Z.of_nat (List.length ?l) => change (In t l) in Y; destruct l; [destruct Y|] end. cbn [List.length]. lia.
  - match goal with |- 0 < Z.of_nat (List.length ?x) -> _ => destruct x as [|[[[a p] b] q] l] eqn:F end.
    { cbn [List.length]. lia. } intros _.
    assert (Y : In (a, p, b, q) (filter (fun t => let '(a, _, b, _) := t in Nat.eqb a (i_id i) || Nat.eqb b (i_id i)) (view s))) by (rewrite F; now left).
    apply filter_In in Y as (Y & E). destruct (view_insts s V _ _ _ _ Y) as ((x & X1 & X2 & _) & (y & Y1 & Y2 & _)).
    apply orb_true_iff in E as [E|E]; apply Nat.eqb_eq in E.
    + assert (x = i) as -> by (apply (id_inj i_id (insts s)); [apply (I_ni s V)|easy|easy|congruence]).
      exists p, (i_name y), q. left. apply in_rconf; [exact V|]. exists i, y. rewrite X2, Y2. auto 10.
    + assert (y = i) as -> by (apply (id_inj i_id (insts s)); [apply (I_ni s V)|easy|easy|congruence]).
      exists p, (i_name x), q. right. apply in_rconf; [exact V|]. exists x, i. rewrite X2, Y2. auto 10.
Qed.

(** an instance is deleted if no route uses it, and then nothing else changes; one that is used is
    kept; deleting one that is not there is an invalid access *)
Theorem C74_no_instance k P s t n : hist k P s -> NoDup (names s) -> VtyModel.words t = ["no"; "ipa"; "instance"; n] ->
  (~ In (codes n) (names s) -> vstep k s (Typed false t) = None) /\
  (In (codes n) (names s) -> routed s (codes n) -> vstep k s (Typed false t) = Some (s, Said Warn)) /\
  (In (codes n) (names s) -> ~ routed s (codes n) -> exists s' c1 ty ad z c2, vstep k s (Typed false t) = Some (s', Said Ok) /\
     iconf s = (c1 ++ (codes n, ty, ad, z) :: c2)%list /\ iconf s' = (c1 ++ c2)%list /\ rconf s' = rconf s /\ ports s' = ports s).
Proof.
  intros H N W. pose proof (hist_reach _ _ _ H) as R. pose proof (reach_Inv s R) as V.
  cbn [vstep]. rewrite W. change (parse false _) with (Some (CNoInst n)). cbn [exec].
  assert (NM : forall i, In i (insts s) -> name_is (codes n) i = true <-> i_name i = codes n).
  { intros i I. apply name_is_short. apply (hist_stored _ _ _ H i I). }
  assert (FD : In (codes n) (names s) -> exists i, In i (insts s) /\ i_name i = codes n /\ find (name_is (codes n)) (insts s) = Some i).
  { intros IN. apply in_map_iff in IN as (i & E & I). destruct (find (name_is (codes n)) (insts s)) as [j|] eqn:F.
    - apply find_some in F as F2. destruct F2 as (J & F2). apply NM in F2; [|exact J]. exists j. split; [exact J|]. now split.
    - exfalso. apply (find_none _ _ F) in I as X. apply NM in E; [|exact I]. congruence. }
  split; [|split].
  - intros NI. rewrite (C47_refuted_unknown_instance s (codes n)); [reflexivity|]. intros i I.
    destruct (name_is (codes n) i) eqn:E; [|reflexivity]. exfalso. apply NI. apply NM in E; [|exact I]. rewrite <- E. now apply in_map.
  - intros IN RT. destruct (FD IN) as (i & I & E & F). rewrite <- E in RT. apply routed_uses in RT; [|assumption..].
    destruct (C47_instance_del s (codes n) i R F) as (X & _). now rewrite (X RT).
  - intros IN NR. destruct (FD IN) as (i & I & E & F).
    assert (U : uses (view s) (i_id i) = 0).
    { assert (~ 0 < uses (view s) (i_id i)) as U by (intros U; apply NR; rewrite <- E; now apply routed_uses). unfold uses in *. lia. }
    destruct (C47_instance_del s (codes n) i R F) as (_ & X). destruct (X U) as (s' & X1 & X2 & X3 & _ & l1 & l2 & E1 & E2). rewrite X1. cbn [fst snd].
    exists s', (map ic l1), (i_type i), (i_addr i), (i_port i), (map ic l2). split; [reflexivity|].
    unfold iconf. split; [rewrite E1, map_app; cbn [map]; now rewrite E|]. split; [rewrite E2, map_app; reflexivity|]. split; [|unfold ports; now rewrite X3].
    assert (V' : Inv s') by (apply (Inv_inst_del s (codes n) s' Ok V X1)).
    unfold rconf. rewrite X2. apply flat_map_ext_in'. intros [[[a p] b] q] J.
    destruct (view_insts s V _ _ _ _ J) as ((x & A1 & A2 & _) & (y & B1 & B2 & _)).
    assert (J' : In (a, p, b, q) (view s')) by now rewrite X2.
    destruct (view_insts s' V' _ _ _ _ J') as ((x' & A1' & A2' & _) & (y' & B1' & B2' & _)).
    cbn [named].
    assert (K : forall u u', In u (insts s) -> In u' (insts s') -> i_id u = i_id u' -> u = u').
    { intros u u' U1 U2 U3. apply (id_inj i_id (insts s)); [apply (I_ni s V)|exact U1| |exact U3]. rewrite E1. rewrite E2 in U2. apply in_app_iff in U2. apply in_app_iff. cbn [In]. tauto. }
    assert (x' = x) as -> by (symmetry; apply K; congruence). assert (y' = y) as -> by (symmetry; apply K; congruence).
    rewrite <- A2, <- B2. rewrite (find_inst_in s x V A1), (find_inst_in s y V B1), (find_inst_in s' x V' A1'), (find_inst_in s' y V' B1'). reflexivity.
Qed.

(** an identifier with a minus sign is a number far too large, but for zero: no route has it *)
Definition plain (w : string) : Prop := match w with String a _ => a <> "-"%char /\ a <> "+"%char | EmptyString => True end.
Theorem C74_minus w : plain w -> 0 <= strtoul16 w < 2^32 ->
  strtoul16 (String "-" w) = (if strtoul16 w =? 0 then 0 else 2^64 - strtoul16 w) /\ strtoul16 (String "+" w) = strtoul16 w /\
  (0 < strtoul16 w <= 2^32 - 256 -> 256 <= strtoul16 (String "-" w) mod 2^32).
Proof.
  intros P B. assert (S0 : sign w = (false, w)).
  { destruct w as [|a r]; [reflexivity|]. destruct P as (P1 & P2). unfold sign. destruct (Ascii.eqb_spec a "-"); [contradiction|]. destruct (Ascii.eqb_spec a "+"); [contradiction|]. reflexivity. }
  assert (E : strtoul16 (String "-" w) = if strtoul16 w =? 0 then 0 else 2^64 - strtoul16 w).
  { unfold strtoul16 in *. rewrite S0 in *. cbn [sign Ascii.eqb Bool.eqb]. change (2^64 - 1) with 18446744073709551615 in *. change (2^64) with 18446744073709551616 in *. change (2^32) with 4294967296 in *.
    destruct (_ <? digits 16 0 (prefix16 w)) eqn:L; [lia|]. destruct (digits 16 0 (prefix16 w) =? 0) eqn:Z0; Z.div_mod_to_equations; lia. }
  split; [exact E|]. split.
  - unfold strtoul16. rewrite S0. reflexivity.
  - intros C. rewrite E. destruct (strtoul16 w =? 0) eqn:Z0; [lia|]. change (2^64) with 18446744073709551616. change (2^32) with 4294967296 in *. Z.div_mod_to_equations; lia.
Qed.

(** lines that are not indented by one blank, or whose command is refused or unknown, are reported
    and change nothing unless the command did; a text that does not begin with the node's line is
    refused altogether *)
Definition indented (t : string) : Prop := exists a r, t = String " " (String a r) /\ VtyModel.is_space a = false.
Theorem C74_refused k s t r : t <> "" -> ~ indented t -> read_lines k s (t :: r) = option_map (fun x => (fst x, t :: snd x)) (read_lines k s r).
Proof.
  intros NE NI. cbn [read_lines]. assert (E : read_line k s t = Some (s, [t])).
  { unfold read_line. destruct t as [|a t]; [contradiction|]. destruct (Ascii.eqb_spec a " ") as [->|NA]; [|reflexivity]. destruct t as [|b t]; [reflexivity|].
    destruct (VtyModel.is_space b) eqn:Q; [reflexivity|]. exfalso. apply NI. exists b, t. now split. }
  rewrite E. cbn [fst snd]. destruct (read_lines k s r) as [[s' x]|]; reflexivity.
Qed.
Theorem C74_refused_unknown k s a t r : VtyModel.is_space a = false -> parse true (VtyModel.words (String a t)) = None ->
  read_lines k s (String " " (String a t) :: r) = option_map (fun x => (fst x, String " " (String a t) :: snd x)) (read_lines k s r).
Proof.
  intros Q P. cbn [read_lines]. assert (E : read_line k s (String " " (String a t)) = Some (s, [String " " (String a t)])).
  { unfold read_line. cbn [Ascii.eqb Bool.eqb]. rewrite Q. cbn [negb andb]. unfold vstep. rewrite P. reflexivity. }
  rewrite E. cbn [fst snd]. destruct (read_lines k s r) as [[s' x]|]; reflexivity.
Qed.
Theorem C74_refused_text k t h r : VtyModel.lines_of t = h :: r -> h <> "ipa" -> read k t = Some (st0, h :: r).
Proof. intros E N. unfold read. rewrite E. unfold is. destruct (String.eqb_spec h "ipa"); [contradiction|reflexivity]. Qed.

Example C74_no_instance_example : exists s rs, vrun free_kern st0 (two_instances ++ [route11; Typed true "instance c bind 0.0.0.0 tcp port 3009"]) = Some (s, rs) /\
  NoDup (names s) /\ In (codes "c") (names s) /\ In (codes "a") (names s) /\ VtyModel.words "no ipa  instance c" = ["no"; "ipa"; "instance"; "c"] /\
  option_map snd (vstep free_kern s (Typed false "no ipa  instance c")) = Some (Said Ok) /\ option_map snd (vstep free_kern s (Typed false "no ipa instance a")) = Some (Said Warn).
Proof.
  eexists _, _. split; [vm_compute; reflexivity|]. split; [|vm_compute; split; [tauto|]; split; [tauto|]; split; [reflexivity|]; split; reflexivity].
  vm_compute. repeat (constructor; [intros H; cbn [In] in H; intuition discriminate|]). constructor.
Qed.
Example C74_minus_example : plain "0x1f" /\ strtoul16 "0x1f" = 31 /\ strtoul16 "-0x1f" = 2^64 - 31.
Proof. split; [split; discriminate|]. now vm_compute. Qed.
Example C74_refused_example : ~ indented "instance a" /\ ~ indented "  instance a" /\ parse true (VtyModel.words "instance") = None.
Proof. split; [intros (? & ? & E & _); discriminate E|]. split; [|reflexivity]. intros (? & ? & E & Q). injection E as <- <-. discriminate Q. Qed.
