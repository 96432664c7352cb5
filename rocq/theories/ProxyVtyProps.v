(** C74: the configuration of the IPA proxy as text. *)
From Coq Require Import List Arith Lia Bool ZArith Ascii String.
From Verif Require Import Base ProxyModel ProxyProofs ProxyProps ProxyVtyModel ProxyVtySpec ProxyVtyProofs.
From Verif Require VtyModel VtyProofs.
Import ListNotations.
Open Scope string_scope.
Open Scope Z_scope.

(** ** Writing *)
Definition rw (t : list Z * Z * list Z * Z) : list string :=
  let '(n1, p, n2, q) := t in ["route"; "instance"; str n1; "streamid"; hex2 p; "instance"; str n2; "streamid"; hex2 q].
Lemma find_inst_in s i : Inv s -> In i (insts s) -> find_inst s (i_id i) = Some i.
Proof. intros V I. unfold find_inst. apply find_id; [apply (I_ni s V)|easy]. Qed.
Lemma all_routes_named s rs : Inv s -> (forall r, In r rs -> In r (routes s)) -> all_routes s rs = Some (map rw (flat_map (named s) (flat_map (rt_of (shareds s)) rs))).
Proof.
  intros V. induction rs as [|r rs IH]; intros SUB; [easy|]. cbn [all_routes flat_map]. rewrite IH by (intros x X; apply SUB; now right). clear IH.
  destruct (I_r s V r (SUB r (or_introl eq_refl))) as (_ & _ & sh & S1 & S2). destruct (I_s s V sh S1) as (_ & _ & (a & A1 & A2 & _) & (b & B1 & B2 & _)).
  unfold route_words, find_shared. rewrite <- S2, (find_id s_id _ sh (I_ns s V) S1), <- A2, <- B2, (find_inst_in s a V A1), (find_inst_in s b V B1).
  rewrite flat_map_app, map_app. f_equal. unfold rt_of. rewrite <- S2, (shared_pair_in _ sh (I_ns s V) S1). cbn [flat_map app named]. rewrite <- A2, <- B2, (find_inst_in s a V A1), (find_inst_in s b V B1). reflexivity.
Qed.
Definition config_lines (s : st) : list (list string) := (map inst_words (insts s) ++ map rw (rconf s))%list.
Definition heading (s : st) : string := match insts s with [] => EmptyString | _ => "ipa" ++ String VtyModel.nl EmptyString end.
Lemma write_lines s : Inv s -> write s = Some (heading s ++ VtyModel.text (config_lines s)).
Proof. intros V. unfold write. rewrite all_routes_named by easy. reflexivity. Qed.
Lemma in_rconf s n1 p n2 q : Inv s -> In (n1, p, n2, q) (rconf s) <-> exists a b, In a (insts s) /\ In b (insts s) /\ i_name a = n1 /\ i_name b = n2 /\ In (i_id a, p, i_id b, q) (view s).
Proof.
  intros V. unfold rconf. rewrite in_flat_map. split.
  - intros ([[[a p'] b] q'] & I & J). destruct (view_insts s V _ _ _ _ I) as ((x & X1 & X2 & _) & (y & Y1 & Y2 & _)). cbn [named] in J. rewrite <- X2, <- Y2, (find_inst_in s x V X1), (find_inst_in s y V Y1) in J.
    destruct J as [J|[]]. injection J as <- <- <- <-. exists x, y. rewrite X2, Y2. auto 10.
  - intros (a & b & A & B & <- & <- & I). exists (i_id a, p, i_id b, q). split; [easy|]. cbn [named]. rewrite (find_inst_in s a V A), (find_inst_in s b V B). now left.
Qed.
Lemma rconf_types s n1 p n2 q : Inv s -> In (n1, p, n2, q) (rconf s) -> exists a b, In a (insts s) /\ In b (insts s) /\ i_name a = n1 /\ i_name b = n2 /\ i_type a = T_BIND /\ i_type b = T_CONNECT /\ 0 <= p < 256 /\ 0 <= q < 256 /\ In (i_id a, p, i_id b, q) (view s).
Proof.
  intros V I. apply in_rconf in I; [|easy]. destruct I as (a & b & A & B & N1 & N2 & I). destruct (view_bounds s V _ _ _ _ I) as [P Q]. destruct (view_insts s V _ _ _ _ I) as ((x & X1 & X2 & X3) & (y & Y1 & Y2 & Y3)).
  assert (x = a) by (apply (id_inj i_id (insts s)); [apply (I_ni s V)|easy|easy|easy]). assert (y = b) by (apply (id_inj i_id (insts s)); [apply (I_ni s V)|easy|easy|easy]). subst x y. exists a, b. auto 12.
Qed.
Lemma kw w : (match w with EmptyString => false | _ => VtyProofs.nospace w end) = true -> VtyProofs.word w.
Proof. destruct w; [easy|]. intros H. split; easy. Qed.
Lemma proper_inst i : stored i -> VtyProofs.proper (inst_words i).
Proof.
  intros [T1 T2 T3 T4 T5 T6]. split; [easy|]. unfold inst_words. repeat constructor; try (apply kw; reflexivity); try assumption; try apply T1; try apply T4; try (apply VtyProofs.num_word; lia); destruct (i_type i); try easy; try reflexivity.
Qed.
Lemma proper_route s n1 p n2 q : Inv s -> (forall i, In i (insts s) -> stored i) -> In (n1, p, n2, q) (rconf s) -> VtyProofs.proper (rw (n1, p, n2, q)).
Proof.
  intros V ST I. apply rconf_types in I; [|easy]. destruct I as (a & b & A & B & <- & <- & _ & _ & P & Q & _). split; [easy|]. cbn [rw].
  pose proof (t_name a (ST a A)). pose proof (t_name b (ST b B)). pose proof (hex2_word p P). pose proof (hex2_word q Q).
  repeat (constructor; [first [assumption|apply kw; reflexivity]|]). constructor.
Qed.
Lemma proper_lines k P s : hist k P s -> Forall VtyProofs.proper (config_lines s).
Proof.
  intros H. pose proof (reach_Inv s (hist_reach _ _ _ H)) as V. pose proof (hist_stored k P s H) as ST. apply Forall_app. split; apply Forall_forall; intros x X; apply in_map_iff in X as (y & <- & Y).
  - apply proper_inst. auto.
  - destruct y as [[[n1 p] n2] q]. now apply (proper_route s).
Qed.
(** writing never touches freed memory; everything is below the heading "ipa" *)
Theorem C74_written k P s : hist k P s -> exists t, write s = Some t /\
  (insts s <> [] -> VtyModel.lines_of t = "ipa" :: map (fun ws => " " ++ String.concat " " ws) (config_lines s)) /\ (insts s = [] -> t = "" /\ rconf s = []).
Proof.
  intros H. pose proof (reach_Inv s (hist_reach _ _ _ H)) as V. eexists. split; [apply write_lines, V|]. pose proof (proper_lines k P s H) as PL. split; intros I.
  - unfold heading. destruct (insts s) eqn:E; [easy|]. rewrite VtyProofs.app_assoc_s. change (String VtyModel.nl EmptyString ++ ?x) with (String VtyModel.nl x).
    rewrite VtyProofs.lines_cons by easy. f_equal. now apply VtyProofs.lines_text.
  - assert (R : rconf s = []). { destruct (rconf s) as [|[[[n1 p] n2] q] l] eqn:R; [easy|]. assert (J : In (n1, p, n2, q) (rconf s)) by (rewrite R; now left). apply in_rconf in J; [|easy]. destruct J as (a & _ & A & _). rewrite I in A. destruct A. }
    unfold heading, config_lines. rewrite I, R. easy.
Qed.

(** ** Reading *)
Definition lined (ws : list string) : string := " " ++ String.concat " " ws.
Lemma read_lined k s ws : VtyProofs.proper ws -> read_line k s (lined ws) =
  (do x <- match parse true ws with Some c => exec k s c | None => Some (s, Unknown) end; match x with (s, Said Ok) => Some (s, []) | (s, _) => Some (s, [lined ws]) end).
Proof.
  intros P. unfold lined. cbn [append read_line]. rewrite Ascii.eqb_refl, (VtyProofs.concat_head _ P). cbn [negb andb vstep]. rewrite VtyProofs.words_join by apply P. reflexivity.
Qed.
Lemma hist_line k s ws c s' r : VtyProofs.proper ws -> hist k no_deletion s -> hd_error ws <> Some "no" -> parse true ws = Some c -> exec k s c = Some (s', r) -> hist k no_deletion s'.
Proof.
  intros P H N C E. apply (hist1 k no_deletion s (Typed true (String.concat " " ws)) s' r H).
  - cbn [vstep]. rewrite VtyProofs.words_join by apply P. now rewrite C.
  - cbn [no_deletion]. rewrite VtyProofs.words_join by apply P. destruct ws as [|a [|b [|d ws]]]; auto. intros (-> & _). now apply N.
Qed.
Definition ic (i : inst) : list Z * net_type * list Z * Z := (i_name i, i_type i, i_addr i, i_port i).
Lemma parse_inst_line i : parse true (inst_words i) = Some (CInst (str (i_name i)) (match i_type i with T_BIND => true | T_CONNECT => false end) (str (i_addr i)) (VtyModel.num (i_port i))).
Proof. unfold inst_words. cbn [parse]. unfold parse_cfg, parse_inst. destruct (i_type i); reflexivity. Qed.
Lemma parse_route_line n1 p n2 q : parse true (rw (n1, p, n2, q)) = Some (CRoute (str n1) (hex2 p) (str n2) (hex2 q)).
Proof. reflexivity. Qed.
Lemma read_inst k s i : hist k no_deletion s -> stored i -> ~ In (i_name i) (map i_name (insts s)) ->
  exists s1, read_line k s (lined (inst_words i)) = Some (s1, []) /\ hist k no_deletion s1 /\ iconf s1 = (iconf s ++ [ic i])%list /\ routes s1 = routes s.
Proof.
  intros H ST N. pose proof (proper_inst i ST) as P. rewrite read_lined by exact P. pose proof (parse_inst_line i) as PL. rewrite PL. cbn [exec].
  rewrite !codes_str by apply ST. unfold instance_add.
  destruct (existsb (name_is (i_name i)) (insts s)) eqn:E.
  { exfalso. apply existsb_exists in E as (j & J1 & J2). apply name_is_short in J2; [|apply (hist_stored _ _ _ H j J1)]. apply N. rewrite <- J2. now apply in_map. }
  eexists. split; [reflexivity|]. split; [|split; [|reflexivity]].
  - eapply (hist_line k s (inst_words i)); [exact P|exact H|discriminate|exact PL|]. cbn [exec]. rewrite !codes_str by apply ST. unfold instance_add. rewrite E. reflexivity.
  - unfold iconf. cbn [insts]. rewrite map_app. f_equal. cbn [map i_name i_type i_addr i_port]. unfold ic. rewrite firstn_all2 by apply ST. pose proof (t_port i ST) as TP.
    rewrite atoi_num by (change (2^31) with 2147483648; lia). rewrite Z.mod_small by lia. now destruct (i_type i).
Qed.
Lemma iconf_names s s' : iconf s' = iconf s -> map i_name (insts s') = map i_name (insts s).
Proof. intros E. apply (f_equal (map (fun x => fst (fst (fst x))))) in E. unfold iconf in E. rewrite !map_map in E. exact E. Qed.
Lemma read_insts k L : forall s, hist k no_deletion s -> (forall i, In i L -> stored i) -> NoDup (map i_name (insts s) ++ map i_name L) -> routes s = [] ->
  exists s1, read_lines k s (map lined (map inst_words L)) = Some (s1, []) /\ hist k no_deletion s1 /\ iconf s1 = (iconf s ++ map ic L)%list /\ routes s1 = [].
Proof.
  induction L as [|i L IH]; intros s H ST N R.
  - exists s. cbn. rewrite app_nil_r. auto.
  - cbn [map read_lines]. destruct (read_inst k s i H (ST i (or_introl eq_refl))) as (s1 & -> & H1 & C1 & R1).
    { cbn [map] in N. apply NoDup_remove_2 in N. intros I. apply N. apply in_app_iff. now left. }
    cbn [fst snd]. assert (NM : map i_name (insts s1) = (map i_name (insts s) ++ [i_name i])%list).
    { apply (f_equal (map (fun x => fst (fst (fst x))))) in C1. unfold iconf in C1. rewrite map_app, !map_map in C1. exact C1. }
    destruct (IH s1 H1) as (s2 & -> & H2 & C2 & R2); [intros j J; apply ST; now right| |congruence|].
    { rewrite NM, <- app_assoc. exact N. }
    exists s2. cbn [fst snd app]. split; [reflexivity|]. split; [easy|]. split; [|easy]. rewrite C2, C1, <- app_assoc. reflexivity.
Qed.
Lemma read_app k a b : forall s, read_lines k s (a ++ b) = do x <- read_lines k s a; do y <- read_lines k (fst x) b; Some (fst y, (snd x ++ snd y)%list).
Proof.
  induction a as [|t a IH]; intros s; cbn [app read_lines].
  - cbn. destruct (read_lines k s b) as [[t x]|]; reflexivity.
  - destruct (read_line k s t) as [[s1 x]|]; [|reflexivity]. cbn [fst snd]. rewrite IH. destruct (read_lines k s1 a) as [[s2 y]|]; [|reflexivity]. cbn [fst snd]. destruct (read_lines k s2 b) as [[s3 z]|]; [|reflexivity]. cbn [fst snd]. now rewrite app_assoc.
Qed.

(** *** Routes by name *)
Definition neqb (a b : list Z) : bool := if list_eq_dec Z.eq_dec a b then true else false.
Lemma neqb_spec a b : reflect (a = b) (neqb a b). Proof. unfold neqb. destruct (list_eq_dec Z.eq_dec a b); now constructor. Qed.
Definition npairs (v : list (list Z * Z * list Z * Z)) (n1 n2 : list Z) : list (Z * Z) :=
  flat_map (fun t => let '(a, p, b, q) := t in if neqb a n1 && neqb b n2 then [(p, q)] else []) v.
Lemma npairs_app v w a b : npairs (v ++ w) a b = (npairs v a b ++ npairs w a b)%list. Proof. apply flat_map_app. Qed.
Lemma name_inj s a b : NoDup (map i_name (insts s)) -> In a (insts s) -> In b (insts s) -> i_name a = i_name b -> a = b.
Proof.
  generalize (insts s). clear s. intros l. induction l as [|x l IH]; [easy|]. cbn [map]. intros N. apply NoDup_cons_iff in N as [N1 N2]. intros [->|A] [->|B] E; auto.
  - exfalso. apply N1. rewrite E. now apply in_map.
  - exfalso. apply N1. rewrite <- E. now apply in_map.
Qed.
Lemma npairs_pairs s a b : Inv s -> NoDup (map i_name (insts s)) -> In a (insts s) -> In b (insts s) -> npairs (rconf s) (i_name a) (i_name b) = pairs (view s) (i_id a) (i_id b).
Proof.
  intros V N A B. unfold rconf. assert (SUB : forall t, In t (view s) -> In t (view s)) by auto. revert SUB. generalize (view s) at 1 3 4. intros v. induction v as [|[[[x p] y] q] v IH]; intros SUB; [reflexivity|].
  cbn [flat_map]. rewrite npairs_app, IH by (intros t T; apply SUB; now right). destruct (view_insts s V _ _ _ _ (SUB _ (or_introl eq_refl))) as ((i & I1 & I2 & _) & (j & J1 & J2 & _)).
  cbn [named pairs flat_map]. rewrite <- I2, <- J2, (find_inst_in s i V I1), (find_inst_in s j V J1). cbn [npairs flat_map]. rewrite app_nil_r.
  fold (pairs v (i_id a) (i_id b)). f_equal.
  destruct (neqb_spec (i_name i) (i_name a)) as [E1|E1], (Nat.eqb_spec (i_id i) (i_id a)) as [F1|F1]; cbn [andb]; auto.
  - destruct (neqb_spec (i_name j) (i_name b)) as [E2|E2], (Nat.eqb_spec (i_id j) (i_id b)) as [F2|F2]; auto.
    + exfalso. apply F2. f_equal. now apply (name_inj s).
    + exfalso. apply E2. f_equal. now apply (id_inj i_id (insts s)); [apply (I_ni s V)| | |].
  - exfalso. apply F1. f_equal. now apply (name_inj s).
  - exfalso. apply E1. f_equal. now apply (id_inj i_id (insts s)); [apply (I_ni s V)| | |].
Qed.
Lemma find_named s i : NoDup (map i_name (insts s)) -> (forall j, In j (insts s) -> (List.length (i_name j) <= 15)%nat) -> In i (insts s) ->
  find_src s (i_name i) = Some i /\ forall n1, n1 <> i_name i -> find_dst s n1 (i_name i) = Some i.
Proof.
  intros N LL I.
  assert (G : forall (P : inst -> bool), P i = true -> (forall x, P x = true -> In x (insts s) -> name_is (i_name i) x = true) -> find P (rev (insts s)) = Some i).
  { intros P PI W. destruct (find P (rev (insts s))) as [y|] eqn:F.
    - apply find_some in F as [F1 F2]. apply in_rev in F1. apply W in F2; [|easy]. apply name_is_short in F2; [|auto]. f_equal. now apply (name_inj s).
    - apply (find_none P _) with (x := i) in F; [congruence|now apply in_rev in I]. }
  assert (NI : name_is (i_name i) i = true) by (apply name_is_short; auto).
  split; [apply G; auto|]. intros n1 D. apply G.
  - rewrite NI. cbn [andb]. apply negb_true_iff. destruct (name_is n1 i) eqn:Q; [|easy]. apply name_is_short in Q; [congruence|auto].
  - intros x X _. now apply andb_true_iff in X.
Qed.
Lemma find_add_ref d a b l id : find (fun x => Nat.eqb (i_id x) id) (add_ref d a b l) = option_map (fun i => mkI (i_id i) (i_name i) (i_type i) (i_addr i) (i_port i) (i_refcnt i + (if Nat.eqb (i_id i) a then d else 0) + (if Nat.eqb (i_id i) b then d else 0))) (find (fun x => Nat.eqb (i_id x) id) l).
Proof. unfold add_ref. induction l as [|x l IH]; [reflexivity|]. cbn [map find i_id]. destruct (Nat.eqb (i_id x) id); [reflexivity|exact IH]. Qed.
Lemma named_add s s' d a b t : insts s' = add_ref d a b (insts s) -> named s' t = named s t.
Proof. intros E. destruct t as [[[x p] y] q]. cbn [named]. unfold find_inst. rewrite E, !find_add_ref. destruct (find _ (insts s)); [|reflexivity]. cbn [option_map]. now destruct (find _ (insts s)). Qed.
Lemma iconf_add s s' d a b : insts s' = add_ref d a b (insts s) -> iconf s' = iconf s.
Proof. intros E. unfold iconf. rewrite E. unfold add_ref. rewrite map_map. apply map_ext. reflexivity. Qed.
Lemma iconf_in s s' i : iconf s' = iconf s -> In i (insts s) -> exists j, In j (insts s') /\ ic j = ic i.
Proof. intros E I. assert (J : In (ic i) (iconf s')) by (rewrite E; exact (in_map ic _ _ I)). apply in_map_iff in J as (j & J1 & J2). eauto. Qed.
Lemma ports_pairs s z : PInv s -> In z (ports s) -> exists sh i, In sh (shareds s) /\ In i (insts s) /\ i_id i = s_src sh /\ i_port i = z.
Proof.
  intros P I. unfold PInv in P. assert (SUB : forall ab, In ab (sp s) -> exists sh, In sh (shareds s) /\ fst ab = s_src sh) by (intros ab A; apply in_map_iff in A as (sh & <- & A); exists sh; easy).
  revert SUB I. generalize (sp s), (ports s), P. clear P. induction 1 as [|ab p l l' (i & I1 & I2 & I3) F IH]; intros SUB; [easy|]. intros [->|J]; [|apply IH; auto; intros x X; apply SUB; now right].
  destruct (SUB ab (or_introl eq_refl)) as (sh & S1 & S2). exists sh, i. split; [easy|]. split; [easy|]. split; congruence.
Qed.
(** one listening port for each pair *)
Lemma ports_inj s x y i j : Inv s -> PInv s -> NoDup (ports s) -> In x (shareds s) -> In y (shareds s) -> In i (insts s) -> In j (insts s) -> i_id i = s_src x -> i_id j = s_src y -> i_port i = i_port j -> x = y.
Proof.
  intros V P N X Y I J Ei Ej E. apply In_nth_error in X as [n X], Y as [m Y].
  assert (G : forall n x i, nth_error (shareds s) n = Some x -> In i (insts s) -> i_id i = s_src x -> nth_error (ports s) n = Some (i_port i)).
  { clear n x i X I Ei E. intros n x i X I Ei. assert (S1 : nth_error (sp s) n = Some (s_src x, s_dst x)) by (unfold sp; rewrite nth_error_map, X; reflexivity). unfold PInv in P. clear X N. revert n S1. generalize (sp s), (ports s), P. clear P. induction 1 as [|ab p l l' (w & W1 & W2 & W3) F IH]; intros n S1; [destruct n; discriminate S1|]. destruct n as [|n]; [|now apply IH].
    cbn in S1. injection S1 as S1. cbn. f_equal. rewrite <- W3. f_equal. apply (id_inj i_id (insts s)); [apply (I_ni s V)|easy|easy|]. rewrite W2, S1, Ei. reflexivity. }
  pose proof (G n x i X I Ei) as G1. pose proof (G m y j Y J Ej) as G2. rewrite E in G1. assert (n = m).
  { apply (proj1 (NoDup_nth_error (ports s)) N); [|congruence]. apply nth_error_Some. congruence. }
  subst m. congruence.
Qed.

Lemma route_add_bound s n1 v1 n2 v2 a b sh x : Inv s -> find_src s n1 = Some a -> find_dst s n1 n2 = Some b -> In sh (shareds s) -> s_src sh = i_id a -> s_dst sh = i_id b -> route_add s n1 v1 n2 v2 x = route_add s n1 v1 n2 v2 true.
Proof.
  intros V Fa Fb S E1 E2. unfold route_add, route_args. rewrite Fa, Fb. destruct (i_type a); [|reflexivity]. destruct (i_type b); [reflexivity|]. destruct (_ || _); [reflexivity|].
  pose proof (find_routeM_spec s (fun _ sh => pair_is (i_id a) (i_id b) sh) (routes s) V (fun r H => H)) as W. destruct (find_routeM _ _ _) as [[[r y]|]|]; [reflexivity| |reflexivity].
  exfalso. destruct (shared_used s sh V S) as (r & R1 & R2). specialize (W r sh R1 S (eq_sym R2)). unfold pair_is in W. rewrite E1, E2, !Nat.eqb_refl in W. discriminate W.
Qed.
Lemma shared_pairs s a b : Inv s -> (exists sh, In sh (shareds s) /\ s_src sh = a /\ s_dst sh = b) <-> pairs (view s) a b <> [].
Proof.
  intros V. split.
  - intros (sh & S & <- & <-) E. destruct (shared_used s sh V S) as (r & R1 & R2). assert (J : In (r_ss r, r_ds r) (pairs (view s) (s_src sh) (s_dst sh))) by (apply in_pairs, (in_view s V); exists r, sh; auto 10). rewrite E in J. destruct J.
  - intros E. destruct (pairs (view s) a b) as [|[p q] l] eqn:Q; [easy|]. assert (J : In (p, q) (pairs (view s) a b)) by (rewrite Q; now left). apply in_pairs, (in_view s V) in J. destruct J as (r & sh & _ & S & _ & -> & -> & _). exists sh. auto.
Qed.
Lemma uint32_small v : 0 <= v < 256 -> uint32 v = v.
Proof. intros H. unfold uint32. apply Z.mod_small. change (2^32) with 4294967296. lia. Qed.
Section Reading.
Variables (k k' : kern) (P : ev -> st -> Prop) (s : st).
Hypotheses (H : hist k P s) (SK : sane k) (W : willing k') (N : NoDup (map i_name (insts s))) (F : First s).
Lemma read_route R1 t R2 s' : rconf s = (R1 ++ t :: R2)%list -> hist k' no_deletion s' -> iconf s' = iconf s -> rconf s' = R1 ->
  exists s'', read_line k' s' (lined (rw t)) = Some (s'', []) /\ hist k' no_deletion s'' /\ iconf s'' = iconf s /\ rconf s'' = (R1 ++ [t])%list.
Proof.
  intros RC H' IC RC'. pose proof (reach_Inv s (hist_reach _ _ _ H)) as V. pose proof (reach_Inv s' (hist_reach _ _ _ H')) as V'. pose proof (hist_stored _ _ _ H) as ST. pose proof (hist_stored _ _ _ H') as ST'.
  destruct t as [[[n1 p] n2] q]. assert (J : In (n1, p, n2, q) (rconf s)) by (rewrite RC; apply in_app_iff; right; now left).
  pose proof (proper_route s n1 p n2 q V ST J) as PR. destruct (rconf_types s n1 p n2 q V J) as (a & b & A & B & N1 & N2 & Ta & Tb & Bp & Bq & VJ).
  destruct (iconf_in s s' a IC A) as (a' & A' & EA). destruct (iconf_in s s' b IC B) as (b' & B' & EB). unfold ic in EA, EB. injection EA as EA1 EA2 EA3 EA4. injection EB as EB1 EB2 EB3 EB4.
  assert (N' : NoDup (map i_name (insts s'))) by (rewrite (iconf_names s s' IC); exact N).
  assert (AB : n1 <> n2). { intros E. assert (a = b) by (apply (name_inj s); auto; congruence). subst b. congruence. }
  destruct (find_named s' a' N' (fun j J => t_len j (ST' j J)) A') as [FA _]. destruct (find_named s' b' N' (fun j J => t_len j (ST' j J)) B') as [_ FB].
  assert (FA' : find_src s' n1 = Some a') by (rewrite <- N1, <- EA1; exact FA). assert (FB' : find_dst s' n1 n2 = Some b') by (rewrite <- N2, <- EB1; apply FB; congruence).
  assert (NP : pairs (view s') (i_id a') (i_id b') = npairs R1 n1 n2). { rewrite <- (npairs_pairs s' a' b' V' N' A' B'), RC'. congruence. }
  assert (NPS : pairs (view s) (i_id a) (i_id b) = (npairs R1 n1 n2 ++ (p, q) :: npairs R2 n1 n2)%list).
  { rewrite <- (npairs_pairs s a b V N A B), N1, N2, RC, npairs_app. f_equal. cbn [npairs flat_map]. fold (npairs R2 n1 n2). destruct (neqb_spec n1 n1); [|easy]. destruct (neqb_spec n2 n2); [|easy]. reflexivity. }
  assert (HD : hd_error (pairs (view s') (i_id a') (i_id b')) <> Some (p, q)).
  { rewrite NP. destruct (npairs R1 n1 n2) as [|x l]; [easy|]. cbn [hd_error app] in *. intros E. injection E as ->. apply (F _ _ _ _ NPS). apply in_app_iff. right. now left. }
  destruct (C47_route_add_accepted s' n1 p n2 q a' b' (hist_reach _ _ _ H') FA' FB') as (s'' & RA & VW); [congruence|congruence|easy|easy|exact HD|].
  (* the port can be had *)
  assert (RA' : route_add s' n1 p n2 q (k' (ports s') (wanted s' n1)) = Some (s'', Ok)).
  { destruct (pairs (view s') (i_id a') (i_id b')) as [|x l] eqn:Q.
    - replace (k' (ports s') (wanted s' n1)) with true; [exact RA|]. symmetry. apply W. unfold wanted. rewrite FA'. intros I.
      destruct (ports_pairs s' _ (hist_PInv _ _ _ H') I) as (sh & i & S1 & I1 & I2 & I3).
      destruct (I_s s' V' sh S1) as (_ & _ & _ & (j & J1 & J2 & _)).
      (* the same pair in s *)
      assert (QS : pairs (view s') (i_id i) (i_id j) <> []) by (apply (shared_pairs s' _ _ V'); exists sh; auto).
      destruct (iconf_in s' s i (eq_sym IC) I1) as (i0 & I0 & EI). destruct (iconf_in s' s j (eq_sym IC) J1) as (j0 & J0 & EJ). unfold ic in EI, EJ. injection EI as EI1 EI2 EI3 EI4. injection EJ as EJ1 EJ2 EJ3 EJ4.
      rewrite <- (npairs_pairs s' i j V' N' I1 J1), RC' in QS.
      assert (QS0 : pairs (view s) (i_id i0) (i_id j0) <> []). { rewrite <- (npairs_pairs s i0 j0 V N I0 J0), RC, npairs_app, EI1, EJ1. intros E. apply app_eq_nil in E as [E _]. contradiction. }
      apply (shared_pairs s _ _ V) in QS0 as (x & X1 & X2 & X3).
      assert (QA : pairs (view s) (i_id a) (i_id b) <> []) by (rewrite NPS; intros E; now apply app_eq_nil in E as [_ E]).
      apply (shared_pairs s _ _ V) in QA as (y & Y1 & Y2 & Y3).
      assert (x = y) by (apply (ports_inj s x y i0 a V (hist_PInv _ _ _ H) (hist_ports _ _ _ SK H)); auto; congruence). subst y.
      assert (E1 : i0 = a) by (apply (id_inj i_id (insts s)); [apply (I_ni s V)|easy|easy|congruence]). assert (E2 : j0 = b) by (apply (id_inj i_id (insts s)); [apply (I_ni s V)|easy|easy|congruence]).
      subst i0 j0. apply QS. rewrite <- EI1, <- EJ1, N1, N2, <- NP. reflexivity.
    - destruct (proj2 (shared_pairs s' (i_id a') (i_id b') V')) as (sh & S1 & S2 & S3); [congruence|]. rewrite (route_add_bound s' n1 p n2 q a' b' sh _ V' FA' FB' S1 S2 S3). exact RA. }
  assert (EX : exec k' s' (CRoute (str n1) (hex2 p) (str n2) (hex2 q)) = Some (s'', Said Ok)).
  { cbn [exec]. rewrite !codes_str by (rewrite <- ?N1, <- ?N2; first [apply (ST a A)|apply (ST b B)]). rewrite !strtoul_hex2 by easy. now rewrite RA'. }
  exists s''. split; [|split; [|split]].
  - rewrite read_lined by exact PR. rewrite parse_route_line, EX. reflexivity.
  - apply (hist_line k' s' (rw (n1, p, n2, q)) (CRoute (str n1) (hex2 p) (str n2) (hex2 q)) s'' (Said Ok)); [exact PR|exact H'|discriminate|reflexivity|exact EX].
  - rewrite <- IC. apply route_add_shape in RA; [|exact V']. destruct RA as (a2 & b2 & _ & _ & _ & _ & _ & _ & I2 & _). eapply iconf_add, I2.
  - pose proof RA as RA2. apply route_add_shape in RA2; [|exact V']. destruct RA2 as (a2 & b2 & _ & _ & _ & _ & _ & _ & I2 & _).
    unfold rconf. rewrite VW, flat_map_app. rewrite !(flat_map_ext _ _ (fun t => named_add s' s'' 1 (i_id a2) (i_id b2) t I2)). fold (rconf s'). rewrite RC'. f_equal. cbn [flat_map named app]. rewrite (find_inst_in s' a' V' A'), (find_inst_in s' b' V' B'). cbn. congruence.
Qed.
Lemma read_routes R2 : forall R1 s', rconf s = (R1 ++ R2)%list -> hist k' no_deletion s' -> iconf s' = iconf s -> rconf s' = R1 ->
  exists s'', read_lines k' s' (map lined (map rw R2)) = Some (s'', []) /\ hist k' no_deletion s'' /\ iconf s'' = iconf s /\ rconf s'' = rconf s.
Proof.
  induction R2 as [|t R2 IH]; intros R1 s' E H' IC RC.
  - exists s'. rewrite app_nil_r in E. cbn. split; [reflexivity|]. split; [exact H'|]. split; [exact IC|congruence].
  - cbn [map read_lines]. destruct (read_route R1 t R2 s' E H' IC RC) as (s1 & -> & H1 & IC1 & RC1). cbn [fst snd].
    destruct (IH (R1 ++ [t])%list s1) as (s2 & -> & H2 & IC2 & RC2); [rewrite <- app_assoc; exact E|exact H1|exact IC1|exact RC1|]. exists s2. cbn. auto.
Qed.
Lemma read_all t : write s = Some t -> exists s', read k' t = Some (s', []) /\ hist k' no_deletion s' /\ iconf s' = iconf s /\ rconf s' = rconf s.
Proof.
  intros WR. destruct (C74_written k P s H) as (t' & E & L1 & L2). rewrite WR in E. injection E as <-. unfold read. destruct (insts s) as [|i l] eqn:I.
  - destruct (L2 eq_refl) as [-> R]. exists st0. split; [reflexivity|]. split; [constructor|]. split; [unfold iconf; now rewrite I|now rewrite R].
  - rewrite L1 by easy. change (is "ipa" "ipa") with true. cbv iota. unfold config_lines. rewrite <- I in *. change (map (fun ws => " " ++ String.concat " " ws)) with (map lined). rewrite map_app, read_app.
    destruct (read_insts k' (insts s) st0 (hist0 _ _) (hist_stored _ _ _ H) N eq_refl) as (s1 & -> & H1 & IC1 & R1). cbn [fst snd].
    destruct (read_routes (rconf s) [] s1 eq_refl H1 IC1) as (s2 & -> & H2 & IC2 & RC2); [|exists s2; cbn; auto].
    unfold rconf, view. now rewrite R1.
Qed.
End Reading.

(** ** What follows from the same configuration *)
Lemma hist_names k P s : hist k P s -> (forall e s, P e s -> short e s) -> nreach s.
Proof.
  intros H I. induction H as [|s e s' x H IH S PE]; [constructor|]. pose proof (vstep_op _ _ _ _ _ S) as O. destruct (ev_op k s e) as [o|] eqn:EO; [|now subst s'].
  destruct O as [y O]. apply (nreach1 s o s' y IH); [|exact O]. apply I in PE. destruct e as [cfg t|n]; cbn [ev_op short] in *; [|injection EO as <-; now destruct n].
  destruct (parse cfg (VtyModel.words t)) as [c|]; [|discriminate EO]. destruct c; try discriminate EO; injection EO as <-; try easy. cbn. now rewrite codes_len.
Qed.
Lemma listened s z : Inv s -> PInv s -> NoDup (map i_name (insts s)) -> In z (ports s) <-> exists n1 p n2 q ty ad, In (n1, p, n2, q) (rconf s) /\ In (n1, ty, ad, z) (iconf s).
Proof.
  intros V P N. split.
  - intros I. destruct (ports_pairs s z P I) as (sh & i & S1 & I1 & I2 & I3). destruct (shared_used s sh V S1) as (r & R1 & R2). destruct (I_s s V sh S1) as (_ & _ & _ & (j & J1 & J2 & _)).
    exists (i_name i), (r_ss r), (i_name j), (r_ds r), (i_type i), (i_addr i). split; [|rewrite <- I3; exact (in_map ic _ _ I1)]. apply in_rconf; [exact V|]. exists i, j. rewrite I2, J2. do 4 (split; [easy|]). apply (in_view s V). exists r, sh. auto 10.
  - intros (n1 & p & n2 & q & ty & ad & R & I). apply in_rconf in R; [|exact V]. destruct R as (a & b & A & B & N1 & N2 & J). apply in_map_iff in I as (i & E & I). unfold ic in E. injection E as E1 _ _ E4.
    assert (i = a) by (apply (name_inj s); auto; congruence). subst i. apply (in_view s V) in J. destruct J as (r & sh & _ & S1 & _ & J1 & J2 & _).
    assert (J : In (s_src sh, s_dst sh) (sp s)) by exact (in_map (fun x => (s_src x, s_dst x)) _ _ S1). unfold PInv in P. revert J. generalize (sp s), (ports s), P. clear P. induction 1 as [|ab w l l' (x & X1 & X2 & X3) F IH]; [easy|]. intros [->|J]; [|right; now apply IH].
    left. rewrite <- X3, <- E4. f_equal. apply (id_inj i_id (insts s)); [apply (I_ni s V)|easy|easy|]. cbn in X2. congruence.
Qed.
Lemma canon_src s cid sh p : Canon s -> conn_shared s cid = Some sh -> 0 <= p < 256 ->
  let l := pairs (view s) (s_src sh) (s_dst sh) in
  sock_src_cb s cid p = Some (match tab l p with Some _ => Forwarded (match tab (swap l) p with Some q => q | None => 0 end) | None => Dropped end) /\
  (conn_open s cid -> sock_dst_cb s cid p = Some (match tab (swap l) p with Some _ => Forwarded (match tab l p with Some q => q | None => 0 end) | None => Dropped end)).
Proof.
  intros C E B l. pose proof (conn_shared_in s cid sh E) as S. destruct (C sh S p B) as [[A1 A2] [B1 B2]]. fold l in A1, A2, B1, B2. unfold sock_src_cb, sock_dst_cb. rewrite E, A1, A2, B1, B2. split.
  - destruct (tab l p); reflexivity.
  - intros (c & -> & ->). destruct (tab (swap l) p); reflexivity.
Qed.
Lemma names_shared s cid n1 n2 : Inv s -> conn_names s cid = Some (n1, n2) -> exists sh a b, conn_shared s cid = Some sh /\ In a (insts s) /\ In b (insts s) /\ i_id a = s_src sh /\ i_id b = s_dst sh /\ i_name a = n1 /\ i_name b = n2.
Proof.
  intros V. unfold conn_names. destruct (conn_shared s cid) as [sh|]; [|discriminate]. destruct (find_inst s (s_src sh)) as [a|] eqn:A; [|discriminate]. destruct (find_inst s (s_dst sh)) as [b|] eqn:B; [|discriminate].
  intros E. injection E as <- <-. unfold find_inst in A, B. apply find_id_some in A, B. exists sh, a, b. tauto.
Qed.
Lemma same_forwarding s s1 cid cid1 nn p : Inv s -> Inv s1 -> Canon s -> Canon s1 -> NoDup (map i_name (insts s)) -> NoDup (map i_name (insts s1)) -> rconf s1 = rconf s ->
  conn_names s cid = Some nn -> conn_names s1 cid1 = Some nn -> 0 <= p < 256 ->
  sock_src_cb s1 cid1 p = sock_src_cb s cid p /\ (conn_open s cid -> conn_open s1 cid1 -> sock_dst_cb s1 cid1 p = sock_dst_cb s cid p).
Proof.
  intros V V1 C C1 N N1 R E E1 B. destruct nn as [m1 m2]. destruct (names_shared s cid m1 m2 V E) as (sh & a & b & S & A & B0 & I1 & I2 & M1 & M2). destruct (names_shared s1 cid1 m1 m2 V1 E1) as (sh1 & a1 & b1 & S1 & A1 & B1 & J1 & J2 & M3 & M4).
  destruct (canon_src s cid sh p C S B) as [F1 F2]. destruct (canon_src s1 cid1 sh1 p C1 S1 B) as [G1 G2].
  assert (PP : pairs (view s1) (s_src sh1) (s_dst sh1) = pairs (view s) (s_src sh) (s_dst sh)).
  { rewrite <- I1, <- I2, <- J1, <- J2, <- (npairs_pairs s a b V N A B0), <- (npairs_pairs s1 a1 b1 V1 N1 A1 B1), R. congruence. }
  cbv zeta in *. rewrite PP in *. split; [now rewrite F1, G1|]. intros O O1. now rewrite (F2 O), (G2 O1).
Qed.
Lemma net_same k s n s' x : vstep k s (Net n) = Some (s', x) -> insts s' = insts s /\ routes s' = routes s /\ shareds s' = shareds s /\ links s' = links s.
Proof.
  cbn [vstep]. destruct n; cbn [net_op step].
  - unfold accept. destruct (find _ _); [|discriminate]. destruct (find_route _ _); [|discriminate]. destruct (find_shared _ _); [|discriminate]. destruct (find_inst _ _); [|discriminate]. destruct ok; cbn; intros H; injection H as <- <-; easy.
  - cbn. intros H. injection H as <- <-. easy.
  - destruct (sock_src_cb _ _ _); [|discriminate]. cbn. intros H. injection H as <- <-. easy.
  - destruct (sock_dst_cb _ _ _); [|discriminate]. cbn. intros H. injection H as <- <-. easy.
Qed.
Lemma nets_same k ns : forall s s1 rs, hist k no_deletion s -> vrun k s (map Net ns) = Some (s1, rs) -> hist k no_deletion s1 /\ insts s1 = insts s /\ rconf s1 = rconf s.
Proof.
  induction ns as [|n ns IH]; intros s s1 rs H E; cbn [map vrun] in E; [injection E as <- <-; easy|]. destruct (vstep k s (Net n)) as [[t x]|] eqn:S; [|discriminate E]. cbn [fst snd] in E.
  destruct (vrun k t (map Net ns)) as [[t1 xs]|] eqn:R; [|discriminate E]. injection E as <- <-. destruct (net_same _ _ _ _ _ S) as (I & RT & SH & _).
  destruct (IH t t1 xs) as (H1 & I1 & R1); [apply (hist1 k no_deletion s (Net n) t x H S); exact Logic.I|exact R|]. split; [exact H1|]. split; [congruence|]. rewrite R1. unfold rconf, view. rewrite RT, SH. apply flat_map_ext. intros [[[a p] b] q]. cbn [named]. unfold find_inst. now rewrite I.
Qed.

(** *** The theorems *)
(** The configuration written is taken without complaint at the next start and makes the same
    instances, routes and listening ports, and writes the same; and every message is then treated
    as before: for every history without deleted routes, or in which no stream identifier is used
    by two routes of a pair at a time. *)
Theorem C74_round_trip k P s k' : hist k P s -> (forall e s, P e s -> no_deletion e s) \/ (forall e s, P e s -> one_to_one e s) -> sane k -> willing k' -> NoDup (map i_name (insts s)) ->
  exists t s', write s = Some t /\ read k' t = Some (s', []) /\ iconf s' = iconf s /\ rconf s' = rconf s /\ (forall z, In z (ports s') <-> In z (ports s)) /\ write s' = Some t /\
  forall ns s1 rs cid cid1 nn p, vrun k' s' (map Net ns) = Some (s1, rs) -> conn_names s cid = Some nn -> conn_names s1 cid1 = Some nn -> 0 <= p < 256 ->
    sock_src_cb s1 cid1 p = sock_src_cb s cid p /\ (conn_open s cid -> conn_open s1 cid1 -> sock_dst_cb s1 cid1 p = sock_dst_cb s cid p).
Proof.
  intros H PH SK W N. pose proof (reach_Inv s (hist_reach _ _ _ H)) as V.
  assert (WK : forall Q : ev -> st -> Prop, (forall e s, P e s -> Q e s) -> hist k Q s) by (intros Q I; clear -H I; induction H; [constructor|econstructor; eauto]).
  assert (CF : Canon s /\ First s) by (destruct PH as [I|I]; [apply (hist_canon k), WK, I|apply dreach_canon, (hist_dreach k), WK, I]). destruct CF as [C F].
  destruct (C74_written k P s H) as (t & WT & _). destruct (read_all k k' P s H SK W N F t WT) as (s' & R & H' & IC & RC). pose proof (reach_Inv s' (hist_reach _ _ _ H')) as V'.
  assert (N' : NoDup (map i_name (insts s'))) by (rewrite (iconf_names s s' IC); exact N).
  exists t, s'. do 4 (split; [assumption|]). split; [|split].
  - intros z. rewrite (listened s z V (hist_PInv _ _ _ H) N), (listened s' z V' (hist_PInv _ _ _ H') N'), RC, IC. reflexivity.
  - rewrite <- WT, !write_lines by assumption. f_equal. unfold heading, config_lines. rewrite RC. f_equal.
    + apply (f_equal (@List.length _)) in IC. unfold iconf in IC. rewrite !map_length in IC. destruct (insts s), (insts s'); try discriminate IC; reflexivity.
    + f_equal. f_equal. clear -IC. unfold iconf in IC. revert IC. generalize (insts s), (insts s'). intros l. induction l as [|x l IH]; intros [|y m] E; try discriminate E; [reflexivity|]. injection E as E1 E2 E3 E4 E5. cbn [map]. f_equal; [unfold inst_words; congruence|now apply IH].
  - intros ns s1 rs cid cid1 nn p E E1 E2 B. destruct (nets_same k' ns s' s1 rs H' E) as (H1 & I1 & R1). destruct (hist_canon k' s1 H1) as [C1 _].
    apply (same_forwarding s s1 cid cid1 nn p V (reach_Inv s1 (hist_reach _ _ _ H1)) C C1 N); [rewrite I1; exact N'|congruence|exact E1|exact E2|exact B].
Qed.
(** names of at most 15 octets are never stored twice *)
Theorem C74_names k P s : hist k P s -> (forall e s, P e s -> short e s) -> NoDup (map i_name (insts s)).
Proof. intros H I. exact (proj1 (C47_names s (hist_names k P s H I))). Qed.

Lemma flat_map_ext_in' {A B} (f g : A -> list B) l : (forall x, In x l -> f x = g x) -> flat_map f l = flat_map g l.
Proof. induction l as [|x l IH]; intros H; [reflexivity|]. cbn. rewrite (H x) by now left. f_equal. apply IH. intros y Y. apply H. now right. Qed.
(** ** What is typed is what is configured *)
Definition at_node (cfg : bool) (ws : list string) : list string := if cfg then ws else ("ipa" :: ws)%list.
Lemma parse_at_inst cfg n ty a p : ty = "bind" \/ ty = "connect" -> parse cfg (at_node cfg ["instance"; n; ty; a; "tcp"; "port"; p]) = Some (CInst n (is ty "bind") a p).
Proof. intros [-> | ->]; destruct cfg; reflexivity. Qed.
Lemma parse_at_route cfg n1 v1 n2 v2 : parse cfg (at_node cfg ["route"; "instance"; n1; "streamid"; v1; "instance"; n2; "streamid"; v2]) = Some (CRoute n1 v1 n2 v2).
Proof. destruct cfg; reflexivity. Qed.
(** an instance: refused iff the name is taken *)
Theorem C74_instance k P s cfg t n ty a z : hist k P s -> VtyModel.words t = at_node cfg ["instance"; n; ty; a; "tcp"; "port"; VtyModel.num z] -> ty = "bind" \/ ty = "connect" -> 0 <= z < 2^63 -> (String.length n <= 15)%nat ->
  (In (codes n) (map i_name (insts s)) -> vstep k s (Typed cfg t) = Some (s, Said Warn)) /\
  (~ In (codes n) (map i_name (insts s)) -> exists s', vstep k s (Typed cfg t) = Some (s', Said Ok) /\
     iconf s' = (iconf s ++ [(codes n, if is ty "bind" then T_BIND else T_CONNECT, codes a, z mod 65536)])%list /\ rconf s' = rconf s /\ ports s' = ports s).
Proof.
  intros H W TY Z L. pose proof (reach_Inv s (hist_reach _ _ _ H)) as V. cbn [vstep]. rewrite W, parse_at_inst by exact TY. cbn [exec]. unfold instance_add.
  assert (E : existsb (name_is (codes n)) (insts s) = true <-> In (codes n) (map i_name (insts s))).
  { rewrite existsb_exists, in_map_iff. split; intros (i & I & J); exists i; [apply name_is_short in J; [easy|apply (hist_stored _ _ _ H i I)]|]. split; [easy|]. apply name_is_short; [apply (hist_stored _ _ _ H i J)|easy]. }
  split; intros I; [apply E in I; now rewrite I|]. destruct (existsb _ _) eqn:X; [exfalso; now apply I, E|]. eexists. split; [reflexivity|]. split; [|split].
  - unfold iconf. cbn [insts]. rewrite map_app. f_equal. cbn [map i_name i_type i_addr i_port]. rewrite firstn_all2 by (rewrite codes_len; lia). now rewrite atoi_wrap.
  - unfold rconf, view. cbn [routes shareds]. fold (view s). apply flat_map_ext_in'. intros [[[x p] y] q] J. destruct (view_insts s V _ _ _ _ J) as ((i & I1 & I2 & _) & (j & J1 & J2 & _)).
    cbn [named]. unfold find_inst. cbn [insts]. rewrite !find_app', <- I2, <- J2. rewrite (find_id i_id _ i (I_ni s V) I1), (find_id i_id _ j (I_ni s V) J1). reflexivity.
  - reflexivity.
Qed.

(** a route: taken, it is added to the list and nothing else changes; refused, nothing changes *)
Theorem C74_route k P s cfg t n1 v1 n2 v2 s' x : hist k P s -> VtyModel.words t = at_node cfg ["route"; "instance"; n1; "streamid"; v1; "instance"; n2; "streamid"; v2] -> vstep k s (Typed cfg t) = Some (s', x) ->
  x = Said Warn /\ s' = s \/
  x = Said Ok /\ iconf s' = iconf s /\ rconf s' = (rconf s ++ [(codes n1, strtoul16 v1 mod 2^32, codes n2, strtoul16 v2 mod 2^32)])%list /\ strtoul16 v1 mod 2^32 < 256 /\ strtoul16 v2 mod 2^32 < 256 /\
    (exists a b, In (codes n1, T_BIND, fst a, snd a) (iconf s) /\ In (codes n2, T_CONNECT, fst b, snd b) (iconf s)) /\
    (ports s' = ports s \/ exists ad z, In (codes n1, T_BIND, ad, z) (iconf s) /\ k (ports s) z = true /\ ports s' = (ports s ++ [z])%list).
Proof.
  intros H W E. pose proof (reach_Inv s (hist_reach _ _ _ H)) as V. cbn [vstep] in E. rewrite W, parse_at_route in E. cbn [exec] in E. destruct (route_add _ _ _ _ _ _) as [[t0 r]|] eqn:RA; [|discriminate E]. cbn [fst snd] in E. injection E as <- <-.
  destruct (add_ret _ _ _ _ _ _ _ _ V RA) as [[-> ->]| ->]; [now left|right]. split; [reflexivity|]. apply route_add_shape in RA; [|exact V].
  destruct RA as (a & b & Fa & Fb & Ta & Tb & B1 & B2 & I & _ & VW & _ & D). unfold uint32 in *.
  pose proof (find_src_in _ _ _ Fa) as [A1 A2]. assert (B3 : In b (insts s) /\ name_is (codes n2) b = true) by (unfold find_dst in Fb; apply find_some in Fb as [Fb1 Fb2]; apply in_rev in Fb1; apply andb_true_iff in Fb2; tauto).
  destruct B3 as [B3 B4]. apply name_is_short in A2; [|apply (hist_stored _ _ _ H a A1)]. apply name_is_short in B4; [|apply (hist_stored _ _ _ H b B3)].
  split; [eapply iconf_add, I|]. split; [|split; [lia|split; [lia|split]]].
  - unfold rconf. rewrite VW, flat_map_app, !(flat_map_ext _ _ (fun t => named_add s t0 1 (i_id a) (i_id b) t I)). f_equal. cbn [flat_map named app]. rewrite (find_inst_in s a V A1), (find_inst_in s b V B3). cbn. congruence.
  - exists (i_addr a, i_port a), (i_addr b, i_port b). rewrite <- A2, <- B4, <- Ta, <- Tb. split; [exact (in_map ic _ _ A1)|exact (in_map ic _ _ B3)].
  - destruct D as [(sh & sh' & _ & _ & _ & _ & _ & L)|(KB & _ & sh' & _ & _ & L)]; [left; unfold ports; now rewrite L|right]. exists (i_addr a), (i_port a). split; [rewrite <- A2, <- Ta; exact (in_map ic _ _ A1)|]. split; [|exact L].
    unfold wanted in KB. now rewrite Fa in KB.
Qed.
(** a route deleted is taken from the list, and nothing else changes there *)
Theorem C74_no_route k P s t n1 v1 n2 v2 s' x : hist k P s -> VtyModel.words t = ("no" :: "ipa" :: ["route"; "instance"; n1; "streamid"; v1; "instance"; n2; "streamid"; v2])%list -> vstep k s (Typed false t) = Some (s', x) ->
  x = Said Warn /\ s' = s \/
  x = Said Ok /\ iconf s' = iconf s /\ ports s' = ports s /\ exists R1 R2, rconf s = (R1 ++ (codes n1, strtoul16 v1 mod 2^32, codes n2, strtoul16 v2 mod 2^32) :: R2)%list /\ rconf s' = (R1 ++ R2)%list.
Proof.
  intros H W E. pose proof (reach_Inv s (hist_reach _ _ _ H)) as V. cbn [vstep] in E. rewrite W in E. change (parse false _) with (Some (CNoRoute n1 v1 n2 v2)) in E. cbn [exec] in E.
  destruct (route_del_spec s (codes n1) (strtoul16 v1) (codes n2) (strtoul16 v2) V) as [RD|(a & b & l1 & r & l2 & A & B & NA & NB & _ & VW & _ & [[_ RD]|(_ & t0 & RD & _ & _ & L & _ & _ & I & _ & VW')])]; rewrite RD in E; [|discriminate E|].
  - injection E as <- <-. now left.
  - injection E as <- <-. right. cbn [fst]. split; [reflexivity|]. apply name_is_short in NA; [|apply (hist_stored _ _ _ H a A)]. apply name_is_short in NB; [|apply (hist_stored _ _ _ H b B)].
    split; [eapply iconf_add, I|]. split; [unfold ports; now rewrite L|]. exists (flat_map (named s) (flat_map (rt_of (shareds s)) l1)), (flat_map (named s) (flat_map (rt_of (shareds s)) l2)). split.
    + unfold rconf. rewrite VW, flat_map_app. cbn [flat_map named app]. rewrite (find_inst_in s a V A), (find_inst_in s b V B), NA, NB. reflexivity.
    + unfold rconf. rewrite VW', flat_map_app, !(flat_map_ext _ _ (fun t => named_add s t0 (-1) (i_id a) (i_id b) t I)). reflexivity.
Qed.
(** a stream identifier is understood as it is shown, with or without leading 0x *)
Theorem C74_identifiers p : 0 <= p < 256 -> strtoul16 (hex2 p) = p /\ forall a b, hex2 p = String "0" (String "x" (String a (String b ""))) -> strtoul16 (String a (String b "")) = p.
Proof.
  intros H. split; [now apply strtoul_hex2|]. intros a b E. pose proof (strtoul_hex2 p H) as S. rewrite E, strtoul_0x in S. unfold hex2 in E. injection E as <- <-.
  assert (D : 0 <= p / 16 < 16 /\ 0 <= p mod 16 < 16) by dm. destruct D as [D1 D2].
  assert (X : forall z, 0 <= z < 16 -> exists c, hexd z = c /\ Ascii.eqb c "-" = false /\ Ascii.eqb c "+" = false /\ Ascii.eqb c "x" = false /\ Ascii.eqb c "X" = false).
  { intros z Z. eexists. split; [reflexivity|]. assert (Y : z = 0 \/ z = 1 \/ z = 2 \/ z = 3 \/ z = 4 \/ z = 5 \/ z = 6 \/ z = 7 \/ z = 8 \/ z = 9 \/ z = 10 \/ z = 11 \/ z = 12 \/ z = 13 \/ z = 14 \/ z = 15) by lia.
    repeat (destruct Y as [->|Y]; [repeat split; reflexivity|]). subst z. repeat split; reflexivity. }
  destruct (X _ D1) as (c1 & E1 & M1 & M2 & _). destruct (X _ D2) as (c2 & E2 & _ & _ & M3 & M4). rewrite E1, E2 in *. unfold strtoul16, sign. rewrite M1, M2. unfold prefix16. rewrite M3, M4. cbn [orb]. rewrite andb_false_r. exact S.
Qed.
(** the routes are shown as they are written *)
Theorem C74_show_routes k P s : hist k P s -> vstep k s (Typed false "ipa route show") = Some (s, Shown (map (fun r => String.concat " " (rw r)) (rconf s))) /\
  forall r, In r (rconf s) -> parse true (VtyModel.words (String.concat " " (rw r))) = Some (CRoute (str (fst (fst (fst r)))) (hex2 (snd (fst (fst r)))) (str (snd (fst r))) (hex2 (snd r))).
Proof.
  intros H. pose proof (reach_Inv s (hist_reach _ _ _ H)) as V. split.
  - change (vstep k s (Typed false "ipa route show")) with (do ws <- all_routes s (routes s); Some (s, Shown (map (String.concat " ") ws))). rewrite all_routes_named by easy. fold (view s). fold (rconf s). now rewrite map_map.
  - intros [[[n1 p] n2] q] I. rewrite VtyProofs.words_join by apply (proper_route s n1 p n2 q V (hist_stored _ _ _ H) I). reflexivity.
Qed.

(** ** What the code does not do *)
(** what "ipa instance show" prints is no command: address and type are exchanged *)
Theorem C74_show_refuted k P s i : hist k P s -> In i (insts s) -> str (i_addr i) <> "bind" -> str (i_addr i) <> "connect" ->
  (exists ls, vstep k s (Typed false "ipa instance show") = Some (s, Shown ls) /\ In (String.concat " " (inst_shown i)) ls) /\ parse true (VtyModel.words (String.concat " " (inst_shown i))) = None /\ parse false ("ipa" :: VtyModel.words (String.concat " " (inst_shown i))) = None.
Proof.
  intros H I N1 N2. pose proof (hist_stored _ _ _ H i I) as ST. split.
  - exists (map (fun i => String.concat " " (inst_shown i)) (insts s)). split; [reflexivity|]. now apply (in_map (fun i => String.concat " " (inst_shown i))).
  - destruct ST as [T1 T2 T3 T4 T5 T6]. rewrite VtyProofs.words_join.
    + unfold inst_shown. assert (X : parse_cfg ["instance"; str (i_name i); str (i_addr i); ty_word (i_type i); "tcp"; "port"; VtyModel.num (i_port i)] = None).
      { unfold parse_cfg, parse_inst. change (is "instance" "instance" && is "tcp" "tcp" && is "port" "port")%bool with true. cbv iota. unfold is at 1 2. apply String.eqb_neq in N1, N2. rewrite N1, N2. reflexivity. }
      split; [exact X|]. cbn [parse parse_enable]. change (is "ipa" "ipa") with true. cbv iota. exact X.
    + unfold inst_shown. pose proof (VtyProofs.num_word (i_port i) (proj1 T6)) as NW. assert (TW : VtyProofs.word (ty_word (i_type i))) by (destruct (i_type i); apply kw; reflexivity).
      repeat (constructor; [first [assumption|apply kw; reflexivity]|]). constructor.
Qed.
(** a port is not checked: beyond 65535 another one is taken, a word that is no number is port 0;
    and a word that is no hexadecimal number is the stream identifier 0 *)
Theorem C74_port_refuted a w : (forall z, 65536 <= z < 2^63 -> atoi (VtyModel.num z) mod 65536 = z mod 65536) /\
  (digit a = None -> Ascii.eqb a "-" = false -> Ascii.eqb a "+" = false -> atoi (String a w) = 0 /\ strtoul16 (String a w) = 0).
Proof.
  split; [intros z Z; apply atoi_wrap; lia|]. intros D M1 M2. unfold atoi, strtoul16, sign. rewrite M1, M2. cbn [digits]. rewrite D.
  assert (Z0 : Ascii.eqb a "0" = false) by (destruct (Ascii.eqb_spec a "0") as [->|]; [discriminate D|reflexivity]).
  unfold prefix16. rewrite Z0. cbn [andb]. assert (X : (match w with EmptyString => String a w | String _ _ => String a w end) = String a w) by now destruct w. rewrite X. cbn [digits]. rewrite D. split; reflexivity.
Qed.
(** two names of 16 octets that begin alike are both taken, stored alike, and the second is
    refused at the next start *)
Definition free_kern : kern := fun ps p => negb (existsb (Z.eqb p) ps).
Theorem C74_long_names_refuted : exists s t s', vrun free_kern st0 [Typed true "instance abcdefghijklmno1 bind 0.0.0.0 tcp port 3002"; Typed true "instance abcdefghijklmno2 connect 10.0.0.1 tcp port 3003"] = Some (s, [Said Ok; Said Ok]) /\
  write s = Some t /\ read free_kern t = Some (s', [" instance abcdefghijklmno connect 10.0.0.1 tcp port 3003"]) /\ List.length (insts s) = 2%nat /\ List.length (insts s') = 1%nat.
Proof. eexists _, _, _. split; [vm_compute; reflexivity|]. split; [vm_compute; reflexivity|]. split; [vm_compute; reflexivity|]. split; reflexivity. Qed.
(** with deleted routes: a route typed twice is kept twice; when the routes before it are deleted
    the second copy is refused at the next start *)
Definition two_instances : list ev := [Typed true "instance a bind 0.0.0.0 tcp port 3002"; Typed true "instance b connect 10.0.0.1 tcp port 3003"].
Definition route11 := Typed true "route instance a streamid 01 instance b streamid 01".
Definition route22 := Typed true "route instance a streamid 0x2 instance b streamid 2".
Theorem C74_duplicate_refuted : exists s rs t s', vrun free_kern st0 (two_instances ++ [route11; route22; route22; Typed false "no ipa route instance a streamid 1 instance b streamid 1"]) = Some (s, rs) /\ Forall (fun r => r = Said Ok) rs /\
  write s = Some t /\ read free_kern t = Some (s', [" route instance a streamid 0x02 instance b streamid 0x02"]) /\ List.length (rconf s) = 2%nat /\ List.length (rconf s') = 1%nat.
Proof.
  eexists _, _, _, _. split; [vm_compute; reflexivity|]. split; [repeat constructor|]. split; [vm_compute; reflexivity|]. split; [vm_compute; reflexivity|]. split; vm_compute; reflexivity.
Qed.
(** and a route shown and written may not be in effect until the next start *)
Theorem C74_not_in_effect_refuted : exists s rs t s' s1 rs1, vrun free_kern st0 (two_instances ++ [route11; route22; route22; Typed false "no ipa route instance a streamid 2 instance b streamid 2"; Net (NAccept 2 true)]) = Some (s, rs) /\
  In (codes "a", 2, codes "b", 2) (rconf s) /\ sock_src_cb s 5 2 = Some Dropped /\ write s = Some t /\ read free_kern t = Some (s', []) /\ rconf s' = rconf s /\ vrun free_kern s' [Net (NAccept 2 true)] = Some (s1, rs1) /\ sock_src_cb s1 4 2 = Some (Forwarded 2).
Proof.
  eexists _, _, _, _, _, _. split; [vm_compute; reflexivity|]. split; [vm_compute; auto|]. split; [vm_compute; reflexivity|]. split; [vm_compute; reflexivity|]. split; [vm_compute; reflexivity|]. split; [vm_compute; reflexivity|]. split; [vm_compute; reflexivity|]. vm_compute; reflexivity.
Qed.
(** the case the theorems are about *)
Lemma free_kern_willing : willing free_kern.
Proof.
  intros ps p. unfold free_kern. rewrite negb_true_iff. split.
  - intros E I. assert (X : existsb (Z.eqb p) ps = true) by (apply existsb_exists; exists p; split; [easy|apply Z.eqb_refl]). congruence.
  - intros N. destruct (existsb (Z.eqb p) ps) eqn:E; [|easy]. apply existsb_exists in E as (q & Q & E). apply Z.eqb_eq in E. congruence.
Qed.
Lemma vrun_hist k P es : forall s s' rs, hist k P s -> vrun k s es = Some (s', rs) -> (forall e t, In e es -> P e t) -> hist k P s'.
Proof.
  induction es as [|e es IH]; intros s s' rs H E A; cbn [vrun] in E; [now injection E as <- <-|]. destruct (vstep k s e) as [[t x]|] eqn:S; [|discriminate E]. cbn [fst snd] in E. destruct (vrun k t es) as [[t1 xs]|] eqn:R; [|discriminate E]. injection E as <- <-.
  apply (IH t t1 xs); [|exact R|intros e0 t0 I; apply A; now right]. apply (hist1 k P s e t x H S). apply A. now left.
Qed.
Example C74_example : exists s rs t s', vrun free_kern st0 (two_instances ++ [route11; Typed false "ipa route instance a streamid fd instance b streamid 0xFE"; Net (NAccept 2 true)]) = Some (s, rs) /\
  hist free_kern (fun e s => no_deletion e s /\ short e s) s /\ write s = Some t /\ read free_kern t = Some (s', []) /\ rconf s' = rconf s /\ rconf s = [(codes "a", 1, codes "b", 1); (codes "a", 253, codes "b", 254)] /\ ports s' = [3002] /\
  conn_names s 4 = Some (codes "a", codes "b") /\ VtyModel.lines_of t = ["ipa"; " instance a bind 0.0.0.0 tcp port 3002"; " instance b connect 10.0.0.1 tcp port 3003"; " route instance a streamid 0x01 instance b streamid 0x01"; " route instance a streamid 0xfd instance b streamid 0xfe"].
Proof.
  eexists _, _, _, _. split; [vm_compute; reflexivity|]. split; [|split; [vm_compute; reflexivity|split; [vm_compute; reflexivity|split; [vm_compute; reflexivity|split; [vm_compute; reflexivity|split; [vm_compute; reflexivity|split; vm_compute; reflexivity]]]]]].
  eapply (vrun_hist free_kern _ (two_instances ++ [route11; Typed false "ipa route instance a streamid fd instance b streamid 0xFE"; Net (NAccept 2 true)]) st0); [constructor|vm_compute; reflexivity|].
  intros e u [<-|[<-|[<-|[<-|[<-|[]]]]]]; split; try exact Logic.I; vm_compute; try lia; intros (X & _); discriminate X.
Qed.
