(** C68: configuration through the VTY. *)
From Coq Require Import List Arith Lia Bool ZArith Ascii String.
From Verif Require Import Base VtyModel VtySpec VtyProofs.
Import ListNotations.
Open Scope string_scope.
Open Scope Z_scope.

Lemma do_lines e k : good_kern k -> forall ls s, Forall (good e) ls -> NoDup (map l_num (lines s ++ ls)) ->
  exists s' ls', do_all e k s (flat_map write_line ls) = Some s' /\ lines s' = (lines s ++ ls')%list /\ map conf ls' = map conf ls /\ same s s' /\ Forall (fun l => l_pcap l <> None -> l_fd l <> None) ls'.
Proof.
  intros KG. induction ls as [|l r IH]; intros s F N.
  - exists s, []. cbn. rewrite app_nil_r. easy.
  - cbn [flat_map]. rewrite do_app. assert (NI : ~ In (l_num l) (map l_num (lines s))).
    { rewrite map_app in N. cbn [map] in N. apply NoDup_remove_2 in N. intros I. apply N, in_or_app. now left. }
    destruct (do_line e k KG s l (Forall_inv F) NI) as (s1 & l1 & D & L & C & SM & FD). rewrite D.
    destruct (IH s1 (Forall_inv_tail F)) as (s2 & r' & D2 & L2 & C2 & SM2 & FD2).
    { rewrite L. rewrite !map_app in *. cbn [map] in *. assert (NE : l_num l1 = l_num l) by (unfold conf in C; now injection C). rewrite NE, <- app_assoc. exact N. }
    exists s2, (l1 :: r'). split; [easy|]. split; [rewrite L2, L, <- app_assoc; easy|]. split; [cbn [map]; now rewrite C, C2|]. split; [now apply (same_trans s s1)|]. now constructor.
Qed.
Lemma do_globals e k s0 s : ok e s0 -> bind s = None -> o_dscp s = 0 -> r_dscp s = 0 -> o_prio s = 0 -> r_prio s = 0 ->
  exists s', do_all e k s (write_globals s0) = Some s' /\ lines s' = lines s /\ globals s' = globals s0.
Proof.
  intros O B D1 D2 P1 P2. unfold write_globals.
  assert (X1 : exists s1, do_all e k s (if String.eqb (bound s0) "0.0.0.0" then [] else [["ipa"; "bind"; bound s0]]) = Some s1 /\ lines s1 = lines s /\ bound s1 = bound s0 /\ (o_dscp s1, r_dscp s1, o_prio s1, r_prio s1) = (0, 0, 0, 0)).
  { destruct (String.eqb_spec (bound s0) "0.0.0.0") as [E|E].
    - exists s. unfold bound at 1. rewrite B, E, D1, D2, P1, P2. easy.
    - unfold bound in *. destruct (bind s0) as [a|] eqn:BA; [|easy]. destruct (o_bind _ _ O a BA) as [_ V]. cbn [do_all]. unfold do_words, parse. seqb. unfold parse_ipa. seqb. rewrite V. cbn [andb exec]. eexists. split; [reflexivity|]. cbn. now rewrite D1, D2, P1, P2. }
  destruct X1 as (s1 & E1 & L1 & B1 & V1). injection V1 as V1 V2 V3 V4.
  assert (X2 : exists s2, do_all e k s1 (if o_dscp s0 =? 0 then [] else [["ipa"; "ip-dscp"; "oml"; num (o_dscp s0)]]) = Some s2 /\ lines s2 = lines s /\ bound s2 = bound s0 /\ (o_dscp s2, r_dscp s2, o_prio s2, r_prio s2) = (o_dscp s0, 0, 0, 0)).
  { destruct (Z.eqb_spec (o_dscp s0) 0) as [E|E]; [exists s1; now rewrite V1, V2, V3, V4, E|]. cbn [do_all]. unfold do_words, parse. seqb. unfold parse_ipa. seqb. change (which "oml") with (Some true). cbv iota. rewrite rng_num by (try lia; apply O). cbn [exec]. eexists. split; [reflexivity|]. cbn. now rewrite V2, V3, V4. }
  destruct X2 as (s2 & E2 & L2 & B2 & W2). injection W2 as W1 W2 W3 W4.
  assert (X3 : exists s3, do_all e k s2 (if r_dscp s0 =? 0 then [] else [["ipa"; "ip-dscp"; "rsl"; num (r_dscp s0)]]) = Some s3 /\ lines s3 = lines s /\ bound s3 = bound s0 /\ (o_dscp s3, r_dscp s3, o_prio s3, r_prio s3) = (o_dscp s0, r_dscp s0, 0, 0)).
  { destruct (Z.eqb_spec (r_dscp s0) 0) as [E|E]; [exists s2; now rewrite W1, W2, W3, W4, E|]. cbn [do_all]. unfold do_words, parse. seqb. unfold parse_ipa. seqb. change (which "rsl") with (Some false). cbv iota. rewrite rng_num by (try lia; apply O). cbn [exec]. eexists. split; [reflexivity|]. cbn. now rewrite W1, W3, W4. }
  destruct X3 as (s3 & E3 & L3 & B3 & U3). injection U3 as U1 U2 U3 U4.
  assert (X4 : exists s4, do_all e k s3 (if o_prio s0 =? 0 then [] else [["ipa"; "socket-priority"; "oml"; num (o_prio s0)]]) = Some s4 /\ lines s4 = lines s /\ bound s4 = bound s0 /\ (o_dscp s4, r_dscp s4, o_prio s4, r_prio s4) = (o_dscp s0, r_dscp s0, o_prio s0, 0)).
  { destruct (Z.eqb_spec (o_prio s0) 0) as [E|E]; [exists s3; now rewrite U1, U2, U3, U4, E|]. cbn [do_all]. unfold do_words, parse. seqb. unfold parse_ipa. seqb. change (which "oml") with (Some true). cbv iota. rewrite rng_num by (try lia; apply O). cbn [exec]. eexists. split; [reflexivity|]. cbn. now rewrite U1, U2, U4. }
  destruct X4 as (s4 & E4 & L4 & B4 & T4). injection T4 as T1 T2 T3 T4.
  assert (X5 : exists s5, do_all e k s4 (if r_prio s0 =? 0 then [] else [["ipa"; "socket-priority"; "rsl"; num (r_prio s0)]]) = Some s5 /\ lines s5 = lines s /\ bound s5 = bound s0 /\ (o_dscp s5, r_dscp s5, o_prio s5, r_prio s5) = (o_dscp s0, r_dscp s0, o_prio s0, r_prio s0)).
  { destruct (Z.eqb_spec (r_prio s0) 0) as [E|E]; [exists s4; now rewrite T1, T2, T3, T4, E|]. cbn [do_all]. unfold do_words, parse. seqb. unfold parse_ipa. seqb. change (which "rsl") with (Some false). cbv iota. rewrite rng_num by (try lia; apply O). cbn [exec]. eexists. split; [reflexivity|]. cbn. now rewrite T1, T2, T3. }
  destruct X5 as (s5 & E5 & L5 & B5 & S5). exists s5. rewrite !do_app, E1, do_app, E2, do_app, E3, do_app, E4, E5. split; [easy|]. split; [easy|]. unfold globals. rewrite B5. injection S5 as -> -> -> ->. reflexivity.
Qed.
Lemma kw w : (match w with EmptyString => false | _ => nospace w end) = true -> word w.
Proof. destruct w; [discriminate|]. intros H. split; [discriminate|easy]. Qed.
Lemma proper_line e l : good e l -> Forall proper (write_line l).
Proof.
  intros G. assert (NW : word (num (l_num l))) by (apply num_word, G). unfold write_line. repeat (apply Forall_app; split).
  - assert (DW : word (l_driver l)) by (pose proof (g_drv _ _ G) as D; cbn in D; repeat (destruct D as [<- | D]; [now apply kw|]); easy).
    constructor; [split; [easy|]; repeat (constructor; [first [exact NW|exact DW|now apply kw]|]); constructor|]. constructor; [|constructor]. split; [easy|]. repeat (constructor; [first [exact NW|apply num_word, G|now apply kw]|]); constructor.
  - destruct (l_name l) as [x|] eqn:X; [|constructor]. constructor; [|constructor]. split; [easy|]. repeat (constructor; [first [exact NW|now apply (g_name _ _ G)|now apply kw]|]); constructor.
  - destruct (l_tmo l =? 0); [constructor|]. constructor; [|constructor]. split; [easy|]. repeat (constructor; [first [exact NW|apply num_word, G|now apply kw]|]); constructor.
  - destruct (Z.eqb_spec (l_probes l) 0) as [P|P]; [constructor; [|constructor]; split; [easy|]; repeat (constructor; [first [exact NW|now apply kw]|]); constructor|]. destruct (_ || _) eqn:K; [|constructor]. constructor; [|constructor]. split; [easy|].
    destruct (g_ka _ _ G) as [(Q1 & Q2 & Q3)|[GK|GK]]; [rewrite Q1, Q2, Q3 in K; discriminate|exfalso; lia|]. repeat (constructor; [first [exact NW|apply num_word; lia|now apply kw]|]); constructor.
  - destruct (l_kap l) as [[a b]|] eqn:K; [|constructor]. destruct (g_kap _ _ G a b K) as (_ & A & B). constructor; [|constructor]. split; [easy|]. repeat (constructor; [first [exact NW|apply num_word; lia|now apply kw]|]); constructor.
  - destruct (l_pcap l) as [x|] eqn:X; [|constructor]. constructor; [|constructor]. split; [easy|]. repeat (constructor; [first [exact NW|now apply (g_pcap _ _ G)|now apply kw]|]); constructor.
Qed.
Lemma proper_globals e s : ok e s -> Forall proper (write_globals s).
Proof.
  intros O. unfold write_globals. repeat (apply Forall_app; split).
  - destruct (String.eqb_spec (bound s) "0.0.0.0") as [E|E]; [constructor|]. unfold bound in *. destruct (bind s) as [a|] eqn:B; [|easy]. constructor; [|constructor]. split; [easy|]. repeat (constructor; [first [apply (o_bind _ _ O a B)|now apply kw]|]); constructor.
  - destruct (_ =? 0); [constructor|]. constructor; [|constructor]. split; [easy|]. repeat (constructor; [first [apply num_word, O|now apply kw]|]); constructor.
  - destruct (_ =? 0); [constructor|]. constructor; [|constructor]. split; [easy|]. repeat (constructor; [first [apply num_word, O|now apply kw]|]); constructor.
  - destruct (_ =? 0); [constructor|]. constructor; [|constructor]. split; [easy|]. repeat (constructor; [first [apply num_word, O|now apply kw]|]); constructor.
  - destruct (_ =? 0); [constructor|]. constructor; [|constructor]. split; [easy|]. repeat (constructor; [first [apply num_word, O|now apply kw]|]); constructor.
Qed.
(** the text written depends on the configuration only *)
Lemma write_line_conf l l' : conf l = conf l' -> write_line l = write_line l'.
Proof. unfold conf. intros H. injection H as E1 E2 E3 E4 E5 E6 E7 E8 E9 E10. unfold write_line. now rewrite E1, E2, E3, E4, E5, E6, E7, E8, E9, E10. Qed.
Lemma write_lines_conf ls : forall ls', map conf ls = map conf ls' -> flat_map write_line ls = flat_map write_line ls'.
Proof. induction ls as [|l r IH]; intros [|l' r'] H; try discriminate; [easy|]. cbn [map] in H. cbn [flat_map]. assert (A : conf l = conf l') by congruence. assert (B : map conf r = map conf r') by congruence. now rewrite (write_line_conf _ _ A), (IH _ B). Qed.
Lemma write_globals_conf s s' : globals s = globals s' -> write_globals s = write_globals s'.
Proof. unfold globals. intros H. injection H as E1 E2 E3 E4 E5. unfold write_globals. now rewrite E1, E2, E3, E4, E5. Qed.

(** ** C68 *)
(** what is written is read back at the next start: the same lines in the same order with the
    same settings, and the same global settings; every line of it is accepted; written again
    it is the same text; recordings run again *)
Theorem C68_round_trip e k vs s k' : run e k st_init vs = Some s -> Forall configurable vs -> good_kern k' ->
  exists s', read e k' (write s) = Some s' /\ config s' = config s /\ (lines s <> [] -> globals s' = globals s) /\ write s' = write s /\ Forall (fun l => l_pcap l <> None -> l_fd l <> None) (lines s').
Proof.
  intros R C KG. pose proof (run_ok _ _ _ _ _ (init_ok e) C R) as O. unfold write at 1. destruct (lines s) as [|l0 r0] eqn:LS.
  - exists st_init. split; [reflexivity|]. unfold config. rewrite LS. split; [easy|]. split; [easy|]. split; [unfold write; now rewrite LS|constructor].
  - rewrite <- LS. destruct (do_lines e k' KG (lines s) st_init (o_lines _ _ O) (o_nodup _ _ O)) as (s1 & ls & D & L & CF & (S1 & S2 & S3 & S4 & S5) & FD). destruct (do_globals e k' s s1 O S1 S2 S3 S4 S5) as (s2 & D2 & L2 & G2).
    assert (P : Forall proper (flat_map write_line (lines s) ++ write_globals s)). { apply Forall_app. split; [|now apply (proper_globals e)]. apply Forall_flat_map. eapply Forall_impl; [|apply (o_lines _ _ O)]. intros l G. now apply (proper_line e). }
    exists s2. unfold read. match goal with |- context [String nl EmptyString ++ ?t] => change (String nl EmptyString ++ t) with (String nl t) end. rewrite (lines_cons "e1_input"); [|discriminate|reflexivity]. rewrite String.eqb_refl, lines_text, read_all, do_app, D, D2 by easy. cbn [st_init lines app] in L. assert (CF2 : map conf (lines s2) = map conf (lines s)) by (rewrite L2, L; exact CF). split; [easy|]. split; [exact CF2|]. split; [easy|]. split; [|rewrite L2, L; exact FD].
    unfold write. rewrite LS. destruct (lines s2) as [|l2 r2] eqn:LS2; [rewrite LS in CF2; discriminate|]. rewrite <- LS2, <- LS in *. now rewrite (write_lines_conf _ _ CF2), (write_globals_conf _ _ G2).
Qed.
(** the form of what is written: the node, then commands indented by one blank *)
Theorem C68_text e k vs s : run e k st_init vs = Some s -> Forall configurable vs -> lines s <> [] ->
  exists cs, lines_of (write s) = "e1_input" :: map (fun c => " " ++ c) cs /\ Forall (fun c => parse e (words c) <> None) cs.
Proof.
  intros R C N. pose proof (run_ok _ _ _ _ _ (init_ok e) C R) as O.
  set (k' := mkK (fun _ => true) (fun _ => true) (fun _ => true)). assert (KG : good_kern k') by easy.
  assert (P : Forall proper (flat_map write_line (lines s) ++ write_globals s)). { apply Forall_app. split; [|now apply (proper_globals e)]. apply Forall_flat_map. eapply Forall_impl; [|apply (o_lines _ _ O)]. intros l G. now apply (proper_line e). }
  exists (map (String.concat " ") (flat_map write_line (lines s) ++ write_globals s)%list). split.
  - unfold write. destruct (lines s) as [|l r] eqn:LS; [easy|]. match goal with |- context [String nl EmptyString ++ ?t] => change (String nl EmptyString ++ t) with (String nl t) end. rewrite (lines_cons "e1_input"); [|discriminate|reflexivity]. rewrite lines_text by easy. now rewrite map_map.
  - apply Forall_forall. intros c I. apply in_map_iff in I. destruct I as (ws & <- & I). rewrite words_join by (eapply Forall_forall in P; [apply P|exact I]).
    destruct (do_lines e k' KG (lines s) st_init (o_lines _ _ O) (o_nodup _ _ O)) as (s1 & ls & D & L & CF & (S1 & S2 & S3 & S4 & S5) & FD). destruct (do_globals e k' s s1 O S1 S2 S3 S4 S5) as (s2 & D2 & L2 & G2).
    assert (DA : do_all e k' st_init (flat_map write_line (lines s) ++ write_globals s) = Some s2) by now rewrite do_app, D, D2. revert DA I. generalize (flat_map write_line (lines s) ++ write_globals s)%list as l. generalize st_init. clear. intros s0 l. revert s0. induction l as [|x l IH]; intros s0 DA I; [easy|]. cbn [do_all] in DA. destruct (do_words e k' s0 x) as [s1|] eqn:W; [|discriminate]. destruct I as [<-|I]; [|now apply (IH s1)]. unfold do_words in W. now destruct (parse e x).
Qed.
(** a command refused changes nothing *)
Theorem C68_refused e k s v s' : step e k s v = Done s' false -> lines s' = lines s /\ globals s' = globals s /\ (exists f file, out s' = (out s ++ [POpen f file; PClose f])%list) \/ lines s' = lines s /\ globals s' = globals s /\ out s' = out s.
Proof.
  assert (X : forall c, exec e k s c = Done s' false -> lines s' = lines s /\ globals s' = globals s /\ (exists f file, out s' = (out s ++ [POpen f file; PClose f])%list) \/ lines s' = lines s /\ globals s' = globals s /\ out s' = out s).
  { intros c H. unfold exec, on, warn, set in H. destruct c as [n d|n p|n p|n x y z|n x y|n x|n t|n f|n|a|o v0|o v0].
    - destruct (find_line n s); [injection H as <-; now right|]. destruct (drv e d); [|injection H as <-; now right]. destruct (k_create k (tick s)); [discriminate|injection H as <-; now right].
    - destruct (find_line n s); [discriminate|injection H as <-; now right].
    - destruct (Nat.ltb _ _); [injection H as <-; now right|]. destruct (find_line n s); [discriminate|injection H as <-; now right].
    - destruct (find_line n s); [|injection H as <-; now right]. destruct (_ && _); [injection H as <-; now right|discriminate].
    - destruct (find_line n s); [|injection H as <-; now right]. destruct (negb _); [injection H as <-; now right|discriminate].
    - destruct (find_line n s); [discriminate|injection H as <-; now right].
    - destruct (find_line n s); [discriminate|injection H as <-; now right].
    - destruct (find_line n s); [|injection H as <-; now right]. destruct (negb (k_open k (tick s))); [injection H as <-; now right|]. cbv zeta in H. destruct (negb (k_write k _)); [|discriminate]. injection H as <-. left. split; [easy|]. split; [easy|]. exists (tick s), f. cbn [emit next out]. now rewrite <- app_assoc.
    - destruct (find_line n s); discriminate.
    - discriminate.
    - discriminate.
    - discriminate. }
  intros H. destruct v as [t|n d|n i ty]; cbn [step] in H; [|now apply (X (Driver n d))|].
  - unfold vty in H. destruct (parse e (words t)) as [c|]; [now apply (X c)|]. unfold warn in H. injection H as <-. now right.
  - unfold on, warn, set in H. destruct (find_line n s); [discriminate|]. injection H as <-. now right.
Qed.
(** a command changes no line but the one it names *)
Lemma find_upd n m f ls : n <> m -> (forall l, l_num (f l) = l_num l) -> find (fun l => l_num l =? n) (upd m f ls) = find (fun l => l_num l =? n) ls.
Proof.
  intros NE F. induction ls as [|l r IH]; [easy|]. cbn [upd]. destruct (Z.eqb_spec (l_num l) m) as [E|E]; cbn [find].
  - rewrite F. destruct (Z.eqb_spec (l_num l) n); [congruence|]. easy.
  - destruct (l_num l =? n); [easy|]. apply IH.
Qed.
Lemma find_upd_same n f ls : (forall l, l_num (f l) = l_num l) -> find (fun l => l_num l =? n) (upd n f ls) = option_map f (find (fun l => l_num l =? n) ls).
Proof. intros F. induction ls as [|l r IH]; [easy|]. cbn [upd]. destruct (Z.eqb_spec (l_num l) n) as [E|E]; cbn [find]; [rewrite F, (proj2 (Z.eqb_eq _ _) E); easy|]. rewrite (proj2 (Z.eqb_neq _ _) E). apply IH. Qed.
Lemma find_app_none {A} p (l : list A) x : p x = false -> find p (l ++ [x]) = find p l.
Proof. intros H. induction l as [|y l IH]; cbn; [now rewrite H|]. destruct (p y); [easy|]. apply IH. Qed.
Definition line_of (c : cmd) : option Z :=
  match c with Driver n _ | Port n _ | Socket n _ | Keep n _ _ _ | IpaKeep n _ _ | Name n _ | Timeout n _ | Pcap n _ | NoPcap n => Some n | _ => None end.
Lemma exec_other e k s c s' b n : exec e k s c = Done s' b -> line_of c <> Some n -> find_line n s' = find_line n s.
Proof.
  intros H L. unfold exec, on, warn, set in H. unfold find_line in *. destruct c as [m d|m p|m p|m x y z|m x y|m x|m t|m f|m|a|o v0|o v0]; cbn [line_of] in L; try (assert (NE : n <> m) by congruence).
  - destruct (find _ (lines s)); [injection H as <- _; easy|]. destruct (drv e d); [|injection H as <- _; easy]. destruct (k_create k (tick s)); injection H as <- _; [|easy]. cbn [next w_lines lines]. apply find_app_none. cbn. lia.
  - destruct (find _ (lines s)); injection H as <- _; [|easy]. now apply find_upd.
  - destruct (Nat.ltb _ _); [injection H as <- _; easy|]. destruct (find _ (lines s)); injection H as <- _; [|easy]. now apply find_upd.
  - destruct (find _ (lines s)); [|injection H as <- _; easy]. destruct (_ && _); injection H as <- _; [easy|]. now apply find_upd.
  - destruct (find _ (lines s)); [|injection H as <- _; easy]. destruct (negb _); injection H as <- _; [easy|]. now apply find_upd.
  - destruct (find _ (lines s)); injection H as <- _; [|easy]. now apply find_upd.
  - destruct (find _ (lines s)); injection H as <- _; [|easy]. now apply find_upd.
  - destruct (find _ (lines s)); [|injection H as <- _; easy]. destruct (negb (k_open k (tick s))); [injection H as <- _; easy|]. cbv zeta in H. destruct (negb (k_write k _)); injection H as <- _; [easy|]. cbn [w_lines lines emit next]. now apply find_upd.
  - destruct (find _ (lines s)); [|discriminate]. injection H as <- _. cbn [w_lines lines emit]. now apply find_upd.
  - injection H as <- _. easy.
  - injection H as <- _. now destruct o.
  - injection H as <- _. now destruct o.
Qed.
Lemma parse_about e t c n : parse e (words t) = Some c -> line_of c = Some n -> about t = Some n.
Proof.
  intros H L. unfold about. destruct (words t) as [|w ws]; [discriminate|]. cbn [parse] in H. destruct (String.eqb w "e1_line") eqn:E1.
  - destruct ws as [|x [|y args]]; [discriminate|discriminate|]. destruct (rng 0 255 x) as [m|]; [|discriminate]. unfold parse_line in H. brk H; injection H as <-; cbn in L; congruence.
  - destruct (String.eqb w "no") eqn:E2.
    + unfold parse_no in H. destruct ws as [|w1 [|x [|y [|z r]]]]; try discriminate. destruct (String.eqb w1 "e1_line"); [|discriminate]. cbn [andb]. destruct (rng 0 255 x) as [m|]; [|discriminate]. brk H; injection H as <-; cbn in L; congruence.
    + destruct (String.eqb w "ipa"); [|discriminate]. unfold parse_ipa in H. brk H; injection H as <-; discriminate.
Qed.
Theorem C68_others e k s t s' b n : step e k s (Typed t) = Done s' b -> about t <> Some n -> find_line n s' = find_line n s.
Proof.
  intros H A. cbn [step] in H. unfold vty in H. destruct (parse e (words t)) as [c|] eqn:P; [|unfold warn in H; now injection H as <- _]. eapply exec_other; [exact H|]. intros L. apply A. eapply parse_about; eauto.
Qed.
(** what the commands set *)
Definition has (s : st) (n : Z) (l : line) : Prop := find_line n s = Some l.
Theorem C68_sets e k s t s' : step e k s (Typed t) = Done s' true ->
  (forall n p, words t = ["e1_line"; num n; "port"; num p] -> 0 <= n <= 255 -> 0 <= p <= 255 -> exists l, has s n l /\ has s' n (w_port p l)) /\
  (forall n x r, words t = "e1_line" :: num n :: "name" :: x :: r -> 0 <= n <= 255 -> exists l, has s n l /\ has s' n (w_name x l)) /\
  (forall n x r, words t = "e1_line" :: num n :: "socket" :: x :: r -> 0 <= n <= 255 -> (String.length x <= 107)%nat /\ exists l, has s n l /\ has s' n (w_sock x l)) /\
  (forall n v, words t = ["e1_line"; num n; "connect-timeout"; num v] -> 0 <= n <= 255 -> 0 <= v <= 60 -> exists l, has s n l /\ has s' n (w_tmo v l)) /\
  (forall n, words t = ["e1_line"; num n; "keepalive"] -> 0 <= n <= 255 -> exists l, has s n l /\ drv e (l_driver l) = Some true /\ has s' n (w_ka (-1) (-1) (-1) l)) /\
  (forall n x y z, words t = ["e1_line"; num n; "keepalive"; num x; num y; num z] -> 0 <= n <= 255 -> 1 <= x <= 300 -> 1 <= y <= 20 -> 1 <= z <= 300 -> exists l, has s n l /\ drv e (l_driver l) = Some true /\ has s' n (w_ka x y z l)) /\
  (forall n, words t = ["no"; "e1_line"; num n; "keepalive"] -> 0 <= n <= 255 -> exists l, has s n l /\ has s' n (w_ka 0 0 0 l)) /\
  (forall n x y, words t = ["e1_line"; num n; "ipa-keepalive"; num x; num y] -> 0 <= n <= 255 -> 1 <= x <= 300 -> 1 <= y <= 300 -> exists l, has s n l /\ l_driver l = "ipa" /\ has s' n (w_kap (Some (x, y)) l)) /\
  (forall n, words t = ["no"; "e1_line"; num n; "ipa-keepalive"] -> 0 <= n <= 255 -> exists l, has s n l /\ l_driver l = "ipa" /\ has s' n (w_kap None l)) /\
  (forall n f r, words t = "e1_line" :: num n :: "pcap" :: f :: r -> 0 <= n <= 255 -> exists l x, has s n l /\ has s' n (w_pcap (Some f) (Some x) l)) /\
  (forall n, words t = ["no"; "e1_line"; num n; "pcap"] -> 0 <= n <= 255 -> exists l, has s n l /\ has s' n (w_pcap None None l)) /\
  (forall n d, words t = ["e1_line"; num n; "driver"; d] -> 0 <= n <= 255 -> find_line n s = None /\ In d documented /\ drv e d <> None /\ has s' n (new_line n d)).
Proof.
  intros H. cbn [step] in H. unfold vty in H.
  assert (ONE : forall n f s0 (B : lines s0 = lines s) (l : line), find_line n s = Some l -> set n s0 f = Done s' true -> (forall l, l_num (f l) = l_num l) -> exists l, has s n l /\ has s' n (f l)).
  { intros n f s0 B l F X N. unfold set in X. injection X as <-. exists l. split; [exact F|]. unfold has, find_line in *. cbn [w_lines lines]. rewrite B, find_upd_same by easy. now rewrite F. }
  repeat match goal with |- _ /\ _ => split end; intros n; intros.
  all: match goal with W : words _ = _ |- _ => rewrite W in H end; unfold parse, parse_no in H; cbv beta iota in H.
  all: repeat match type of H with context [String.eqb ?a ?b] => let v := eval vm_compute in (String.eqb a b) in match v with true => idtac | false => idtac end; change (String.eqb a b) with v in H; cbv iota in H end.
  all: rewrite rng_num in H by lia; unfold parse_line in H.
  all: repeat match type of H with context [String.eqb ?a ?b] => let v := eval vm_compute in (String.eqb a b) in match v with true => idtac | false => idtac end; change (String.eqb a b) with v in H; cbv iota in H end.
  all: repeat rewrite rng_num in H by lia; unfold exec, on, warn in H; cbv beta iota in H.
  1: destruct (find_line n s) as [l|] eqn:F; [|discriminate]; now apply (ONE n _ s eq_refl l).
  1: destruct (find_line n s) as [l|] eqn:F; [|discriminate]; now apply (ONE n _ s eq_refl l).
  1: { destruct (Nat.ltb_spec 107 (String.length x)) as [LT|LT]; [discriminate|]. split; [easy|]. destruct (find_line n s) as [l|] eqn:F; [|discriminate]; now apply (ONE n _ s eq_refl l). }
  1: destruct (find_line n s) as [l|] eqn:F; [|discriminate]; now apply (ONE n _ s eq_refl l).
  1: { destruct (find_line n s) as [l|] eqn:F; [|discriminate]. destruct (drv e (l_driver l)) as [[|]|] eqn:D; cbn [negb andb Z.eqb] in H; [|discriminate|discriminate]. destruct (ONE n _ s eq_refl l F H ltac:(easy)) as (l' & A & B). exists l'. split; [easy|]. split; [|easy]. unfold has in A. rewrite F in A. now injection A as <-. }
  1: { destruct (find_line n s) as [l|] eqn:F; [|discriminate]. rewrite (proj2 (Z.eqb_neq y 0)) in H by lia. destruct (drv e (l_driver l)) as [[|]|] eqn:D; cbn [negb andb Z.eqb] in H; [|discriminate|discriminate]. destruct (ONE n _ s eq_refl l F H ltac:(easy)) as (l' & A & B). exists l'. split; [easy|]. split; [|easy]. unfold has in A. rewrite F in A. now injection A as <-. }
  1: { destruct (find_line n s) as [l|] eqn:F; [|discriminate]. cbn [Z.eqb negb] in H. rewrite andb_false_r in H. now apply (ONE n _ s eq_refl l). }
  1: { destruct (find_line n s) as [l|] eqn:F; [|discriminate]. destruct (String.eqb_spec (l_driver l) "ipa") as [D|D]; cbn [negb] in H; [|discriminate]. rewrite (proj2 (Z.eqb_neq x 0)) in H by lia. destruct (ONE n _ s eq_refl l F H ltac:(easy)) as (l' & A & B). exists l'. split; [easy|]. split; [|easy]. unfold has in A. rewrite F in A. now injection A as <-. }
  1: { destruct (find_line n s) as [l|] eqn:F; [|discriminate]. destruct (String.eqb_spec (l_driver l) "ipa") as [D|D]; cbn [negb] in H; [|discriminate]. cbn [Z.eqb] in H. destruct (ONE n _ s eq_refl l F H ltac:(easy)) as (l' & A & B). exists l'. split; [easy|]. split; [|easy]. unfold has in A. rewrite F in A. now injection A as <-. }
  1: { destruct (find_line n s) as [l|] eqn:F; [|discriminate]. destruct (k_open k (tick s)); cbn [negb] in H; [|discriminate]. cbv zeta in H. destruct (k_write k _); cbn [negb] in H; [|discriminate]. match type of H with set _ ?s0 _ = _ => destruct (ONE n _ s0 eq_refl l F H ltac:(easy)) as (l' & A & B) end. now exists l', (tick s). }
  1: { destruct (find_line n s) as [l|] eqn:F; [|discriminate]. match type of H with set _ ?s0 _ = _ => now apply (ONE n _ s0 eq_refl l) end. }
  destruct (is_in d driver_names) eqn:I; [|discriminate]. destruct (find_line n s) as [l|] eqn:F; [discriminate|]. destruct (drv e d) eqn:D; [|discriminate]. destruct (k_create k (tick s)); [|discriminate]. injection H as <-. split; [easy|]. split; [now apply is_in_spec|]. split; [easy|]. unfold has, find_line in *. cbn [next w_lines lines]. revert F. generalize (lines s). intros ls F. induction ls as [|x ls IH]; cbn [app find new_line l_num]; [now rewrite Z.eqb_refl|]. cbn [find] in F. destruct (l_num x =? n); [discriminate|]. now apply IH.
Qed.
(** the global settings *)
Theorem C68_sets_global e k s t s' : step e k s (Typed t) = Done s' true -> match words t with
  | w :: _ => globals s' = globals s \/ w = "ipa" /\ lines s' = lines s /\ out s' = out s /\
    ((exists a, words t = ["ipa"; "bind"; a] /\ globals s' = (a, (o_dscp s, r_dscp s), (o_prio s, r_prio s))) \/
     (exists v, words t = ["ipa"; "ip-dscp"; "oml"; v] /\ exists z, rng 0 63 v = Some z /\ globals s' = (bound s, (z, r_dscp s), (o_prio s, r_prio s))) \/
     (exists v, words t = ["ipa"; "ip-dscp"; "rsl"; v] /\ exists z, rng 0 63 v = Some z /\ globals s' = (bound s, (o_dscp s, z), (o_prio s, r_prio s))) \/
     (exists v, words t = ["ipa"; "socket-priority"; "oml"; v] /\ exists z, rng 0 255 v = Some z /\ globals s' = (bound s, (o_dscp s, r_dscp s), (z, r_prio s))) \/
     (exists v, words t = ["ipa"; "socket-priority"; "rsl"; v] /\ exists z, rng 0 255 v = Some z /\ globals s' = (bound s, (o_dscp s, r_dscp s), (o_prio s, z))))
  | [] => False
  end.
Proof.
  intros H. cbn [step] in H. unfold vty in H. destruct (words t) as [|w r] eqn:W; [discriminate|]. cbn [parse] in H.
  assert (L : forall c, line_of c <> None -> exec e k s c = Done s' true -> globals s' = globals s).
  { intros c LN X. unfold exec, on, warn, set in X. destruct c as [m d|m p|m p|m x y z|m x y|m x|m t0|m f|m|a|o v0|o v0]; cbn [line_of] in LN; try easy.
    - destruct (find_line m s); [discriminate|]. destruct (drv e d); [|discriminate]. destruct (k_create k (tick s)); [|discriminate]. now injection X as <-.
    - destruct (find_line m s); [|discriminate]. now injection X as <-.
    - destruct (Nat.ltb _ _); [discriminate|]. destruct (find_line m s); [|discriminate]. now injection X as <-.
    - destruct (find_line m s); [|discriminate]. destruct (_ && _); [discriminate|]. now injection X as <-.
    - destruct (find_line m s); [|discriminate]. destruct (negb _); [discriminate|]. now injection X as <-.
    - destruct (find_line m s); [|discriminate]. now injection X as <-.
    - destruct (find_line m s); [|discriminate]. now injection X as <-.
    - destruct (find_line m s); [|discriminate]. destruct (negb (k_open k (tick s))); [discriminate|]. cbv zeta in X. destruct (negb (k_write k _)); [discriminate|]. now injection X as <-.
    - destruct (find_line m s); [|discriminate]. now injection X as <-. }
  destruct (String.eqb w "e1_line") eqn:E1.
  - left. destruct r as [|x [|y args]]; [discriminate|discriminate|]. destruct (rng 0 255 x) as [m|]; [|discriminate]. destruct (parse_line m y args) as [c|] eqn:P; [|discriminate]. apply (L c); [|easy]. unfold parse_line in P. brk P; now injection P as <-.
  - destruct (String.eqb w "no") eqn:E2.
    + left. destruct (parse_no r) as [c|] eqn:P; [|discriminate]. apply (L c); [|easy]. unfold parse_no in P. brk P; now injection P as <-.
    + destruct (String.eqb_spec w "ipa") as [->|]; [|discriminate]. right. split; [easy|]. destruct (parse_ipa e r) as [c|] eqn:P; [|discriminate]. unfold parse_ipa in P. destruct r as [|x [|y [|v [|v' r]]]]; try discriminate.
      * destruct (String.eqb_spec x "bind") as [->|]; [|discriminate]. destruct (ipv4 e y); [|discriminate]. injection P as <-. cbn [exec] in H. injection H as <-. split; [easy|]. split; [easy|]. left. now exists y.
      * destruct (String.eqb_spec x "ip-dscp") as [->|].
        -- unfold which in P. destruct (String.eqb_spec y "oml") as [->|]; [|destruct (String.eqb_spec y "rsl") as [->|]; [|discriminate]]; (destruct (rng 0 63 v) as [z|] eqn:RG; [|discriminate]); injection P as <-; cbn [exec] in H; injection H as <-; (split; [easy|]); (split; [easy|]); right; [left|right; left]; exists v; (split; [easy|]); now exists z.
        -- destruct (String.eqb_spec x "socket-priority") as [->|]; [|discriminate]. unfold which in P. destruct (String.eqb_spec y "oml") as [->|]; [|destruct (String.eqb_spec y "rsl") as [->|]; [|discriminate]]; (destruct (rng 0 255 v) as [z|] eqn:RG; [|discriminate]); injection P as <-; cbn [exec] in H; injection H as <-; (split; [easy|]); (split; [easy|]); right; right; right; [left|right]; exists v; (split; [easy|]); now exists z.
Qed.
(** the program crashes on one command only: stopping the recording of a line that does not
    exist *)
Theorem C68_crash e k s v : step e k s v = Crash <-> exists t n, v = Typed t /\ parse e (words t) = Some (NoPcap n) /\ find_line n s = None.
Proof.
  split.
  - intros H. destruct v as [t|n d|n i ty]; cbn [step] in H.
    + unfold vty in H. destruct (parse e (words t)) as [c|] eqn:P; [|discriminate]. unfold exec, on, warn, set in H. destruct c as [m d|m p|m p|m x y z|m x y|m x|m t0|m f|m|a|o v0|o v0]; try discriminate.
      * destruct (find_line m s); [discriminate|]. destruct (drv e d); [|discriminate]. destruct (k_create k (tick s)); discriminate.
      * destruct (find_line m s); discriminate.
      * destruct (Nat.ltb _ _); [discriminate|]. destruct (find_line m s); discriminate.
      * destruct (find_line m s); [|discriminate]. destruct (_ && _); discriminate.
      * destruct (find_line m s); [|discriminate]. destruct (negb _); discriminate.
      * destruct (find_line m s); discriminate.
      * destruct (find_line m s); discriminate.
      * destruct (find_line m s); [|discriminate]. destruct (negb (k_open k (tick s))); [discriminate|]. cbv zeta in H. destruct (negb (k_write k _)); discriminate.
      * destruct (find_line m s) eqn:F; [discriminate|]. now exists t, m.
    + cbn [exec] in H. unfold warn in H. destruct (find_line n s); [discriminate|]. destruct (drv e d); [|discriminate]. destruct (k_create k (tick s)); discriminate.
    + unfold on, warn, set in H. destruct (find_line n s); discriminate.
  - intros (t & n & -> & P & F). cbn [step]. unfold vty. rewrite P. cbn [exec]. now rewrite F.
Qed.
Theorem C68_no_pcap_refuted e k s n : 0 <= n <= 255 -> find_line n s = None -> step e k s (Typed (String.concat " " ["no"; "e1_line"; num n; "pcap"])) = Crash.
Proof.
  intros N F. apply C68_crash. eexists _, n. split; [reflexivity|]. split; [|easy]. rewrite words_join; [|repeat (constructor; [first [apply num_word; lia|now apply kw]|]); constructor]. unfold parse. seqb. unfold parse_no. seqb. rewrite rng_num by lia. reflexivity.
Qed.
(** the other commands on a line that does not exist are refused *)
Theorem C68_unknown e k s t n : about t = Some n -> find_line n s = None -> (exists s' , step e k s (Typed t) = Done s' false /\ s' = s) \/ step e k s (Typed t) = Crash \/ exists d, words t = ["e1_line"; nth 1 (words t) ""; "driver"; d].
Proof.
  intros A F. cbn [step]. unfold vty. destruct (parse e (words t)) as [c|] eqn:P; [|left; now exists s].
  destruct (line_of c) as [m|] eqn:L.
  - pose proof (parse_about e t c m P L) as A2. assert (m = n) by congruence. subst m. unfold exec, on, warn. destruct c as [m d|m p|m p|m x y z|m x y|m x|m t0|m f|m|a|o v0|o v0]; try discriminate; cbn [line_of] in L; injection L as ->; rewrite ?F; try (left; now exists s); [| |right; now left].
    + right. right. destruct (words t) as [|w ws]; [discriminate|]. cbn [parse] in P. destruct (String.eqb_spec w "e1_line") as [->|E1].
      * destruct ws as [|x [|y args]]; [discriminate|discriminate|]. destruct (rng 0 255 x) as [m|]; [|discriminate]. unfold parse_line in P. destruct (String.eqb_spec y "driver") as [->|ND]; [|exfalso; brk P; discriminate]. destruct args as [|d' [|? ?]]; try discriminate. now exists d'.
      * exfalso. unfold parse_no, parse_ipa in P. brk P; discriminate.
    + destruct (Nat.ltb _ _); left; now exists s.
  - exfalso. unfold about in A. destruct (words t) as [|w ws]; [discriminate|]. cbn [parse] in P. destruct (String.eqb w "e1_line") eqn:E1.
    + destruct ws as [|x [|y args]]; [discriminate|discriminate|]. destruct (rng 0 255 x); [|discriminate]. unfold parse_line in P. brk P; injection P as <-; discriminate.
    + destruct (String.eqb_spec w "no") as [->|E2]; [unfold parse_no in P; brk P; injection P as <-; discriminate|]. destruct ws; [discriminate|]. discriminate.
Qed.
(** descriptors of recordings: opened once, closed once, one per line, open just while the line is
    recorded *)
Definition fds (ls : list line) : list nat := flat_map (fun l => match l_fd l with Some f => [f] | None => [] end) ls.
Record Fd (s : st) : Prop := {
  f_alive : exists fs, alive [] (out s) = Some fs /\ forall f, In f fs <-> In f (fds (lines s));
  f_one : NoDup (fds (lines s)); f_new : Forall (fun f => (f < tick s)%nat) (fds (lines s));
  f_name : Forall (fun l => l_pcap l <> None <-> l_fd l <> None) (lines s)
}.
Lemma alive_app a b : forall fs, alive fs (a ++ b) = match alive fs a with Some fs => alive fs b | None => None end.
Proof. induction a as [|x a IH]; intros fs; [easy|]. cbn [app alive]. destruct x; destruct (existsb _ fs); auto. Qed.
Lemma existsb_in f fs : existsb (Nat.eqb f) fs = true <-> In f fs.
Proof. rewrite existsb_exists. split; [intros (x & I & E); apply Nat.eqb_eq in E; now subst|intros I; exists f; split; [easy|apply Nat.eqb_refl]]. Qed.
Lemma existsb_notin f fs : ~ In f fs -> existsb (Nat.eqb f) fs = false.
Proof. intros N. destruct (existsb _ fs) eqn:E; [|easy]. now apply existsb_in in E. Qed.
Lemma fds_upd n f ls : (forall l, l_fd (f l) = l_fd l) -> fds (upd n f ls) = fds ls.
Proof. intros H. induction ls as [|l r IH]; [easy|]. cbn [upd]. destruct (l_num l =? n); unfold fds in *; cbn [flat_map]; [now rewrite H|now rewrite IH]. Qed.
Lemma fd_keep s s' n f : Fd s -> lines s' = upd n f (lines s) -> (forall l, l_fd (f l) = l_fd l /\ l_pcap (f l) = l_pcap l) -> out s' = out s -> tick s' = tick s -> Fd s'.
Proof.
  intros [A B C D] L K O T. constructor; rewrite ?L, ?O, ?T, ?fds_upd; try easy; try (intros; apply K). apply upd_forall; [easy|]. intros l _. destruct (K l) as [-> ->]. easy.
Qed.
(** the line whose descriptor changes *)
Lemma fds_split n ls l : find (fun l => l_num l =? n) ls = Some l -> exists a b, ls = (a ++ l :: b)%list /\ forall f, upd n f ls = (a ++ f l :: b)%list.
Proof.
  induction ls as [|x r IH]; intros H; [discriminate|]. cbn [find] in H. cbn [upd]. destruct (l_num x =? n); [injection H as <-; now exists [], r|]. destruct (IH H) as (a & b & -> & U). exists (x :: a), b. split; [easy|]. intros f. now rewrite U.
Qed.
Lemma fds_app a b : fds (a ++ b) = (fds a ++ fds b)%list. Proof. unfold fds. apply flat_map_app. Qed.
Lemma NoDup_mid {A} (a b : list A) x y : NoDup (a ++ x ++ b) -> ~ In y (a ++ x ++ b) -> NoDup (a ++ y :: b).
Proof.
  induction a as [|z a IH]; intros N I.
  - cbn [app] in *. constructor; [intros X; apply I, in_or_app; now right|]. induction x as [|w x IHx]; [easy|]. apply IHx; [now inversion N|]. intros X. apply I. now right.
  - cbn [app] in *. inversion N as [|? ? N1 N2]. subst. constructor; [|apply IH; [easy|intros X; apply I; now right]]. intros X. apply in_app_or in X. destruct X as [X|[X|X]]; [apply N1, in_or_app; now left|subst; apply I; now left|apply N1, in_or_app; right; apply in_or_app; now right].
Qed.
Lemma NoDup_drop {A} (a b x : list A) : NoDup (a ++ x ++ b) -> NoDup (a ++ b).
Proof.
  induction a as [|z a IH]; cbn [app]; intros N.
  - induction x as [|w x IHx]; [easy|]. apply IHx. now inversion N.
  - inversion N as [|? ? N1 N2]. subst. constructor; [|now apply IH]. intros X. apply N1. apply in_app_or in X. apply in_or_app. destruct X; [now left|right; apply in_or_app; now right].
Qed.
Lemma one_notin (a b : list nat) x : NoDup (a ++ [x] ++ b) -> ~ In x (a ++ b).
Proof. intros N. apply (NoDup_remove_2 a b x) in N. exact N. Qed.
Lemma exec_fd e k s c s' b : Fd s -> exec e k s c = Done s' b -> Fd s'.
Proof.
  intros I H. unfold exec, on, warn, set in H. destruct c as [n d|n p|n p|n x y z|n x y|n x|n t|n f|n|a|o v|o v].
  - destruct (find_line n s); [injection H as <- _; easy|]. destruct (drv e d); [|injection H as <- _; easy]. destruct I as [A B C D]. destruct (k_create k (tick s)); injection H as <- _; constructor; cbn [next w_lines lines out tick]; try easy.
    + rewrite fds_app. cbn. now rewrite app_nil_r.
    + rewrite fds_app. cbn. now rewrite app_nil_r.
    + rewrite fds_app. cbn. rewrite app_nil_r. eapply Forall_impl; [|exact C]. cbn. lia.
    + apply Forall_app. split; [easy|]. constructor; [easy|constructor].
    + eapply Forall_impl; [|exact C]. cbn. lia.
  - destruct (find_line n s); injection H as <- _; [|easy]. now apply (fd_keep s _ n (w_port p)).
  - destruct (Nat.ltb _ _); [injection H as <- _; easy|]. destruct (find_line n s); injection H as <- _; [|easy]. now apply (fd_keep s _ n (w_sock p)).
  - destruct (find_line n s); [|injection H as <- _; easy]. destruct (_ && _); injection H as <- _; [easy|]. now apply (fd_keep s _ n (w_ka x y z)).
  - destruct (find_line n s); [|injection H as <- _; easy]. destruct (negb _); injection H as <- _; [easy|]. now apply (fd_keep s _ n (w_kap (if x =? 0 then None else Some (x, y)))).
  - destruct (find_line n s); injection H as <- _; [|easy]. now apply (fd_keep s _ n (w_name x)).
  - destruct (find_line n s); injection H as <- _; [|easy]. now apply (fd_keep s _ n (w_tmo t)).
  - destruct (find_line n s) as [l|] eqn:F; [|injection H as <- _; easy]. destruct I as [(fs & A1 & A2) B C D].
    destruct (k_open k (tick s)); cbn [negb] in H; [|injection H as <- _; constructor; cbn [next lines out tick]; eauto; eapply Forall_impl; [|exact C]; cbn; lia].
    assert (NT : ~ In (tick s) (fds (lines s))) by (intros X; eapply Forall_forall in C; [|exact X]; cbn in C; lia). assert (NF : ~ In (tick s) fs) by (rewrite A2; easy).
    cbv zeta in H. destruct (k_write k _); cbn [negb] in H.
    + injection H as <- _. destruct (fds_split _ _ _ F) as (a & b' & E & U). unfold find_line in F. constructor; cbn [w_lines emit next lines out tick]; rewrite ?U.
      * rewrite !alive_app, A1. cbn [alive]. rewrite (existsb_notin _ _ NF). cbn [alive existsb]. rewrite Nat.eqb_refl. cbn [orb].
        destruct (l_fd l) as [f0|] eqn:LF; cbn [closing alive].
        -- assert (IF : In f0 fs) by (rewrite A2, E, fds_app; apply in_or_app; right; unfold fds; cbn [flat_map]; rewrite LF; now left). assert (NE : f0 <> tick s) by (intros ->; easy). rewrite (proj2 (existsb_in f0 (tick s :: fs))) by now right. eexists. split; [reflexivity|]. intros g. rewrite filter_In. rewrite fds_app. unfold fds at 2. cbn [flat_map w_pcap l_fd app]. fold (fds b').
           rewrite E, fds_app in A2, B. unfold fds in A2 at 2. unfold fds in B at 2. cbn [flat_map] in A2, B. rewrite LF in A2, B. fold (fds b') in A2, B. apply one_notin in B. cbn [In]. rewrite A2. rewrite !in_app_iff in *. cbn [In app] in *. rewrite negb_true_iff, Nat.eqb_neq. split.
           ++ intros [X Y]. assert (f0 = g -> False) by congruence. tauto.
           ++ intros [X|[X|X]]; split; try tauto; intros ->; try tauto. congruence.
        -- eexists. split; [reflexivity|]. intros g. rewrite fds_app. unfold fds at 2. cbn [flat_map w_pcap l_fd app]. fold (fds b'). rewrite E, fds_app in A2. unfold fds in A2 at 2. cbn [flat_map] in A2. rewrite LF in A2. fold (fds b') in A2. cbn [In app] in *. rewrite A2, !in_app_iff. cbn [In]. tauto.
      * rewrite fds_app. unfold fds at 2. cbn [flat_map w_pcap l_fd app]. fold (fds b'). rewrite E, fds_app in B, NT. unfold fds in B at 2. unfold fds in NT at 2. cbn [flat_map] in B, NT. fold (fds b') in B, NT. now apply (NoDup_mid _ _ (match l_fd l with Some f0 => [f0] | None => [] end)).
      * rewrite E, fds_app in C. unfold fds in C at 2. cbn [flat_map] in C. fold (fds b') in C. apply Forall_app in C. destruct C as [C1 C2]. apply Forall_app in C2. destruct C2 as [_ C2]. rewrite fds_app. unfold fds at 2. cbn [flat_map w_pcap l_fd app]. fold (fds b'). apply Forall_app. split; [eapply Forall_impl; [|exact C1]; cbn; lia|]. constructor; [lia|]. eapply Forall_impl; [|exact C2]. cbn. lia.
      * rewrite E in D. apply Forall_app in D. destruct D as [D1 D2]. apply Forall_app. split; [easy|]. constructor; [easy|exact (Forall_inv_tail D2)].
    + injection H as <- _. constructor; cbn [emit next lines out tick]; try easy.
      * exists fs. split; [|easy]. rewrite !alive_app, A1. cbn [alive]. rewrite (existsb_notin _ _ NF). cbn [alive existsb]. rewrite Nat.eqb_refl. cbn [orb filter]. rewrite Nat.eqb_refl. cbn [negb]. f_equal. clear - NF. induction fs as [|g fs IH]; [easy|]. cbn [filter]. destruct (Nat.eqb_spec g (tick s)) as [->|]; [elim NF; now left|]. cbn [negb]. f_equal. apply IH. intros X. apply NF. now right.
      * eapply Forall_impl; [|exact C]. cbn. lia.
  - destruct (find_line n s) as [l|] eqn:F; [|discriminate]. destruct I as [(fs & A1 & A2) B C D]. injection H as <- _. destruct (fds_split _ _ _ F) as (a & b' & E & U).
    assert (FD' : fds (a ++ w_pcap None None l :: b') = (fds a ++ fds b')%list) by (rewrite fds_app; reflexivity). constructor; cbn [w_lines emit next lines out tick]; rewrite ?U, ?FD'.
    + rewrite alive_app, A1. destruct (l_fd l) as [f0|] eqn:LF; cbn [closing alive].
      * assert (IF : In f0 fs) by (rewrite A2, E, fds_app; apply in_or_app; right; unfold fds; cbn [flat_map]; rewrite LF; now left). rewrite (proj2 (existsb_in f0 fs) IF). eexists. split; [reflexivity|]. intros g. rewrite filter_In. rewrite E, fds_app in A2, B. unfold fds in A2 at 2. unfold fds in B at 2. cbn [flat_map] in A2, B. rewrite LF in A2, B. fold (fds b') in A2, B. apply one_notin in B. rewrite A2. rewrite !in_app_iff in *. cbn [In app] in *. rewrite negb_true_iff, Nat.eqb_neq. split.
        -- intros [X Y]. assert (f0 = g -> False) by congruence. tauto.
        -- intros [X|X]; split; try tauto; intros ->; tauto.
      * eexists. split; [reflexivity|]. intros g. rewrite A2, E, fds_app. unfold fds at 2. cbn [flat_map]. rewrite LF. fold (fds b'). easy.
    + rewrite E, fds_app in B. unfold fds in B at 2. cbn [flat_map] in B. fold (fds b') in B. now apply NoDup_drop in B.
    + rewrite E, fds_app in C. unfold fds in C at 2. cbn [flat_map] in C. fold (fds b') in C. apply Forall_app in C. destruct C as [C1 C2]. apply Forall_app in C2. apply Forall_app. easy.
    + rewrite E in D. apply Forall_app in D. destruct D as [D1 D2]. apply Forall_app. split; [easy|]. constructor; [easy|exact (Forall_inv_tail D2)].
  - injection H as <- _. now destruct I; constructor.
  - injection H as <- _. destruct o, I; now constructor.
  - injection H as <- _. destruct o, I; now constructor.
Qed.
Lemma step_fd e k s v s' b : Fd s -> step e k s v = Done s' b -> Fd s'.
Proof.
  intros I H. destruct v as [t|n d|n i ty]; cbn [step] in H.
  - unfold vty in H. destruct (parse e (words t)); [now apply exec_fd in H|]. unfold warn in H. now injection H as <- _.
  - now apply exec_fd in H.
  - unfold on, warn, set in H. destruct (find_line n s); injection H as <- _; [|easy]. now apply (fd_keep s _ n (fun l => w_ts (set_nth i ty (l_ts l)) l)).
Qed.
Lemma run_fd e k vs : forall s s', Fd s -> run e k s vs = Some s' -> Fd s'.
Proof. induction vs as [|v r IH]; intros s s' I H; cbn [run] in H; [now injection H as <-|]. destruct (step e k s v) as [s1 b|] eqn:E; [|discriminate]. apply (IH s1 s'); [|easy]. now apply (step_fd e k s v s1 b). Qed.
Theorem C68_files e k vs s : run e k st_init vs = Some s -> exists fs, alive [] (out s) = Some fs /\ (forall f, In f fs <-> exists l, In l (lines s) /\ l_fd l = Some f) /\
  (forall l, In l (lines s) -> l_pcap l <> None <-> l_fd l <> None) /\ (forall a l b l' c f, lines s = (a ++ l :: b ++ l' :: c)%list -> l_fd l = Some f -> l_fd l' <> Some f).
Proof.
  intros R. assert (I0 : Fd st_init) by (constructor; cbn; [exists []; easy|constructor|constructor|constructor]). apply run_fd in R; [|exact I0]. destruct R as [(fs & A1 & A2) B C D]. exists fs. split; [easy|]. split; [|split].
  - intros f. rewrite A2. unfold fds. rewrite in_flat_map. split; intros (l & I & X); exists l; (split; [easy|]); destruct (l_fd l); cbn in *; try easy; [destruct X as [<-|X]; easy|injection X as <-; now left].
  - intros l I. now apply (proj1 (Forall_forall _ _) D).
  - intros a l b l' c f E X Y. rewrite E, fds_app in B. unfold fds in B at 2. cbn [flat_map] in B. rewrite X in B. change (flat_map _ (b ++ l' :: c)) with (fds (b ++ l' :: c)) in B. rewrite fds_app in B. unfold fds in B at 3. cbn [flat_map] in B. rewrite Y in B. apply one_notin in B. apply B, in_or_app. right. apply in_or_app. right. now left.
Qed.
(** line numbers are used once *)
Theorem C68_numbers e k vs s : run e k st_init vs = Some s -> Forall configurable vs -> NoDup (map l_num (lines s)) /\ Forall (fun l => 0 <= l_num l <= 255) (lines s).
Proof. intros R C. pose proof (run_ok _ _ _ _ _ (init_ok e) C R) as O. split; [apply O|]. eapply Forall_impl; [|apply (o_lines _ _ O)]. intros l G. apply G. Qed.
(** timeslots shown are those in use *)
Lemma show_from_in n ts : forall i j m ty, In (j, m, ty) (show_from i n ts) <-> m = n /\ ty <> 0%nat /\ (i <= j)%nat /\ nth_error ts (j - i) = Some ty.
Proof.
  induction ts as [|t r IH]; intros i j m ty; cbn [show_from].
  - split; [easy|]. intros (_ & _ & _ & H). now destruct (j - i)%nat.
  - rewrite in_app_iff, IH. split.
    + intros [H|(H1 & H2 & H3 & H4)].
      * destruct (Nat.eqb_spec t 0) as [E|E]; [easy|]. destruct H as [H|[]]. injection H as <- <- <-. rewrite Nat.sub_diag. easy.
      * split; [easy|]. split; [easy|]. split; [lia|]. replace (j - i)%nat with (S (j - S i)) by lia. exact H4.
    + intros (H1 & H2 & H3 & H4). destruct (Nat.eq_dec i j) as [->|NE].
      * left. rewrite Nat.sub_diag in H4. cbn in H4. injection H4 as ->. destruct (Nat.eqb_spec ty 0); [easy|]. left. now subst.
      * right. split; [easy|]. split; [easy|]. split; [lia|]. replace (j - i)%nat with (S (j - S i)) in H4 by lia. exact H4.
Qed.
Theorem C68_show s n i : (forall j m ty, In (j, m, ty) (fst (show_ts n i s)) -> exists l, In l (lines s) /\ l_num l = m /\ nth_error (l_ts l) j = Some ty /\ ty <> 0%nat) /\
  (forall l j ty, find_line (l_num l) s = Some l -> (n = None \/ n = Some (l_num l) /\ (i = None \/ i = Some j)) -> nth_error (l_ts l) j = Some ty -> ty <> 0%nat -> In (j, l_num l, ty) (fst (show_ts n i s)) /\ snd (show_ts n i s) = true) /\
  (snd (show_ts n i s) = false <-> exists m, n = Some m /\ (find_line m s = None \/ exists l j, find_line m s = Some l /\ i = Some j /\ (List.length (l_ts l) <= j)%nat)).
Proof.
  unfold show_ts. split; [|split].
  - intros j m ty H. destruct n as [n|].
    + destruct (find_line n s) as [l|] eqn:F; [|easy]. apply find_in in F. exists l. split; [easy|]. destruct i as [i|].
      * destruct (nth_error (l_ts l) i) as [t|] eqn:E; [|easy]. cbn [fst] in H. apply show_from_in in H. destruct H as (-> & NZ & LE & H). split; [easy|]. assert (j = i) as -> by (destruct (j - i)%nat as [|q] eqn:Q; [lia|]; cbn in H; now destruct q). rewrite Nat.sub_diag in H. cbn in H. injection H as ->. easy.
      * cbn [fst] in H. apply show_from_in in H. destruct H as (-> & NZ & LE & H). rewrite Nat.sub_0_r in H. easy.
    + cbn [fst] in H. apply in_flat_map in H. destruct H as (l & I & H). apply show_from_in in H. destruct H as (-> & NZ & LE & H). rewrite Nat.sub_0_r in H. now exists l.
  - intros l j ty F N E NZ. destruct N as [->|[-> N]].
    + cbn [fst snd]. split; [|easy]. apply in_flat_map. exists l. split; [now apply find_in in F|]. apply show_from_in. rewrite Nat.sub_0_r. repeat split; try easy. lia.
    + rewrite F. destruct N as [->| ->]; cbn [fst snd].
      * split; [|easy]. apply show_from_in. rewrite Nat.sub_0_r. repeat split; try easy. lia.
      * rewrite E. cbn [fst snd]. split; [|easy]. apply show_from_in. rewrite Nat.sub_diag. repeat split; easy.
  - split; [|intros (m & -> & [F|(l & j & F & -> & L)]); rewrite F; [easy|]; apply nth_error_None in L; now rewrite L].
    destruct n as [m|]; [|discriminate]. intros H. exists m. split; [easy|]. destruct (find_line m s) as [l|]; [|now left]. right. destruct i as [i|]; [|discriminate]. exists l, i. split; [easy|]. split; [easy|]. destruct (nth_error (l_ts l) i) eqn:E; [discriminate|]. now apply nth_error_None.
Qed.
(** *** not what one would expect *)
Definition e0 : env := mkE (fun d => if String.eqb d "ipa" then Some true else if is_in d ("rs232" :: driver_names) then Some false else None) (fun a => is_in a ["0.0.0.0"; "10.1.2.3"]).
Definition k0 : kern := mkK (fun _ => true) (fun _ => true) (fun _ => true).
(** the socket path is not written: whatever it is, it is gone at the next start *)
Theorem C68_socket_refuted s n p : write match set n s (w_sock p) with Done s' _ => s' | Crash => s end = write s.
Proof.
  unfold set. assert (X : forall ls, flat_map write_line (upd n (w_sock p) ls) = flat_map write_line ls /\ (upd n (w_sock p) ls = [] <-> ls = [])).
  { induction ls as [|l r [IH1 IH2]]; [easy|]. cbn [upd]. destruct (l_num l =? n); cbn [flat_map]; [split; [reflexivity|easy]|]. now rewrite IH1. }
  unfold write. cbn [w_lines lines]. destruct (X (lines s)) as [X1 X2]. destruct (upd n (w_sock p) (lines s)) as [|l r] eqn:U.
  - now rewrite (proj1 X2 eq_refl).
  - destruct (lines s) as [|l' r'] eqn:L; [now rewrite (proj2 X2 eq_refl) in U|]. rewrite X1. reflexivity.
Qed.
(** without lines the global settings are not written *)
Theorem C68_globals_refuted : exists s, run e0 k0 st_init [Typed "ipa bind 10.1.2.3"; Typed "ipa ip-dscp oml 46"] = Some s /\ globals s = ("10.1.2.3", (46, 0), (0, 0)) /\ write s = "".
Proof. eexists. split; [vm_compute; reflexivity|]. split; reflexivity. Qed.
(** a name of two words is cut after the first *)
Theorem C68_name_refuted : exists s, run e0 k0 st_init [Typed "e1_line 3 driver dahdi"; Typed "e1_line 3 name north site"] = Some s /\ map l_name (lines s) = [Some "north"].
Proof. eexists. split; [vm_compute; reflexivity|]. reflexivity. Qed.
(** a line with a driver the VTY does not know is written but cannot be read *)
Theorem C68_rs232_refuted : exists s, run e0 k0 st_init [Create 0 "rs232"] = Some s /\ read e0 k0 (write s) = None.
Proof. eexists. split; [vm_compute; reflexivity|]. vm_compute. reflexivity. Qed.
(** the sockets get the DSCP configured as their priority and the priority as their DSCP *)
Theorem C68_dscp_refuted e k s s1 s2 o v w t1 t2 : let link := if o : bool then "oml" else "rsl" in
  step e k s (Typed t1) = Done s1 true -> step e k s1 (Typed t2) = Done s2 true -> words t1 = ["ipa"; "ip-dscp"; link; num v] -> words t2 = ["ipa"; "socket-priority"; link; num w] -> 0 <= v <= 63 -> 0 <= w <= 255 -> socket_options o s2 = (v, w).
Proof.
  intros link H1 H2 W1 W2 V W. cbn [step] in H1, H2. unfold vty in H1, H2. rewrite W1 in H1. rewrite W2 in H2. unfold parse, parse_ipa in H1, H2. cbv beta iota in H1, H2.
  repeat match type of H1 with context [String.eqb ?a ?b] => let v := eval vm_compute in (String.eqb a b) in match v with true => idtac | false => idtac end; change (String.eqb a b) with v in H1; cbv iota in H1 end.
  repeat match type of H2 with context [String.eqb ?a ?b] => let v := eval vm_compute in (String.eqb a b) in match v with true => idtac | false => idtac end; change (String.eqb a b) with v in H2; cbv iota in H2 end.
  assert (X : which link = Some o) by (destruct o; reflexivity). rewrite X in H1, H2. cbv iota in H1, H2. rewrite rng_num in H1 by lia. rewrite rng_num in H2 by lia. cbn [exec] in H1, H2. injection H1 as <-. injection H2 as <-. destruct o; reflexivity.
Qed.
(** show e1_line: without a number all lines in their order, with one that line or an error *)
Theorem C68_show_lines s : show_lines None s = (map l_num (lines s), true) /\
  (forall n, In n (map l_num (lines s)) -> show_lines (Some n) s = ([n], true)) /\ (forall n, ~ In n (map l_num (lines s)) -> show_lines (Some n) s = ([], false)).
Proof.
  split; [easy|]. assert (X : forall n ls, match find (fun l => l_num l =? n) ls with Some l => l_num l = n /\ In n (map l_num ls) | None => ~ In n (map l_num ls) end).
  { intros n ls. induction ls as [|l r IH]; [easy|]. cbn [find map In]. destruct (Z.eqb_spec (l_num l) n) as [E|E]; [now split; [|left]|]. destruct (find _ r); [split; [easy|now right]|]. intros [H|H]; easy. }
  unfold show_lines, find_line. split; intros n H; specialize (X n (lines s)); destruct (find _ (lines s)); try easy. destruct X as [-> _]. easy.
Qed.
(** hypotheses are met: a configuration with everything *)
Example C68_met : exists s, run e0 k0 st_init [Typed "e1_line 7 driver ipa"; Typed "e1_line 7 port 2"; Typed "e1_line 7 name north"; Typed "e1_line 7 keepalive 30 3 30"; Typed "e1_line 7 ipa-keepalive 10 20"; Typed "e1_line 7 pcap /tmp/a"; Typed "e1_line 7 connect-timeout 60"; Typed "e1_line 200 driver dahdi"; Typed "no e1_line 200 keepalive"; Typed "e1_line 200 keepalive"; Config 7 1 2; Typed "ipa bind 10.1.2.3"; Typed "ipa socket-priority rsl 5"; Typed "e1_line 7 pcap /tmp/b"] = Some s /\
  write s = "e1_input
 e1_line 7 driver ipa
 e1_line 7 port 2
 e1_line 7 name north
 e1_line 7 connect-timeout 60
 e1_line 7 keepalive 30 3 30
 e1_line 7 ipa-keepalive 10 20
 e1_line 7 pcap /tmp/b
 e1_line 200 driver dahdi
 e1_line 200 port 0
 no e1_line 200 keepalive
 ipa bind 10.1.2.3
 ipa socket-priority rsl 5
" /\ fst (show_ts None None s) = [(1%nat, 7, 2%nat)] /\ exists s', read e0 k0 (write s) = Some s' /\ config s' = config s.
Proof. eexists. split; [vm_compute; reflexivity|]. split; [reflexivity|]. split; [reflexivity|]. eexists. split; [vm_compute; reflexivity|reflexivity]. Qed.
