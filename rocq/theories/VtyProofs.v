(** Proofs for C68: words and lines, invariant of the configuration, reading back. *)
From Coq Require Import List Arith Lia Bool ZArith Ascii String DecimalString.
From Coq Require Decimal DecimalN.
From Verif Require Import Base VtyModel VtySpec.
Import ListNotations.
Open Scope string_scope.
Open Scope Z_scope.

(** ** words *)
Fixpoint nospace (s : string) : bool := match s with EmptyString => true | String a r => negb (is_space a) && nospace r end.
Definition word (w : string) : Prop := w <> "" /\ nospace w = true.
Lemma span_word w r c : nospace w = true -> is_space c = true -> span (w ++ String c r) = (w, words r).
Proof.
  intros N C. induction w as [|a w IH]; cbn [append span].
  - rewrite C. unfold words. now destruct (span r).
  - cbn [nospace] in N. apply andb_prop in N. destruct N as [A N]. rewrite (IH N). apply negb_true_iff in A. now rewrite A.
Qed.
Lemma span_last w : nospace w = true -> span w = (w, []).
Proof. induction w as [|a w IH]; [easy|]. cbn [nospace span]. intros N. apply andb_prop in N. destruct N as [A N]. rewrite (IH N). apply negb_true_iff in A. now rewrite A. Qed.
Lemma push_word w ws : w <> "" -> push w ws = w :: ws. Proof. now destruct w. Qed.
Lemma words_cons w r : word w -> words (w ++ String " " r) = w :: words r.
Proof. intros [E N]. unfold words at 1. rewrite span_word by easy. now apply push_word. Qed.
Lemma words_one w : word w -> words w = [w].
Proof. intros [E N]. unfold words. rewrite span_last by easy. now apply push_word. Qed.
Lemma words_join ws : Forall word ws -> words (String.concat " " ws) = ws.
Proof.
  induction ws as [|w ws IH]; intros F; [easy|]. destruct ws as [|w' ws]; [apply words_one, (Forall_inv F)|].
  change (String.concat " " (w :: w' :: ws)) with (w ++ String " " (String.concat " " (w' :: ws))). rewrite words_cons by exact (Forall_inv F). f_equal. apply IH, (Forall_inv_tail F).
Qed.
Lemma span_nospace t : nospace (fst (span t)) = true /\ Forall word (snd (span t)).
Proof.
  induction t as [|a t [A B]]; cbn [span]; [split; [easy|constructor]|]. destruct (span t) as [w ws]. cbn [fst snd] in *. destruct (is_space a) eqn:S; cbn [fst snd nospace].
  - split; [easy|]. destruct w; [easy|]. constructor; [|easy]. split; easy.
  - rewrite S. easy.
Qed.
Lemma words_word t : Forall word (words t).
Proof. unfold words. destruct (span_nospace t) as [A B]. destruct (span t) as [w ws]. cbn [fst snd] in *. destruct w; [easy|]. constructor; [|easy]. split; easy. Qed.

(** ** lines *)
Fixpoint noline (s : string) : bool := match s with EmptyString => true | String a r => negb (Ascii.eqb a nl) && noline r end.
Lemma lspan_line l r : noline l = true -> lspan (l ++ String nl r) = (l, lines_of r).
Proof.
  intros N. induction l as [|a l IH]; cbn [append lspan].
  - unfold lines_of. destruct (lspan r) as [w ws]. rewrite Ascii.eqb_refl. easy.
  - cbn [noline] in N. apply andb_prop in N. destruct N as [A N]. rewrite (IH N). apply negb_true_iff in A. now rewrite A.
Qed.
Lemma lines_cons l r : l <> "" -> noline l = true -> lines_of (l ++ String nl r) = l :: lines_of r.
Proof. intros E N. unfold lines_of at 1. rewrite lspan_line by easy. now destruct l. Qed.
Lemma nospace_noline w : nospace w = true -> noline w = true.
Proof. induction w as [|a w IH]; [easy|]. cbn [nospace noline]. intros N. apply andb_prop in N. destruct N as [A N]. rewrite (IH N), andb_true_r. destruct (Ascii.eqb_spec a nl) as [->|]; [discriminate|easy]. Qed.
Lemma noline_app a b : noline (a ++ b) = noline a && noline b.
Proof. induction a as [|x a IH]; [easy|]. cbn [append noline]. now rewrite IH, andb_assoc. Qed.
Lemma noline_join ws : Forall word ws -> noline (String.concat " " ws) = true.
Proof.
  induction ws as [|w ws IH]; intros F; [easy|]. destruct (Forall_inv F) as [_ N]. apply nospace_noline in N. destruct ws as [|w' ws]; [easy|].
  change (String.concat " " (w :: w' :: ws)) with (w ++ String " " (String.concat " " (w' :: ws))). rewrite noline_app, N. cbn [noline]. now rewrite (IH (Forall_inv_tail F)).
Qed.
Lemma app_assoc_s a b c : (a ++ b) ++ c = a ++ b ++ c.
Proof. induction a as [|x a IH]; [easy|]. cbn [append]. now rewrite IH. Qed.
Definition proper (ws : list string) : Prop := ws <> [] /\ Forall word ws.
Lemma lines_text ls : Forall proper ls -> lines_of (text ls) = map (fun ws => " " ++ String.concat " " ws) ls.
Proof.
  induction ls as [|ws ls IH]; intros F; [easy|]. cbn [text map]. unfold ln. rewrite !app_assoc_s. change (String nl EmptyString ++ text ls) with (String nl (text ls)). rewrite <- (app_assoc_s " "). rewrite lines_cons; [f_equal; apply IH, (Forall_inv_tail F)|easy|]. cbn [append noline]. rewrite noline_join; [easy|]. apply (Forall_inv F).
Qed.
Lemma concat_head ws : proper ws -> match String.concat " " ws with String b _ => is_space b | _ => true end = false.
Proof.
  intros [E F]. destruct ws as [|w ws]; [easy|]. destruct (Forall_inv F) as [NE N]. destruct w as [|a w]; [easy|]. cbn [nospace] in N. apply andb_prop in N. destruct N as [N _]. apply negb_true_iff in N.
  destruct ws as [|w' ws]; [easy|]. change (String.concat " " (String a w :: w' :: ws)) with (String a (w ++ String " " (String.concat " " (w' :: ws)))). exact N.
Qed.
Definition do_words (e : env) (k : kern) (s : st) (ws : list string) : option st := match parse e ws with Some c => match exec e k s c with Done s true => Some s | _ => None end | None => None end.
Lemma read_words e k s ws : proper ws -> read_line e k s (" " ++ String.concat " " ws) = do_words e k s ws.
Proof.
  intros P. cbn [append read_line]. rewrite Ascii.eqb_refl, (concat_head _ P). cbn [negb andb]. unfold vty. rewrite words_join by apply P. unfold do_words. destruct (parse e ws) as [c|]; [|easy]. destruct (exec e k s c) as [s' b|]; easy.
Qed.
Fixpoint do_all (e : env) (k : kern) (s : st) (ls : list (list string)) : option st := match ls with [] => Some s | l :: r => match do_words e k s l with Some s => do_all e k s r | None => None end end.
Lemma read_all e k ls : forall s, Forall proper ls -> read_lines e k s (map (fun ws => " " ++ String.concat " " ws) ls) = do_all e k s ls.
Proof. induction ls as [|l r IH]; intros s F; [easy|]. cbn [map read_lines do_all]. rewrite read_words by exact (Forall_inv F). destruct (do_words e k s l); [|easy]. apply IH, (Forall_inv_tail F). Qed.
Lemma do_app e k a b : forall s, do_all e k s (a ++ b) = match do_all e k s a with Some s => do_all e k s b | None => None end.
Proof. induction a as [|x a IH]; intros s; [easy|]. cbn [app do_all]. destruct (do_words e k s x); [apply IH|easy]. Qed.

(** ** numbers *)
Lemma digits_nospace d : nospace (NilEmpty.string_of_uint d) = true.
Proof. induction d; cbn; auto. Qed.
Lemma to_uint_nonnil n : N.to_uint n <> Decimal.Nil.
Proof. destruct n; cbn; [discriminate|]. unfold Pos.to_uint. intros E. pose proof (DecimalPos.Unsigned.to_uint_nonnil p). contradiction. Qed.
Lemma num_word z : 0 <= z -> word (num z).
Proof.
  intros Z. unfold num. destruct z as [|p|p]; [split; easy| |lia]. split; [|apply digits_nospace]. pose proof (to_uint_nonnil (Z.to_N (Zpos p))) as N. destruct (N.to_uint _); [easy|..]; discriminate.
Qed.
Lemma rng_num lo hi z : 0 <= lo -> lo <= z <= hi -> rng lo hi (num z) = Some z.
Proof.
  intros L Z. unfold rng, num. assert (E : forall n, NilEmpty.uint_of_string (NilEmpty.string_of_uint (N.to_uint n)) = Some (N.to_uint n)) by (intros; apply NilEmpty.usu).
  assert (X : (lo <=? z) && (z <=? hi) = true) by lia.
  destruct z as [|p|p]; [| |lia]; rewrite E, DecimalN.Unsigned.of_to, Z2N.id by lia; now rewrite X.
Qed.
Lemma rng_bounds lo hi w z : rng lo hi w = Some z -> lo <= z <= hi.
Proof. unfold rng. destruct (NilEmpty.uint_of_string w); [|discriminate]. destruct (_ && _) eqn:E; [|discriminate]. intros H. injection H as <-. apply andb_prop in E. lia. Qed.

(** ** invariant *)
Lemma NoDup_app_snoc {A} (l : list A) x : NoDup l -> ~ In x l -> NoDup (l ++ [x]).
Proof. intros H N. induction H as [|y l NY H IH]; [constructor; [easy|constructor]|]. cbn. constructor; [rewrite in_app_iff; cbn; intros [I|[I|I]]; [easy|subst; apply N; now left|easy]|]. apply IH. intros I. apply N. now right. Qed.
Record good (e : env) (l : line) : Prop := {
  g_num : 0 <= l_num l <= 255; g_drv : In (l_driver l) driver_names; g_reg : drv e (l_driver l) <> None; g_port : 0 <= l_port l <= 255;
  g_name : forall x, l_name l = Some x -> word x; g_tmo : 0 <= l_tmo l <= 60;
  g_ka : (l_idle l = -1 /\ l_probes l = -1 /\ l_intvl l = -1) \/ (l_idle l = 0 /\ l_probes l = 0 /\ l_intvl l = 0) \/ (drv e (l_driver l) = Some true /\ 1 <= l_idle l <= 300 /\ 1 <= l_probes l <= 20 /\ 1 <= l_intvl l <= 300);
  g_kap : forall a b, l_kap l = Some (a, b) -> l_driver l = "ipa" /\ 1 <= a <= 300 /\ 1 <= b <= 300;
  g_pcap : forall f, l_pcap l = Some f -> word f
}.
Record ok (e : env) (s : st) : Prop := {
  o_lines : Forall (good e) (lines s); o_nodup : NoDup (map l_num (lines s));
  o_bind : forall a, bind s = Some a -> word a /\ ipv4 e a = true;
  o_od : 0 <= o_dscp s <= 63; o_rd : 0 <= r_dscp s <= 63; o_op : 0 <= o_prio s <= 255; o_rp : 0 <= r_prio s <= 255
}.
Lemma find_in n ls l : find (fun l => l_num l =? n) ls = Some l -> In l ls /\ l_num l = n.
Proof. intros H. apply find_some in H. destruct H as [A B]. split; [easy|]. now apply Z.eqb_eq. Qed.
Lemma find_none_num n ls : find (fun l => l_num l =? n) ls = None -> ~ In n (map l_num ls).
Proof. intros H I. apply in_map_iff in I. destruct I as (l & E & I). apply (find_none _ _ H) in I. rewrite E, Z.eqb_refl in I. discriminate. Qed.
Lemma upd_num n f ls : (forall l, l_num (f l) = l_num l) -> map l_num (upd n f ls) = map l_num ls.
Proof. intros F. induction ls as [|l r IH]; [easy|]. cbn [upd]. destruct (l_num l =? n); cbn [map]; now rewrite ?F, ?IH. Qed.
Lemma upd_forall (P : line -> Prop) n f ls : Forall P ls -> (forall l, find (fun l => l_num l =? n) ls = Some l -> P l -> P (f l)) -> Forall P (upd n f ls).
Proof.
  induction ls as [|l r IH]; intros F H; [easy|]. cbn [upd]. cbn [find] in H. destruct (l_num l =? n) eqn:E; constructor.
  - apply H; [easy|]. exact (Forall_inv F).
  - exact (Forall_inv_tail F).
  - exact (Forall_inv F).
  - apply IH; [exact (Forall_inv_tail F)|easy].
Qed.
Lemma set_ok e n s f s' b : ok e s -> (forall l, l_num (f l) = l_num l) -> (forall l, find_line n s = Some l -> good e l -> good e (f l)) -> set n s f = Done s' b -> ok e s'.
Proof.
  intros [A B C D E F G] N H X. unfold set in X. injection X as <- _. constructor; cbn [w_lines lines bind o_dscp r_dscp o_prio r_prio]; auto.
  - apply upd_forall; auto.
  - now rewrite upd_num.
Qed.
(** commands a text can stand for *)
Definition sane (e : env) (c : cmd) : Prop :=
  match c with
  | Driver n d => 0 <= n <= 255 /\ In d driver_names
  | Port n p => 0 <= p <= 255
  | Socket n p => word p
  | Keep n a b c => (a = -1 /\ b = -1 /\ c = -1) \/ (a = 0 /\ b = 0 /\ c = 0) \/ (1 <= a <= 300 /\ 1 <= b <= 20 /\ 1 <= c <= 300)
  | IpaKeep n a b => (a = 0 /\ b = 0) \/ (1 <= a <= 300 /\ 1 <= b <= 300)
  | Name n x => word x
  | Timeout n t => 0 <= t <= 60
  | Pcap n f => word f
  | NoPcap n => True
  | Bind a => word a /\ ipv4 e a = true
  | Dscp o v => 0 <= v <= 63
  | Prio o v => 0 <= v <= 255
  end.
Lemma is_in_spec w l : is_in w l = true <-> In w l.
Proof. unfold is_in. rewrite existsb_exists. split; [intros (x & I & E); apply String.eqb_eq in E; now subst|intros I; exists w; split; [easy|apply String.eqb_refl]]. Qed.
Ltac brk H := repeat match type of H with
  | (if ?c then _ else _) = Some _ => let E := fresh "E" in destruct c eqn:E; try discriminate H
  | match ?x with _ => _ end = Some _ => let E := fresh "E" in destruct x eqn:E; try discriminate H
  end.
Lemma parse_sane e ws c : Forall word ws -> parse e ws = Some c -> sane e c.
Proof.
  intros F H. destruct ws as [|w ws]; [discriminate|]. cbn [parse] in H. apply Forall_inv_tail in F.
  destruct (String.eqb w "e1_line").
  - destruct ws as [|n [|k args]]; [discriminate|discriminate|]. destruct (rng 0 255 n) as [m|] eqn:M; [|discriminate]. apply rng_bounds in M. do 2 apply Forall_inv_tail in F. unfold parse_line in H.
    brk H; subst; injection H as <-; cbn [sane]; repeat match goal with X : rng _ _ _ = Some _ |- _ => apply rng_bounds in X end; try tauto; try lia; try (exact (Forall_inv F)).
    split; [easy|]. now apply is_in_spec.
  - destruct (String.eqb w "no").
    + unfold parse_no in H. brk H; injection H as <-; cbn [sane]; tauto.
    + destruct (String.eqb w "ipa"); [|discriminate]. unfold parse_ipa in H. brk H; subst; injection H as <-; cbn [sane]; repeat match goal with X : rng _ _ _ = Some _ |- _ => apply rng_bounds in X end; try lia.
      apply andb_prop in E2. split; [|easy]. apply Forall_inv_tail in F. exact (Forall_inv F).
Qed.
Ltac goodl := let G := fresh in let l := fresh in intros l _ G; destruct G; constructor; cbn [w_port w_name w_sock w_tmo w_ka w_kap w_pcap w_ts l_num l_driver l_port l_name l_tmo l_probes l_idle l_intvl l_kap l_pcap]; auto.
Lemma emit_ok e s es : ok e s -> ok e (emit s es). Proof. intros [A B C D E F G]. now constructor. Qed.
Lemma next_ok e s : ok e s -> ok e (next s). Proof. intros [A B C D E F G]. now constructor. Qed.
Lemma exec_ok e k s c s' b : ok e s -> sane e c -> exec e k s c = Done s' b -> ok e s'.
Proof.
  intros O S H. unfold exec, on, warn in H. destruct c as [n d|n p|n p|n x y z|n x y|n x|n t|n f|n|a|o v|o v]; cbn [sane] in S.
  - destruct (find_line n s) eqn:F; [injection H as <- _; easy|]. destruct (drv e d) eqn:D; [|injection H as <- _; easy]. destruct (k_create k (tick s)); injection H as <- _; [|now apply next_ok]. apply next_ok. destruct O as [A B C D' E F' G]. constructor; cbn [w_lines lines bind o_dscp r_dscp o_prio r_prio]; auto.
    + apply Forall_app. split; [easy|]. constructor; [|easy]. constructor; cbn [new_line l_num l_driver l_port l_name l_tmo l_probes l_idle l_intvl l_kap l_pcap]; try easy; try lia; congruence.
    + rewrite map_app. apply find_none_num in F. cbn [map new_line l_num]. apply NoDup_app_snoc; easy.
  - destruct (find_line n s); [|injection H as <- _; easy]. eapply set_ok; [exact O| |  |exact H]; [easy|]. goodl.
  - destruct (Nat.ltb _ _); [injection H as <- _; easy|]. destruct (find_line n s); [|injection H as <- _; easy]. eapply set_ok; [exact O| |  |exact H]; [easy|]. goodl.
  - destruct (find_line n s) as [l|] eqn:F; [|injection H as <- _; easy]. destruct (_ && _) eqn:K; [injection H as <- _; easy|]. eapply set_ok; [exact O| |  |exact H]; [easy|]. intros l' F' G. rewrite F in F'. injection F' as <-. destruct G; constructor; cbn [w_ka l_num l_driver l_port l_name l_tmo l_probes l_idle l_intvl l_kap l_pcap]; auto.
    destruct (drv e (l_driver l)) as [[|]|]; cbn [negb andb] in K; destruct S as [S|[S|S]]; try tauto; exfalso; lia.
  - destruct (find_line n s) as [l|] eqn:F; [|injection H as <- _; easy]. destruct (String.eqb (l_driver l) "ipa") eqn:K; cbn [negb] in H; [|injection H as <- _; easy]. eapply set_ok; [exact O| |  |exact H]; [easy|]. intros l' F' G. rewrite F in F'. injection F' as <-. destruct G; constructor; cbn [w_kap l_num l_driver l_port l_name l_tmo l_probes l_idle l_intvl l_kap l_pcap]; auto.
    intros a0 b0. destruct (Z.eqb_spec x 0); [discriminate|]. intros X. injection X as <- <-. apply String.eqb_eq in K. split; [easy|]. lia.
  - destruct (find_line n s); [|injection H as <- _; easy]. eapply set_ok; [exact O| |  |exact H]; [easy|]. goodl. intros y Y. now injection Y as <-.
  - destruct (find_line n s); [|injection H as <- _; easy]. eapply set_ok; [exact O| |  |exact H]; [easy|]. goodl.
  - destruct (find_line n s) as [l|] eqn:F; [|injection H as <- _; easy]. destruct (k_open k (tick s)); cbn [negb] in H; [|injection H as <- _; now apply next_ok]. cbv zeta in H. destruct (k_write k _); cbn [negb] in H; [|injection H as <- _; apply emit_ok, next_ok, emit_ok, next_ok, O].
    eapply set_ok; [|  |  |exact H]; [apply emit_ok, next_ok, emit_ok, next_ok, O|easy|]. goodl. intros y Y. now injection Y as <-.
  - destruct (find_line n s) as [l|] eqn:F; [|discriminate]. eapply set_ok; [|  |  |exact H]; [apply emit_ok, O|easy|]. goodl. discriminate.
  - injection H as <- _. destruct O as [A B C D E F G]. constructor; auto. cbn. intros x X. now injection X as <-.
  - injection H as <- _. destruct O as [A B C D E F G]. destruct o; constructor; auto.
  - injection H as <- _. destruct O as [A B C D E F G]. destruct o; constructor; auto.
Qed.
Lemma step_ok e k s v s' b : ok e s -> configurable v -> step e k s v = Done s' b -> ok e s'.
Proof.
  intros O C H. destruct v as [t|n d|n i ty]; cbn [step] in H.
  - unfold vty in H. destruct (parse e (words t)) as [c|] eqn:P; [|unfold warn in H; injection H as <- _; easy]. eapply exec_ok; [exact O| |exact H]. eapply parse_sane; [apply words_word|exact P].
  - eapply exec_ok; [exact O| |exact H]. cbn in C |- *. tauto.
  - unfold on in H. destruct (find_line n s); [|unfold warn in H; injection H as <- _; easy]. eapply set_ok; [exact O| | |exact H]; [easy|]. goodl.
Qed.
Lemma run_ok e k vs : forall s s', ok e s -> Forall configurable vs -> run e k s vs = Some s' -> ok e s'.
Proof. induction vs as [|v r IH]; intros s s' O C H; cbn [run] in H; [now injection H as <-|]. destruct (step e k s v) as [s1 b|] eqn:E; [|discriminate]. apply (IH s1 s'); [|exact (Forall_inv_tail C)|easy]. eapply step_ok; [exact O|exact (Forall_inv C)|exact E]. Qed.
Lemma init_ok e : ok e st_init. Proof. constructor; cbn; try easy; try lia. constructor. Qed.

(** ** reading back *)
Definition same (s s' : st) : Prop := bind s' = bind s /\ o_dscp s' = o_dscp s /\ r_dscp s' = r_dscp s /\ o_prio s' = o_prio s /\ r_prio s' = r_prio s.
Lemma same_refl s : same s s. Proof. easy. Qed.
Lemma same_trans a b c : same a b -> same b c -> same a c.
Proof. intros (A1 & A2 & A3 & A4 & A5) (B1 & B2 & B3 & B4 & B5). unfold same. rewrite B1, B2, B3, B4, B5. easy. Qed.
Definition at_end (s : st) (L : list line) (c : line) : Prop := lines s = (L ++ [c])%list /\ ~ In (l_num c) (map l_num L).
Lemma find_end s L c : at_end s L c -> find_line (l_num c) s = Some c.
Proof.
  intros [E N]. unfold find_line. rewrite E. clear E. induction L as [|x L IH]; cbn [app find]; [now rewrite Z.eqb_refl|]. destruct (Z.eqb_spec (l_num x) (l_num c)) as [X|X]; [elim N; left; easy|]. apply IH. intros I. apply N. now right.
Qed.
Lemma upd_end L c f : ~ In (l_num c) (map l_num L) -> upd (l_num c) f (L ++ [c]) = (L ++ [f c])%list.
Proof. intros N. induction L as [|x L IH]; cbn [app upd]; [now rewrite Z.eqb_refl|]. destruct (Z.eqb_spec (l_num x) (l_num c)) as [X|X]; [elim N; left; easy|]. f_equal. apply IH. intros I. apply N. now right. Qed.
Ltac seqb := repeat match goal with |- context [String.eqb ?a ?b] => let v := eval vm_compute in (String.eqb a b) in match v with true => idtac | false => idtac end; change (String.eqb a b) with v end; cbv iota.
Lemma set_end s s0 L c f : at_end s0 L c -> lines s = lines s0 -> (forall l, l_num (f l) = l_num l) -> exists s', set (l_num c) s f = Done s' true /\ at_end s' L (f c) /\ same s s'.
Proof.
  intros [E N] EL F. unfold set. rewrite EL, E, upd_end by easy. eexists. split; [reflexivity|]. split; [|easy]. split; [easy|]. now rewrite F.
Qed.
(** a piece of the configuration of a line; the state is the one after it *)
Definition does (e : env) (k : kern) (s : st) (ls : list (list string)) (L : list line) (c c' : line) : Prop := exists s', do_all e k s ls = Some s' /\ at_end s' L c' /\ same s s'.
Lemma does_nil e k s L c : at_end s L c -> does e k s [] L c c. Proof. intros A. now exists s. Qed.
Lemma does_one e k s ws c L c0 f : at_end s L c -> parse e ws = Some c0 -> (exists s0, exec e k s c0 = set (l_num c) s0 f /\ lines s0 = lines s /\ same s s0) -> (forall l, l_num (f l) = l_num l) -> does e k s [ws] L c (f c).
Proof.
  intros A P (s0 & X & EL & SM) F. destruct (set_end s0 s L c f A EL F) as (s' & Y & A' & SM'). exists s'. cbn [do_all]. unfold do_words. rewrite P, X, Y. split; [easy|]. split; [easy|]. now apply (same_trans s s0).
Qed.
Lemma does_app e k s a b L c c1 c2 : does e k s a L c c1 -> (forall s', at_end s' L c1 -> does e k s' b L c1 c2) -> does e k s (a ++ b) L c c2.
Proof. intros (s1 & D & A & SM) H. destruct (H s1 A) as (s2 & D2 & A2 & SM2). exists s2. rewrite do_app, D, D2. split; [easy|]. split; [easy|]. now apply (same_trans s s1). Qed.
Section Line.
Variables (e : env) (k : kern) (KG : good_kern k).
Lemma do_port s L c p : at_end s L c -> 0 <= l_num c <= 255 -> 0 <= p <= 255 -> does e k s [["e1_line"; num (l_num c); "port"; num p]] L c (w_port p c).
Proof.
  intros A N P. eapply does_one; [exact A| | |easy].
  - unfold parse. seqb. rewrite rng_num by lia. unfold parse_line. seqb. rewrite rng_num by lia. reflexivity.
  - exists s. cbn [exec]. unfold on. rewrite (find_end _ _ _ A). split; [reflexivity|]. split; [easy|apply same_refl].
Qed.
Lemma do_name s L c x : at_end s L c -> 0 <= l_num c <= 255 -> does e k s [["e1_line"; num (l_num c); "name"; x]] L c (w_name x c).
Proof.
  intros A N. eapply does_one; [exact A| | |easy].
  - unfold parse. seqb. rewrite rng_num by lia. unfold parse_line. seqb. reflexivity.
  - exists s. cbn [exec]. unfold on. rewrite (find_end _ _ _ A). split; [reflexivity|]. split; [easy|apply same_refl].
Qed.
Lemma do_tmo s L c t : at_end s L c -> 0 <= l_num c <= 255 -> 0 <= t <= 60 -> does e k s [["e1_line"; num (l_num c); "connect-timeout"; num t]] L c (w_tmo t c).
Proof.
  intros A N T. eapply does_one; [exact A| | |easy].
  - unfold parse. seqb. rewrite rng_num by lia. unfold parse_line. seqb. rewrite rng_num by lia. reflexivity.
  - exists s. cbn [exec]. unfold on. rewrite (find_end _ _ _ A). split; [reflexivity|]. split; [easy|apply same_refl].
Qed.
Lemma do_noka s L c : at_end s L c -> 0 <= l_num c <= 255 -> does e k s [["no"; "e1_line"; num (l_num c); "keepalive"]] L c (w_ka 0 0 0 c).
Proof.
  intros A N. eapply does_one; [exact A| | |easy].
  - unfold parse. seqb. unfold parse_no. seqb. rewrite rng_num by lia. reflexivity.
  - exists s. cbn [exec]. unfold on. rewrite (find_end _ _ _ A). cbn [Z.eqb negb]. rewrite andb_false_r. split; [reflexivity|]. split; [easy|apply same_refl].
Qed.
Lemma do_ka s L c x y z : at_end s L c -> 0 <= l_num c <= 255 -> 1 <= x <= 300 -> 1 <= y <= 20 -> 1 <= z <= 300 -> drv e (l_driver c) = Some true -> does e k s [["e1_line"; num (l_num c); "keepalive"; num x; num y; num z]] L c (w_ka x y z c).
Proof.
  intros A N X Y Z D. eapply does_one; [exact A| | |easy].
  - unfold parse. seqb. rewrite rng_num by lia. unfold parse_line. seqb. rewrite !rng_num by lia. reflexivity.
  - exists s. cbn [exec]. unfold on. rewrite (find_end _ _ _ A), D. cbn [negb andb]. split; [reflexivity|]. split; [easy|apply same_refl].
Qed.
Lemma do_kap s L c x y : at_end s L c -> 0 <= l_num c <= 255 -> 1 <= x <= 300 -> 1 <= y <= 300 -> l_driver c = "ipa" -> does e k s [["e1_line"; num (l_num c); "ipa-keepalive"; num x; num y]] L c (w_kap (Some (x, y)) c).
Proof.
  intros A N X Y D. eapply does_one; [exact A| | |easy].
  - unfold parse. seqb. rewrite rng_num by lia. unfold parse_line. seqb. rewrite !rng_num by lia. reflexivity.
  - exists s. cbn [exec]. unfold on. rewrite (find_end _ _ _ A), D. seqb. cbn [negb]. rewrite (proj2 (Z.eqb_neq x 0)) by lia. split; [reflexivity|]. split; [easy|apply same_refl].
Qed.
Lemma do_pcap s L c f : at_end s L c -> 0 <= l_num c <= 255 -> does e k s [["e1_line"; num (l_num c); "pcap"; f]] L c (w_pcap (Some f) (Some (tick s)) c).
Proof.
  intros A N. eapply does_one; [exact A| | |easy].
  - unfold parse. seqb. rewrite rng_num by lia. unfold parse_line. seqb. reflexivity.
  - cbn [exec]. unfold on. rewrite (find_end _ _ _ A). rewrite (proj1 (KG (tick s))). cbn [negb]. cbv zeta. rewrite (proj1 (proj2 (KG _))). cbn [negb]. eexists. split; [reflexivity|]. split; [easy|easy].
Qed.
Lemma conf_eq l l' : l_num l' = l_num l -> l_driver l' = l_driver l -> l_port l' = l_port l -> l_name l' = l_name l -> l_tmo l' = l_tmo l -> l_probes l' = l_probes l -> l_idle l' = l_idle l -> l_intvl l' = l_intvl l -> l_kap l' = l_kap l -> l_pcap l' = l_pcap l -> conf l' = conf l.
Proof. intros E1 E2 E3 E4 E5 E6 E7 E8 E9 E10. unfold conf. now rewrite E1, E2, E3, E4, E5, E6, E7, E8, E9, E10. Qed.
Lemma do_line s l : good e l -> ~ In (l_num l) (map l_num (lines s)) -> exists s' l', do_all e k s (write_line l) = Some s' /\ lines s' = (lines s ++ [l'])%list /\ conf l' = conf l /\ same s s' /\ (l_pcap l' <> None -> l_fd l' <> None).
Proof.
  intros G N. unfold write_line. set (n := l_num l) in *. set (kab := negb (l_idle l =? -1) || negb (l_probes l =? -1) || negb (l_intvl l =? -1)) in *.
  assert (P0 : exists s1, do_all e k s [["e1_line"; num n; "driver"; l_driver l]] = Some s1 /\ at_end s1 (lines s) (new_line n (l_driver l)) /\ same s s1).
  { cbn [do_all]. unfold do_words, parse. seqb. rewrite (rng_num 0 255 n) by (try lia; apply G). unfold parse_line. seqb. rewrite (proj2 (is_in_spec _ _) (g_drv _ _ G)). cbn [exec].
    destruct (find_line n s) eqn:F; [apply find_in in F; elim N; apply in_map_iff; eexists; split; apply F|]. pose proof (g_reg _ _ G) as R. destruct (drv e (l_driver l)); [|easy]. rewrite (proj2 (proj2 (KG _))). eexists. split; [reflexivity|]. split; [|easy]. split; easy. }
  destruct P0 as (s1 & D1 & A1 & SM1).
  pose (c1 := w_port (l_port l) (new_line n (l_driver l))).
  pose (c2 := match l_name l with Some x => w_name x c1 | None => c1 end).
  pose (c3 := if l_tmo l =? 0 then c2 else w_tmo (l_tmo l) c2).
  pose (c4 := if l_probes l =? 0 then w_ka 0 0 0 c3 else if kab then w_ka (l_idle l) (l_probes l) (l_intvl l) c3 else c3).
  pose (c5 := match l_kap l with Some ab => w_kap (Some ab) c4 | None => c4 end).
  assert (NC : forall s0 : st, 0 <= n <= 255) by (intros; apply G). pose proof (NC s) as NB. clear NC.
  assert (B1 : l_num c1 = n /\ l_driver c1 = l_driver l) by easy.
  assert (B2 : l_num c2 = n /\ l_driver c2 = l_driver l) by (unfold c2; destruct (l_name l); easy).
  assert (B3 : l_num c3 = n /\ l_driver c3 = l_driver l) by (unfold c3; destruct (l_tmo l =? 0); easy).
  assert (B4 : l_num c4 = n /\ l_driver c4 = l_driver l) by (unfold c4; destruct (l_probes l =? 0), kab; easy).
  assert (B5 : l_num c5 = n /\ l_driver c5 = l_driver l) by (unfold c5; destruct (l_kap l); easy).
  assert (X : exists c6, does e k s1 ([["e1_line"; num n; "port"; num (l_port l)]] ++ (match l_name l with Some x => [["e1_line"; num n; "name"; x]] | None => [] end) ++
    (if l_tmo l =? 0 then [] else [["e1_line"; num n; "connect-timeout"; num (l_tmo l)]]) ++
    (if l_probes l =? 0 then [["no"; "e1_line"; num n; "keepalive"]] else if kab then [["e1_line"; num n; "keepalive"; num (l_idle l); num (l_probes l); num (l_intvl l)]] else []) ++
    (match l_kap l with Some (a, b) => [["e1_line"; num n; "ipa-keepalive"; num a; num b]] | None => [] end) ++
    (match l_pcap l with Some f => [["e1_line"; num n; "pcap"; f]] | None => [] end))%list (lines s) (new_line n (l_driver l)) c6 /\ match l_pcap l with Some f => exists t, c6 = w_pcap (Some f) (Some t) c5 | None => c6 = c5 end).
  { assert (Y : exists s2, does e k s1 ([["e1_line"; num n; "port"; num (l_port l)]] ++ (match l_name l with Some x => [["e1_line"; num n; "name"; x]] | None => [] end) ++
    (if l_tmo l =? 0 then [] else [["e1_line"; num n; "connect-timeout"; num (l_tmo l)]]) ++
    (if l_probes l =? 0 then [["no"; "e1_line"; num n; "keepalive"]] else if kab then [["e1_line"; num n; "keepalive"; num (l_idle l); num (l_probes l); num (l_intvl l)]] else []) ++
    (match l_kap l with Some (a, b) => [["e1_line"; num n; "ipa-keepalive"; num a; num b]] | None => [] end))%list (lines s) (new_line n (l_driver l)) c5 /\ s2 = s1).
    { exists s1. split; [|easy]. eapply (does_app _ _ _ _ _ _ _ c1); [exact (do_port s1 (lines s) (new_line n (l_driver l)) (l_port l) A1 NB (g_port _ _ G))|]. clear s1 D1 A1 SM1. intros s1 A1.
      eapply (does_app _ _ _ _ _ _ _ c2). { unfold c2. destruct (l_name l) as [x|]; [|now apply does_nil]. exact (do_name s1 (lines s) c1 x A1 NB). } clear s1 A1. intros s1 A1.
      eapply (does_app _ _ _ _ _ _ _ c3). { unfold c3. destruct (l_tmo l =? 0); [now apply does_nil|]. rewrite <- (proj1 B2). apply do_tmo; [easy|rewrite (proj1 B2); exact NB|apply G]. } clear s1 A1. intros s1 A1.
      eapply (does_app _ _ _ _ _ _ _ c4). { unfold c4. destruct (Z.eqb_spec (l_probes l) 0) as [P|P]; [rewrite <- (proj1 B3); apply do_noka; [easy|rewrite (proj1 B3); exact NB]|]. destruct kab eqn:K; [|now apply does_nil]; unfold kab in K.
        destruct (g_ka _ _ G) as [GK|[GK|GK]]; [exfalso; destruct GK as (Q1 & Q2 & Q3); rewrite Q1, Q2, Q3 in K; discriminate|tauto|]. rewrite <- (proj1 B3). apply do_ka; [easy|rewrite (proj1 B3); exact NB|tauto|tauto|tauto|]. rewrite (proj2 B3). tauto. } clear s1 A1. intros s1 A1.
      unfold c5. destruct (l_kap l) as [[a b]|] eqn:KP; [|now apply does_nil]. destruct (g_kap _ _ G a b KP) as (Q1 & Q2 & Q3). rewrite <- (proj1 B4). apply do_kap; [easy|rewrite (proj1 B4); exact NB|easy|easy|]. now rewrite (proj2 B4). }
    destruct Y as (s2 & Y & ->). repeat rewrite app_assoc in Y. repeat rewrite app_assoc. destruct (l_pcap l) as [f|]; [|exists c5; split; [rewrite app_nil_r; exact Y|easy]].
    destruct Y as (s2 & Y1 & Y2 & Y3). exists (w_pcap (Some f) (Some (tick s2)) c5). split; [|eauto]. pose proof (do_pcap s2 (lines s) c5 f Y2 ltac:(rewrite (proj1 B5); exact NB)) as (s3 & Z1 & Z2 & Z3). rewrite (proj1 B5) in Z1. exists s3. rewrite do_app, Y1. split; [exact Z1|]. split; [easy|]. now apply (same_trans s1 s2). }
  destruct X as (c6 & (s2 & D2 & A2 & SM2) & C6). exists s2, c6. split; [change (do_all e k s ([["e1_line"; num n; "driver"; l_driver l]] ++ [["e1_line"; num n; "port"; num (l_port l)]] ++ (match l_name l with Some x => [["e1_line"; num n; "name"; x]] | None => [] end) ++
    (if l_tmo l =? 0 then [] else [["e1_line"; num n; "connect-timeout"; num (l_tmo l)]]) ++
    (if l_probes l =? 0 then [["no"; "e1_line"; num n; "keepalive"]] else if kab then [["e1_line"; num n; "keepalive"; num (l_idle l); num (l_probes l); num (l_intvl l)]] else []) ++
    (match l_kap l with Some (a, b) => [["e1_line"; num n; "ipa-keepalive"; num a; num b]] | None => [] end) ++
    (match l_pcap l with Some f => [["e1_line"; num n; "pcap"; f]] | None => [] end))%list = Some s2); rewrite do_app, D1; exact D2|]. split; [apply A2|].
  assert (CF : conf c5 = (n, l_driver l, l_port l, l_name l, l_tmo l, (l_probes l, l_idle l, l_intvl l), l_kap l, None) /\ l_fd c5 = None).
  { split; [|unfold c5, c4, c3, c2; destruct (l_kap l), (l_probes l =? 0), kab, (l_tmo l =? 0), (l_name l); easy].
    assert (E5 : conf c5 = (n, l_driver l, l_port c4, l_name c4, l_tmo c4, (l_probes c4, l_idle c4, l_intvl c4), l_kap l, None)).
    { unfold c5. destruct (l_kap l) as [ab|] eqn:KP; unfold conf; cbn [w_kap l_num l_driver l_port l_name l_tmo l_probes l_idle l_intvl l_kap l_pcap]; rewrite (proj1 B4), (proj2 B4); unfold c4, c3, c2; destruct (l_probes l =? 0), kab, (l_tmo l =? 0), (l_name l); reflexivity. }
    rewrite E5. assert (E4 : l_probes c4 = l_probes l /\ l_idle c4 = l_idle l /\ l_intvl c4 = l_intvl l).
    { unfold c4. destruct (Z.eqb_spec (l_probes l) 0) as [P|P]; [cbn; destruct (g_ka _ _ G) as [GK|[GK|GK]]; lia|]. destruct kab eqn:K; [easy|]; unfold kab in K. apply orb_false_iff in K. destruct K as [K K3]. apply orb_false_iff in K. destruct K as [K1 K2]. apply negb_false_iff, Z.eqb_eq in K1, K2, K3. rewrite K1, K2, K3. unfold c3, c2. destruct (l_tmo l =? 0), (l_name l); easy. }
    destruct E4 as (-> & -> & ->). assert (E3 : l_port c4 = l_port l /\ l_name c4 = l_name l /\ l_tmo c4 = l_tmo l).
    { assert (T : l_port c3 = l_port l /\ l_name c3 = l_name l /\ l_tmo c3 = l_tmo l) by (unfold c3, c2; destruct (Z.eqb_spec (l_tmo l) 0) as [Q|Q], (l_name l); try rewrite Q; easy). unfold c4. destruct (l_probes l =? 0), kab; exact T. }
    destruct E3 as (-> & -> & ->). reflexivity. }
  destruct CF as [CF FD]. destruct (l_pcap l) as [f|] eqn:PC.
  - destruct C6 as [t ->]. split; [|split; [now apply (same_trans s s1)|easy]]. unfold conf in CF |- *. cbn [w_pcap l_num l_driver l_port l_name l_tmo l_probes l_idle l_intvl l_kap l_pcap]. injection CF as -> -> -> -> -> -> -> -> -> _. now rewrite PC.
  - subst c6. split; [rewrite CF; unfold conf; now rewrite PC|]. split; [now apply (same_trans s s1)|]. intros Q. exfalso. apply Q. unfold conf in CF. now injection CF.
Qed.
End Line.
