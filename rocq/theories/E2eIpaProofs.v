(** Proofs for C82. *)
From Coq Require Import List Arith Lia Bool ZArith.
From Verif Require Import Base IpaccessModel E2eIpaModel.
From Verif Require IpaccessBtsModel.
Import ListNotations.
Open Scope Z_scope.

Definition framed (f : Z * list Z) : list Z := ipa_header (fst f) (Z.of_nat (length (snd f))) ++ snd f.
Definition short (f : Z * list Z) : Prop := Z.of_nat (length (snd f)) < 65536.

(** ** Segmentation *)
Lemma cut_framed f r : short f -> cut (framed f ++ r) = Some (f, r).
Proof.
  destruct f as [p m]. unfold short, framed, ipa_header. cbn [fst snd]. intros L. cbn [app cut].
  replace (Z.to_nat (Z.of_nat (length m) / 256 mod 256 * 256 + Z.of_nat (length m) mod 256)) with (length m).
  - rewrite app_length. replace (Nat.leb (length m) (length m + length r)) with true by (symmetry; apply Nat.leb_le; lia).
    now rewrite firstn_app, firstn_all, Nat.sub_diag, firstn_O, app_nil_r, skipn_app, skipn_all, Nat.sub_diag.
  - assert (H : 0 <= Z.of_nat (length m) < 65536).
    { split; [lia|exact L]. }
    rewrite (Z.mod_small (Z.of_nat (length m) / 256)) by (Z.div_mod_to_equations; lia).
    rewrite (Z.mul_comm _ 256), <- Z.div_mod by lia. lia.
Qed.
(** the start of a stream of messages: a whole message, or none yet *)
Lemma cut_prefix fs b w f r : Forall short fs -> b ++ w = concat (map framed fs) -> cut b = Some (f, r) ->
  exists fs', fs = f :: fs' /\ r ++ w = concat (map framed fs').
Proof.
  intros F E C. destruct fs as [|g fs].
  { apply app_eq_nil in E as [-> _]. discriminate C. }
  apply Forall_cons_iff in F as [G F]. cbn [map concat] in E.
  assert (X : cut (b ++ w) = Some (f, r ++ w)).
  { clear - C. destruct b as [|h [|l [|p b]]]; [discriminate C..|]. cbn [app cut] in *. destruct (Nat.leb _ (length b)) eqn:L in C; [|discriminate C]. apply Nat.leb_le in L.
    assert (L2 : Nat.leb (Z.to_nat (h * 256 + l)) (length (b ++ w)) = true) by (apply Nat.leb_le; rewrite app_length; lia). rewrite L2.
    assert (D : (Z.to_nat (h * 256 + l) - length b = 0)%nat) by lia.
    rewrite firstn_app, skipn_app, D, firstn_O, skipn_O, app_nil_r. injection C as <- <-. reflexivity. }
  rewrite E, (cut_framed g _ G) in X. injection X as <- R. exists fs. split; [reflexivity|]. now rewrite R.
Qed.

(** ** What a step of the BSC adds *)
Definition deliv (es : list eff) : list (nat * list Z) := flat_map (fun e => match e with EDeliver i d => [(i, d)] | _ => [] end) es.
Definition okE (e : eff) : Prop := match e with ESend _ _ b => exists f, b = framed f | _ => True end.
Definition nodel (e : eff) : Prop := match e with EDeliver _ _ => False | _ => okE e end.
Definition grow (s s' : st) : Prop := exists es, out s' = out s ++ es /\ Forall nodel es.
Lemma grow_refl s : grow s s. Proof. exists []. now rewrite app_nil_r. Qed.
Lemma grow_trans a b c : grow a b -> grow b c -> grow a c.
Proof. intros (e & A & B) (f & C & D). exists (e ++ f). rewrite C, A, app_assoc. split; [easy|]. now apply Forall_app. Qed.
Lemma grow_same s s' : out s' = out s -> grow s s'.
Proof. intros E. exists []. now rewrite app_nil_r. Qed.
Lemma grow_emit s s' e : nodel e -> out s' = out s ++ [e] -> grow s s'.
Proof. intros N E. exists [e]. split; [easy|]. now constructor. Qed.
Definition gf (f : st -> option st) : Prop := forall s s', f s = Some s' -> grow s s'.

Lemma g_get s l t s' : line_get s l t = Some s' -> grow s s'.
Proof. unfold line_get. destruct (lines s l); [|discriminate]. intros H. injection H as <-. now apply grow_same. Qed.
Lemma g_put s l t s' : line_put s l t = Some s' -> grow s s'.
Proof.
  unfold line_put. destruct (lines s l); [|discriminate]. destruct (_ <=? 0); [discriminate|]. cbv zeta. destruct (_ =? 0); intros H; injection H as <-; [|now apply grow_same].
  apply (grow_emit _ _ (EFreeLine l)); easy.
Qed.
Lemma g_clean s l t s' : ka_cleanup s l t = Some s' -> grow s s'.
Proof.
  unfold ka_cleanup. destruct (lines s l); [|discriminate]. cbv zeta. destruct (t_ka _) as [k|]; [|intros H; injection H as <-; apply grow_refl].
  destruct (kas s k); [|discriminate]. intros H. injection H as <-. apply (grow_emit _ _ (EKaTerm k)); easy.
Qed.
Lemma g_alloc s l t c s' : ka_alloc s l t c = Some s' -> grow s s'.
Proof.
  unfold ka_alloc. destruct (ka_cleanup s l t) as [s1|] eqn:Q; [|discriminate]. apply g_clean in Q. intros H. apply (grow_trans _ s1); [easy|]. clear Q.
  destruct (kap s1); [|injection H as <-; apply grow_refl]. destruct (lines s1 l); [|discriminate H]. cbv zeta in H. injection H as <-. apply (grow_emit _ _ (EKaStart (nxt s1) c)); easy.
Qed.
Lemma g_closed f s c s' : gf f -> closed_cb f s c = Some s' -> grow s s'.
Proof.
  intros F. unfold closed_cb. destruct (find_conn s c) as [x|]; [|discriminate]. destruct (c_at x) as [[l t]|]; [|discriminate].
  destruct (line_get s l Ttmp) as [s1|] eqn:A; [|discriminate]. apply g_get in A. destruct (line_put s1 l Tbfd) as [s2|] eqn:B; [|discriminate]. apply g_put in B.
  destruct (ka_cleanup s2 l t) as [s3|] eqn:C; [|discriminate]. apply g_clean in C. cbv zeta. destruct (lines (set_at s3 c None) l) as [n|]; [|discriminate].
  match goal with |- match f ?z with _ => _ end = _ -> _ => set (s4 := z) end. destruct (f s4) as [s5|] eqn:D; [|discriminate]. apply F in D. intros H. apply g_put in H.
  apply (grow_trans _ s1); [easy|]. apply (grow_trans _ s2); [easy|]. apply (grow_trans _ s3); [easy|]. apply (grow_trans _ s4); [|now apply (grow_trans _ s5)].
  now apply (grow_emit _ _ (EDown l)).
Qed.
Lemma g_destroy f s c s' : gf f -> srv_destroy f s c = Some s' -> grow s s'.
Proof.
  intros F. unfold srv_destroy. destruct (find_conn s c); [|discriminate]. destruct (closed_cb f (emit s (EClose c)) c) as [s1|] eqn:Q; [|discriminate].
  apply (g_closed _ _ _ _ F) in Q. intros H. cbv zeta in H. injection H as <-. apply (grow_trans _ (emit s (EClose c))); [now apply (grow_emit _ _ (EClose c))|]. apply (grow_trans _ s1); [easy|]. now apply grow_same.
Qed.
Lemma g_ipclose f s l t s' : gf f -> ipaccess_close f s l t = Some s' -> grow s s'.
Proof.
  intros F. unfold ipaccess_close. destruct (lines s l) as [n|]; [|discriminate]. destruct (match t_ka (n_ts n t) with Some k => _ | None => _ end); [|discriminate].
  destruct (t_data (n_ts n t)); [now apply g_destroy|]. intros H. injection H as <-. apply grow_refl.
Qed.
Lemma g_unlink f s id s' : gf f -> sign_link_destroy f s id = Some s' -> grow s s'.
Proof.
  intros F. unfold sign_link_destroy. destruct (find_lk s id) as [k|]; [|intros H; injection H as <-; apply grow_refl]. cbv zeta.
  match goal with |- match ?z with _ => _ end = _ -> _ => destruct z as [s1|] eqn:Q end; [|discriminate]. apply (g_ipclose _ _ _ _ _ F) in Q. intros H. apply g_put in H.
  apply (grow_trans _ s1); [|easy]. exact Q.
Qed.
Lemma okE_send k c m : nodel (send_msg k c m).
Proof. unfold send_msg. destruct (known_type _); [|easy]. exists (l_tei k, m). reflexivity. Qed.
Lemma g_loop l t c : forall n s, grow s (write_loop n l t c s).
Proof.
  induction n as [|n IH]; intros s; cbn [write_loop]; [apply grow_refl|]. destruct (tx_ts l t (lks s)) as [[[k m] ks]|]; [|apply grow_refl].
  eapply grow_trans; [|apply IH]. apply (grow_emit _ _ (send_msg k c m)); [apply okE_send|easy].
Qed.
Lemma g_write s l t s' : write_cb s l t = Some s' -> grow s s'.
Proof.
  unfold write_cb. destruct (lines s l) as [n|]; [|discriminate]. destruct (t_data (n_ts n t)) as [c|]; [|intros H; injection H as <-; apply grow_refl].
  destruct (find_conn s c); [|discriminate]. destruct (negb _); [discriminate|]. intros H. injection H as <-. apply g_loop.
Qed.
Lemma g_send s id m s' : link_send s id m = Some s' -> grow s s'.
Proof.
  unfold link_send. destruct (find_lk s id) as [k|]; [|intros H; injection H as <-; apply grow_refl]. cbv zeta. intros H. apply g_write in H.
  eapply grow_trans; [|exact H]. now apply (grow_emit _ _ (EQueue id m)).
Qed.
Lemma g_create s l t ty tei sapi s' : link_create s l t ty tei sapi = Some s' -> grow s s'.
Proof.
  unfold link_create. destruct (lines s l) as [n|]; [|intros H; injection H as <-; apply grow_refl]. destruct (_ && _); [|intros H; injection H as <-; apply grow_refl].
  destruct (line_get s l Tlnk) as [s1|] eqn:Q; [|discriminate]. apply g_get in Q. intros H. injection H as <-. apply (grow_trans _ s1); [easy|]. now apply grow_same.
Qed.
Fixpoint depth (c : ucmd) : nat := match c with UDestroy _ d => S (list_sum (map depth d)) | _ => 1 end.
Lemma g_exec_n : forall n c, (depth c <= n)%nat -> gf (exec c).
Proof.
  induction n as [|n IH]; intros c L s s' H; [destruct c; cbn in L; lia|]. destruct c as [l t|l t ty tei sapi|k m|k d]; cbn [exec] in H.
  - injection H as <-. unfold config_sign. destruct (lines s l); [|apply grow_refl]. destruct (_ && _); [|apply grow_refl]. now apply grow_same.
  - now apply g_create in H.
  - now apply g_send in H.
  - revert H. apply g_unlink. cbn [depth] in L. clear s s'. revert L. induction d as [|c d IHd]; intros L s s' H; [injection H as <-; apply grow_refl|].
    cbn [map] in L. unfold list_sum in L. cbn [fold_right] in L. fold (list_sum (map depth d)) in L. destruct (exec c s) as [s1|] eqn:Q; [|discriminate H].
    apply (grow_trans _ s1); [apply (IH c); [lia|easy]|]. apply IHd; [lia|exact H].
Qed.
Lemma g_execs cs : gf (execs cs).
Proof.
  induction cs as [|c cs IH]; intros s s' H; cbn [execs] in H; [injection H as <-; apply grow_refl|]. destruct (exec c s) as [s1|] eqn:Q; [|discriminate H].
  apply (grow_trans _ s1); [now apply (g_exec_n (depth c) c)|now apply IH].
Qed.
Lemma g_oml s i d s' : oml_accept s i d = Some s' -> grow s s'.
Proof.
  unfold oml_accept, clone. cbv zeta. destruct (lines _ (nxt s)); [|discriminate]. destruct i; intros H.
  - injection H as <-. now apply grow_same.
  - apply (g_destroy _ _ _ _ (g_execs d)) in H. eapply grow_trans; [|exact H]. now apply grow_same.
Qed.
Lemma g_rsl s i d s' : rsl_accept s i d = Some s' -> grow s s'.
Proof.
  unfold rsl_accept, clone. cbv zeta. destruct (lines _ (nxt s)); [|discriminate]. destruct (rsl_ts 0); [|discriminate]. destruct i; intros H.
  - injection H as <-. now apply grow_same.
  - apply (g_destroy _ _ _ _ (g_execs d)) in H. eapply grow_trans; [|exact H]. now apply grow_same.
Qed.
Lemma g_rcvmsg e s c mt s' : rcvmsg e s c mt = Some s' -> grow s s'.
Proof.
  unfold rcvmsg. destruct (find_conn s c) as [x|]; [|discriminate]. destruct (c_at x) as [[l t]|]; [|discriminate]. destruct (lines s l) as [n|]; [|discriminate].
  match goal with |- match ?z with _ => _ end = _ -> _ => destruct z as [s1|] eqn:Q end; [|discriminate].
  assert (G1 : grow s s1).
  { destruct (t_ka _) as [k|]; [|injection Q as <-; apply grow_refl]. destruct (mt =? MSGT_PONG); [|injection Q as <-; apply grow_refl]. destruct (kas s k); [|discriminate Q].
    injection Q as <-. now apply (grow_emit _ _ (EKaPong k)). }
  clear Q. cbv zeta. intros H. apply (grow_trans _ s1); [easy|]. clear G1 s.
  destruct (e_base e =? 1); [injection H as <-; apply grow_refl|].
  destruct (negb _); [now apply (g_destroy _ _ _ _ (g_execs _)) in H|]. destruct (negb _); [now apply (g_destroy _ _ _ _ (g_execs _)) in H|].
  destruct (e_unit e) as [trx|]; [|now apply (g_destroy _ _ _ _ (g_execs _)) in H].
  destruct (_ =? OML).
  - destruct (execs (e_up e) _) as [s2|] eqn:U; [|discriminate H]. apply g_execs in U. apply (grow_trans _ (emit s1 (EUp l OML))); [now apply (grow_emit _ _ (EUp l OML))|]. apply (grow_trans _ s2); [easy|].
    destruct (up_ret s2 e); [|now apply (g_destroy _ _ _ _ (g_execs _)) in H]. destruct (find_conn s2 c); [|discriminate H]. now apply g_alloc in H.
  - destruct (_ =? RSL); [|injection H as <-; apply grow_refl].
    destruct (execs (e_up e) _) as [s2|] eqn:U; [|discriminate H]. apply g_execs in U. apply (grow_trans _ (emit s1 (EUp l RSL))); [now apply (grow_emit _ _ (EUp l RSL))|]. apply (grow_trans _ s2); [easy|].
    destruct (up_ret s2 e) as [k|]; [|now apply (g_destroy _ _ _ _ (g_execs _)) in H]. destruct (Nat.eqb _ l); [injection H as <-; apply grow_refl|].
    destruct (line_get s2 (l_line k) Tbfd) as [s3|] eqn:A; [|discriminate H]. apply g_get in A. destruct (rsl_ts trx) as [nt|]; [|discriminate H].
    destruct (lines s3 (l_line k)) as [nn|]; [|discriminate H]. cbv zeta in H.
    match type of H with match find_conn ?z c with _ => _ end = _ => set (s4 := z) in H end. destruct (find_conn s4 c); [|discriminate H].
    destruct (lines (set_at s4 c (Some (l_line k, nt))) l) as [m|]; [|discriminate H]. destruct (negb _); [discriminate H|].
    match type of H with match line_put ?z l Tbfd with _ => _ end = _ => set (s5 := z) in H end. destruct (line_put s5 l Tbfd) as [s6|] eqn:B; [|discriminate H]. apply g_put in B.
    destruct (ka_alloc s6 (l_line k) nt c) as [s7|] eqn:C; [|discriminate H]. apply g_alloc in C. apply g_write in H.
    apply (grow_trans _ s3); [easy|]. apply (grow_trans _ s5); [now apply grow_same|]. apply (grow_trans _ s6); [easy|]. now apply (grow_trans _ s7).
Qed.
(** ... and the message a read callback hands over *)
Definition hands (s : st) (v : ev) (i : nat) (d : list Z) : Prop :=
  exists e c p x l t k, v = Rx e c (Some (p, d)) /\ find_conn s c = Some x /\ c_at x = Some (l, t) /\ (p =? PROTO_IPACCESS) = false /\ lookup_link s l t p 0 = Some k /\ l_id k = i.
Lemma step_bsc s v s' : step s v = Some s' -> grow s s' \/
  exists i d es, hands s v i d /\ out s' = out s ++ EDeliver i d :: es /\ Forall nodel es.
Proof.
  destruct v as [i d|i d|e c m|k d|u]; cbn [step]; intros H.
  - left. now apply g_oml in H.
  - left. now apply g_rsl in H.
  - destruct (find_conn s c) as [x|] eqn:F; [|injection H as <-; left; apply grow_refl]. unfold read_cb in H. rewrite F in H.
    destruct (c_at x) as [[l t]|] eqn:A; [|discriminate H]. destruct (lines s l) as [n|]; [|discriminate H]. cbv zeta in H.
    destruct m as [[p d]|]; [|left; now apply (g_destroy _ _ _ _ (g_execs _)) in H].
    destruct (p =? PROTO_IPACCESS) eqn:P; [left; now apply g_rcvmsg in H|]. destruct (negb _); [left; now apply (g_destroy _ _ _ _ (g_execs _)) in H|].
    destruct (lookup_link s l t p 0) as [k|] eqn:L; [|left; now apply (g_destroy _ _ _ _ (g_execs _)) in H].
    destruct (execs (e_act e) (emit s (EDeliver (l_id k) d))) as [s1|] eqn:Q; [|discriminate H]. apply g_execs in Q. right.
    assert (X : s' = s1) by (destruct (e_rc e); [destruct (lines s1 l); [|discriminate H]|]; now injection H as <-). subst s'.
    destruct Q as (es & O & N). exists (l_id k), d, es. split; [exists e, c, p, x, l, t, k; tauto|]. split; [|easy]. rewrite O. cbn. now rewrite <- app_assoc.
  - unfold ka_timeout in H. left. destruct (kas s k); [now apply (g_destroy _ _ _ _ (g_execs _)) in H|]. injection H as <-. apply grow_refl.
  - left. now apply (g_exec_n (depth u) u) in H.
Qed.
