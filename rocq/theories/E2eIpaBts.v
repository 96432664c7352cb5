(** Proofs for C82: what a step of the BTS adds. *)
From Coq Require Import List Arith Lia Bool ZArith.
From Verif Require Import Base IpaccessModel IpaccessBtsModel E2eIpaModel E2eIpaProofs.
Import ListNotations.
Open Scope Z_scope.

Definition nodel (e : beff) : Prop := match e with BDeliver _ _ => False | BSend _ _ b => exists f, b = framed f | _ => True end.
Definition grow (s s' : bst) : Prop := exists es, out s' = out s ++ es /\ Forall nodel es.
Lemma grow_refl s : grow s s. Proof. exists []. now rewrite app_nil_r. Qed.
Lemma grow_trans a b c : grow a b -> grow b c -> grow a c.
Proof. intros (e & A & B) (f & C & D). exists (e ++ f). rewrite C, A, app_assoc. split; [easy|]. now apply Forall_app. Qed.
Lemma grow_same s s' : out s' = out s -> grow s s'.
Proof. intros E. exists []. now rewrite app_nil_r. Qed.
Lemma grow_emit s s' e : nodel e -> out s' = out s ++ [e] -> grow s s'.
Proof. intros N E. exists [e]. split; [easy|]. now constructor. Qed.
Definition gf (f : bst -> res bst) : Prop := forall s s', f s = Ok s' -> grow s s'.
Ltac ok H := injection H as <-.

Lemma g_clean s t s' : ka_cleanup s t = Ok s' -> grow s s'.
Proof.
  unfold ka_cleanup. cbv zeta. destruct (b_ka _) as [k|]; [|intros H; ok H; apply grow_refl]. destruct (kas s k); [|discriminate]. intros H. ok H. now apply (grow_emit _ _ (BKaTerm k)).
Qed.
Lemma g_alloc s t c s' : ka_alloc s t c = Ok s' -> grow s s'.
Proof. unfold ka_alloc. cbv zeta. destruct (b_ka _); [discriminate|]. destruct (kap s); intros H; ok H; now apply grow_same. Qed.
Lemma g_down f s t s' : gf f -> down_cb f s t = Ok s' -> grow s s'.
Proof.
  intros F. unfold down_cb. destruct (ka_cleanup s t) as [s1|] eqn:Q; [|discriminate]. apply g_clean in Q. intros H. apply F in H. apply (grow_trans _ s1); [easy|].
  eapply grow_trans; [|exact H]. now apply (grow_emit _ _ (BDown t)).
Qed.
Lemma g_close f s c s' : gf f -> cli_close f s c = Ok s' -> grow s s'.
Proof.
  intros F. unfold cli_close. destruct (find_cli s c) as [x|]; [|discriminate]. destruct (c_open x); [|intros H; ok H; apply grow_refl]. intros H. apply (g_down _ _ _ _ F) in H.
  eapply grow_trans; [|exact H]. now apply (grow_emit _ _ (BClose c)).
Qed.
Lemma g_free s c : grow s (cli_free s c).
Proof. unfold cli_free. destruct (find_cli s c); [|apply grow_refl]. now apply (grow_emit _ _ (BFree c)). Qed.
Lemma g_destroy f s c s' : gf f -> cli_destroy f s c = Ok s' -> grow s s'.
Proof. intros F. unfold cli_destroy. destruct (cli_close f s c) as [s1|] eqn:Q; [|discriminate]. apply (g_close _ _ _ _ F) in Q. intros H. ok H. apply (grow_trans _ s1); [easy|]. apply g_free. Qed.
Lemma g_drop f s t s' : gf f -> rsl_drop f s t = Ok s' -> grow s s'.
Proof.
  intros F. unfold rsl_drop. destruct (negb (il s)); [intros H; ok H; apply grow_refl|]. destruct (ka_cleanup s t) as [s1|] eqn:Q; [|discriminate]. apply g_clean in Q. cbv zeta.
  destruct (tab _ t) as [c|].
  - destruct (cli_destroy f _ c) as [s2|] eqn:D; [|discriminate]. apply (g_destroy _ _ _ _ F) in D. intros H. ok H. apply (grow_trans _ s1); [easy|]. apply (grow_trans _ s2); [|now apply grow_same].
    eapply grow_trans; [|exact D]. now apply grow_same.
  - intros H. ok H. apply (grow_trans _ s1); [easy|]. now apply grow_same.
Qed.
Lemma g_close_n f s trx s' : gf f -> rsl_close_n f s trx = Ok s' -> grow s s'.
Proof.
  intros F. unfold rsl_close_n. destruct (in_range trx); [|intros H; ok H; now apply (grow_emit _ _ (BRet (-22)))]. destruct (rsl_drop f s (1 + trx)) as [s1|] eqn:Q; [|discriminate].
  apply (g_drop _ _ _ _ F) in Q. intros H. ok H. apply (grow_trans _ s1); [easy|]. now apply (grow_emit _ _ (BRet 0)).
Qed.
Lemma g_start s t a p i s' : cli_start s t a p i = Ok s' -> grow s s'.
Proof.
  unfold cli_start. destruct i; [|intros H; ok H; now apply (grow_emit _ _ (BRet (-5)))]. cbv zeta.
  destruct (ka_alloc _ t (nxt s)) as [s1|] eqn:Q; [|discriminate]. apply g_alloc in Q. intros H. ok H. apply (grow_trans _ s1); [|now apply (grow_emit _ _ (BRet 0))].
  eapply grow_trans; [|exact Q]. now apply (grow_emit _ _ (BConnect (nxt s) t a p)).
Qed.
Lemma g_connect f s trx a p i s' : gf f -> rsl_connect_n f s trx a p i = Ok s' -> grow s s'.
Proof.
  intros F. unfold rsl_connect_n. destruct (in_range trx).
  - destruct (rsl_ts trx) as [t|]; [|discriminate]. destruct (rsl_drop f s t) as [s1|] eqn:Q; [|discriminate]. apply (g_drop _ _ _ _ F) in Q. cbv zeta. intros H. apply g_start in H.
    apply (grow_trans _ s1); [easy|]. eapply grow_trans; [|exact H]. now apply grow_same.
  - destruct (rsl_ts trx); [intros H; ok H; now apply (grow_emit _ _ (BRet (-22)))|]. destruct (logs s); [discriminate|]. intros H; ok H; now apply (grow_emit _ _ (BRet (-22))).
Qed.
Lemma g_update f s a i s' : gf f -> line_update f s a i = Ok s' -> grow s s'.
Proof.
  intros F. unfold line_update. cbv zeta. destruct (tab (set_il s) oml_ts) as [c|].
  - destruct (cli_close f (set_il s) c) as [s1|] eqn:A; [|discriminate]. apply (g_close _ _ _ _ F) in A. destruct (ka_cleanup s1 oml_ts) as [s2|] eqn:B; [|discriminate]. apply g_clean in B.
    destruct (tab _ oml_ts) as [c'|]; [|discriminate]. destruct (cli_destroy f _ c') as [s3|] eqn:D; [|discriminate]. apply (g_destroy _ _ _ _ F) in D. intros H. apply g_start in H.
    apply (grow_trans _ (set_il s)); [now apply grow_same|]. apply (grow_trans _ s1); [easy|]. apply (grow_trans _ s2); [easy|]. apply (grow_trans _ s3); [eapply grow_trans; [|exact D]; now apply grow_same|].
    eapply grow_trans; [|exact H]. now apply grow_same.
  - intros H. apply g_start in H. eapply grow_trans; [|exact H]. now apply grow_same.
Qed.
Lemma g_ipclose f s t s' : gf f -> ipaccess_close f s t = Ok s' -> grow s s'.
Proof.
  intros F. unfold ipaccess_close. match goal with |- match ?z with _ => _ end = _ -> _ => destruct z as [s1|] eqn:Q end; [|discriminate].
  assert (G : grow s s1).
  { destruct (b_ka _) as [k|]; [destruct (kas s k); [|discriminate Q]; ok Q; now apply (grow_emit _ _ (BKaStop k))|ok Q; apply grow_refl]. }
  destruct (stream_cli s1 t) as [c|]; [|discriminate]. destruct (cli_close f s1 c) as [s2|] eqn:D; [|discriminate]. apply (g_close _ _ _ _ F) in D. intros H. ok H.
  apply (grow_trans _ s1); [easy|]. apply (grow_trans _ s2); [easy|]. now apply grow_same.
Qed.
Lemma g_unlink f s id s' : gf f -> link_destroy f s id = Ok s' -> grow s s'.
Proof.
  intros F. unfold link_destroy. destruct (find_lk s id); [|intros H; ok H; apply grow_refl]. intros H. apply (g_ipclose _ _ _ _ F) in H. eapply grow_trans; [|exact H]. now apply grow_same.
Qed.
Lemma nodel_eff es : Forall E2eIpaProofs.nodel es -> Forall nodel (flat_map bts_eff es).
Proof. induction 1 as [|e es H F IH]; [constructor|]. cbn [flat_map]. apply Forall_app. split; [|exact IH]. destruct e; cbn [bts_eff]; repeat constructor; exact H. Qed.
Lemma g_write s t s' : write_cb s t = Ok s' -> grow s s'.
Proof.
  unfold write_cb. destruct (stream_cli s t) as [c|]; [|discriminate]. destruct (find_cli s c); [|discriminate]. destruct (negb _); [discriminate|]. cbv zeta. intros H. ok H.
  match goal with |- context [write_loop ?n ?l ?t ?c ?z] => destruct (g_loop l t c n z) as (es & O & N); cbn [IpaccessModel.out] in O end.
  exists (flat_map bts_eff es). cbn [out]. rewrite O. split; [reflexivity|]. now apply nodel_eff.
Qed.
Lemma g_send s id m s' : link_send s id m = Ok s' -> grow s s'.
Proof.
  unfold link_send. destruct (find_lk s id) as [k|]; [|intros H; ok H; apply grow_refl]. intros H. apply g_write in H. eapply grow_trans; [|exact H]. now apply (grow_emit _ _ (BQueue id m)).
Qed.
Fixpoint depth (c : ucmd) : nat := match c with UDestroy _ d | UConnect _ _ _ _ d | UClose _ d | UUpdate _ _ d => S (list_sum (map depth d)) | _ => 1 end.
Lemma g_exec_n : forall n c, (depth c <= n)%nat -> gf (exec c).
Proof.
  induction n as [|n IH]; intros c L s s' H; [destruct c; cbn in L; lia|].
  assert (D : forall d, (list_sum (map depth d) <= n)%nat -> gf (execs d)).
  { clear s s' H L. induction d as [|x d IHd]; intros L s s' H; cbn [execs] in H; [ok H; apply grow_refl|]. cbn [map] in L. unfold list_sum in L. cbn [fold_right] in L. fold (list_sum (map depth d)) in L.
    destruct (exec x s) as [s1|] eqn:Q; [|discriminate H]. apply (grow_trans _ s1); [apply (IH x); [lia|easy]|]. apply IHd; [lia|exact H]. }
  destruct c as [t|t ty tei sapi|k m|k d|trx a p i d|trx d|a i d]; cbn [exec] in H; cbn [depth] in L.
  - ok H. destruct (Nat.ltb _ _); [now apply grow_same|apply grow_refl].
  - ok H. unfold link_create. destruct (_ && _); [now apply grow_same|apply grow_refl].
  - now apply g_send in H.
  - revert H. apply g_unlink. apply D. lia.
  - revert H. apply g_connect. apply D. lia.
  - revert H. apply g_close_n. apply D. lia.
  - revert H. apply g_update. apply D. lia.
Qed.
Lemma g_execs cs : gf (execs cs).
Proof.
  induction cs as [|c cs IH]; intros s s' H; cbn [execs] in H; [ok H; apply grow_refl|]. destruct (exec c s) as [s1|] eqn:Q; [|discriminate H].
  apply (grow_trans _ s1); [now apply (g_exec_n (depth c) c)|now apply IH].
Qed.
Lemma g_running f s c s' : gf f -> close_running f s c = Ok s' -> grow s s'.
Proof. intros F. unfold close_running. destruct (find_cli s c); [now apply g_close|]. intros H. ok H. apply grow_refl. Qed.
Lemma g_ccm e s x d s' o : handle_ccm e s x d = Ok (s', o) -> grow s s'.
Proof.
  unfold handle_ccm. destruct d as [|mt d]; [discriminate|]. match goal with |- match ?z with _ => _ end = _ -> _ => destruct z as [s1|] eqn:Q end; [|discriminate].
  assert (G : grow s s1).
  { destruct (b_ka _) as [k|]; [|ok Q; apply grow_refl]. destruct (mt =? _); [|ok Q; apply grow_refl]. destruct (kas s k); [|discriminate Q]. ok Q. now apply (grow_emit _ _ (BKaPong k)). }
  destruct (negb _); [intros H; injection H as <- _; easy|]. destruct (mt =? MSGT_ID_GET); [|intros H; injection H as <- _; easy]. cbv zeta.
  destruct (e_id e); intros H; injection H as <- _; apply (grow_trans _ s1); try easy; [|now apply grow_same].
  eapply grow_trans; [now apply (grow_emit s1 (emit (set_unit s1 (unit_trx s1)) (BIdResp (c_id x) (ts_trx_nr (ts_num (c_ts x))))) (BIdResp (c_id x) (ts_trx_nr (ts_num (c_ts x)))))|].
  now apply (grow_emit _ _ (BIdAck (c_id x))).
Qed.
Definition hands (s : bst) (v : ev) (i : nat) (d : list Z) : Prop :=
  exists e c p x k, v = Rx e c (Some (p, d)) /\ find_cli s c = Some x /\ c_open x = true /\ (p =? PROTO_IPACCESS) = false /\ lookup_link s (c_ts x) p 0 = Some k /\ l_id k = i.
Lemma step_bts s v s' : step s v = Ok s' -> grow s s' \/
  exists i d es, hands s v i d /\ out s' = out s ++ BDeliver i d :: es /\ Forall nodel es.
Proof.
  destruct v as [u|c|c d|e c m|k d]; cbn [step]; intros H.
  - left. now apply (g_exec_n (depth u) u) in H.
  - left. unfold if_open in H. destruct (find_cli s c) as [x|]; [|ok H; apply grow_refl]. destruct (c_open x); [|ok H; apply grow_refl]. unfold connect_cb in H.
    destruct (b_ka _) as [k|]; [|ok H; apply grow_refl]. destruct (kap s); [|ok H; apply grow_refl]. destruct (kas s k); [|discriminate H]. ok H. now apply (grow_emit _ _ (BKaStart k)).
  - left. unfold if_open in H. destruct (find_cli s c) as [x|]; [|ok H; apply grow_refl]. destruct (c_open x); [|ok H; apply grow_refl]. now apply (g_close _ _ _ _ (g_execs _)) in H.
  - unfold if_open in H. destruct (find_cli s c) as [x|] eqn:F; [|ok H; left; apply grow_refl]. destruct (c_open x) eqn:O; [|ok H; left; apply grow_refl]. unfold read_cb in H. cbv zeta in H.
    destruct m as [[p d]|]; [|left; now apply (g_running _ _ _ _ (g_execs _)) in H]. destruct (p =? PROTO_IPACCESS) eqn:P.
    + left. destruct (handle_ccm e s x d) as [[s1 o]|] eqn:Q; [|discriminate H]. apply g_ccm in Q. apply (grow_trans _ s1); [easy|].
      destruct (negb o); [now apply (g_running _ _ _ _ (g_execs _)) in H|]. destruct (_ =? MSGT_ID_GET); [|ok H; apply grow_refl].
      destruct (execs (e_up e) _) as [s2|] eqn:U; [|discriminate H]. apply g_execs in U. apply (grow_trans _ s2); [eapply grow_trans; [|exact U]; eapply grow_emit; [|reflexivity]; exact Logic.I|].
      destruct (e_ret e); [ok H; apply grow_refl|now apply (g_running _ _ _ _ (g_execs _)) in H].
    + destruct (negb _); [discriminate H|]. destruct (lookup_link s (c_ts x) p 0) as [k|] eqn:L; [|left; now apply (g_running _ _ _ _ (g_execs _)) in H].
      apply g_execs in H. right. destruct H as (es & E & N). exists (l_id k), d, es. split; [exists e, c, p, x, k; tauto|]. split; [|easy]. rewrite E. cbn. now rewrite <- app_assoc.
  - left. unfold ka_timeout in H. destruct (kas s k); [|ok H; apply grow_refl]. destruct (find_cli s _) as [x|]; [|discriminate H]. now apply (g_down _ _ _ _ (g_execs _)) in H.
Qed.
